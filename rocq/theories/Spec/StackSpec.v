(** Vocabulary for the properties of stacked schedulers. *)
From Coq Require Import List Arith ZArith String Bool.
From Verif Require Import Prelude Model.Base Model.Prefetch Model.Sampler Model.Stack.
Import ListNotations.
Local Open Scope nat_scope.

(** Nothing that the consumer sees: an element dropped for the end marker. *)
Inductive silent {sc : sched} : event sc -> Prop :=
| silent_drop : forall i, silent (EvDrop i).

(** The event that ends a call of [get_batch], and what the caller gets. *)
Inductive answers {si : sif} {len : option nat} {B : nat} :
    event (sched_of si len B) -> result (fdata (si_flow si) (si_img si)) -> Prop :=
| ans_return : forall b : sc_batch (sched_of si len B), answers (EvReturn b) (Ok b)
| ans_marker : answers EvStopEos (Err StopIteration)
| ans_timeout : answers EvStopTimeout (Err StopIteration)
| ans_end : answers EvEpisodeEnd (Err EpisodeEnd)
| ans_size : answers EvValueError (Err ValueError).

(** The background thread keeps up: while the consumer waits it gets at least
    five steps (enough to fetch one batch, even across the end of an episode),
    and no deadline expires. *)
Definition prompt (tm : timing) : Prop :=
  forall i, 5 <= fst (snd (tm i)) /\ snd (fst (tm i)) = false /\ snd (snd (tm i)) = false.
