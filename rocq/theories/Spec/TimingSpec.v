(** Vocabulary for the independence of a run from the timing of its threads. *)
From Coq Require Import List Arith ZArith String Bool.
From Verif Require Import Prelude Model.Base Model.Sampler Model.Stack Model.Make.
Import ListNotations.
Local Open Scope nat_scope.

(** An episode just begun is not over. *)
Definition fresh_episodes (si : sif) (B : nat) : Prop :=
  forall u u1 x u2, si_get si B u = (Err EpisodeEnd, u1) -> si_next si u1 = (Ok x, u2) -> fst (si_get si B u2) <> Err EpisodeEnd.

(** Resetting this scheduler leads to one and the same point whatever has been
    read ahead meanwhile: nothing is read ahead, or what is read ahead is forgotten. *)
Definition starts_over (sch : scheduler) : Prop :=
  match sch with
  | SPrefetch _ _ (SFile _ c _) => c_randomize c = false
  | SPrefetch _ _ _ => False
  | _ => True
  end.
