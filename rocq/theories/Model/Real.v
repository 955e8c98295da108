(** Model of RealImageSampler as a whole, src/synthpix/sampler/real.py: its
    constructor and the calls of its consumer (_get_next and __next__ are in
    Model/Sampler.v). *)
From Coq Require Import List Arith ZArith String Bool.
From Verif Require Import Prelude Model.PyVal Model.Types Model.Base Model.Sampler Model.Make.
Import ListNotations.
Local Open Scope string_scope.
Local Open Scope nat_scope.

(** [RealImageSampler(scheduler, batch_size)], real.py:21-40, after
    [Sampler.__init__], base.py:31-52, for a scheduler of the package (so the
    TypeError of base.py:38-39 cannot occur): the batch size of the sampler. *)
Definition real_sampler (sch : scheduler) (batch_size : pyval) : result nat :=
  bind (pos_int batch_size) (fun B => bind (real_init_ok (stack_of sch)) (fun _ => Ok B)).

(** [RealImageSampler.from_config], real.py:62-75. *)
Definition real_from_config (sch : scheduler) (config : list (string * pyval)) : result nat :=
  real_sampler sch (dict_get config "batch_size" (PInt 1)).

(** [reset], base.py:96-104: [_reset] is not overridden in real.py, so there is
    nothing to forget but the scheduler's position. *)
Definition real_reset (si : sif) (scheduler_reset : bool) (u : si_state si) : si_state si :=
  if scheduler_reset then si_reset si u else u.

(** [next_episode], base.py:106-116. *)
Definition real_next_episode (si : sif) (u : si_state si) : result unit * si_state si :=
  if si_protocol si then si_next si u else (Err AttributeError, u).

(** A consumer's calls and what it observes. *)
Definition do_rop (si : sif) (B : nat) (o : sop) (u : si_state si)
  : @sobs (si_flow si) (si_img si * si_img si) * si_state si :=
  match o with
  | SNext => match real_next si B u with (Ok b, u') => (SBatch b, u') | (Err e, u') => (SRaise e, u') end
  | SReset r => (SUnit, real_reset si r u)
  | SNextEpisode => match real_next_episode si u with (Ok _, u') => (SUnit, u') | (Err e, u') => (SRaise e, u') end
  end.

Fixpoint rrun (si : sif) (B : nat) (ops : list sop) (u : si_state si) :=
  match ops with
  | [] => ([], u)
  | o :: ops =>
      let (r, u1) := do_rop si B o u in
      let (rs, u2) := rrun si B ops u1 in
      (r :: rs, u2)
  end.
