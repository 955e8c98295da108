(** What a consumer has seen after a list of calls. *)
From Coq Require Import List.
From Verif Require Import Prelude Model.Sampler Model.Shutdown.
Import ListNotations.

(** The batches it was given. *)
Definition shown {o i : Type} (rs : list (@sobs o i)) : list (batch o i) :=
  flat_map (fun r => match r with SBatch b => [b] | _ => [] end) rs.

(** How often an exception was raised. *)
Definition raised {o i : Type} (rs : list (@sobs o i)) : nat :=
  List.length (filter (fun r => match r with SRaise _ => true | _ => false end) rs).

(** The calls of [next] among those of the consumer. *)
Definition count_next (os : list call) : nat :=
  List.length (filter (fun o => match o with Call SNext => true | _ => false end) os).
