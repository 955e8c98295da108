(** Vocabulary for the properties about random keys. *)
From Coq Require Import List Arith ZArith.
From Verif Require Import Prelude Model.Keys.
Import ListNotations.

(** [above a k]: [k] is derived from [a] by one or more splits. *)
Inductive above (a : key) : key -> Prop :=
| above_child i : above a (Child a i)
| above_step k i : above a k -> above a (Child k i).

(** The key the [j]-th reset of an episodic scheduler created with [k] draws
    its windows from, [j] counted from 0 at construction (episodic.py:260). *)
Fixpoint window_key (k : key) (j : nat) : key :=
  match j with 0 => Child k 1 | S j => window_key (Child k 0) j end.
