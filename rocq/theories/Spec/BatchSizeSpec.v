(** Batch sizes of any type: vocabulary for C126. *)
From Coq Require Import List Arith ZArith QArith String Bool.
From Verif Require Import Prelude Model.PyVal Model.Base Model.Episodic Model.BatchSize.
Import ListNotations.
Local Open Scope nat_scope.

(** The value is the integer [i] (True is 1, False is 0). *)
Definition the_int (v : pyval) (i : Z) : Prop :=
  v = PInt i \/ (v = PBool true /\ i = 1%Z) \/ (v = PBool false /\ i = 0%Z).

(** The value is a number equal to [n]. *)
Definition equals (v : pyval) (n : nat) : Prop :=
  the_int v (Z.of_nat n) \/ exists q, v = PFloat (Fin q) /\ q == inject_Z (Z.of_nat n).

(** NumPy makes [n] entries for the value; or it raises [e]. *)
Definition takes (z : npsizes) (v : pyval) (n : nat) : Prop :=
  the_int v (Z.of_nat n) /\ nz_fails z n = None /\ ((exists b, v = PBool b) -> nz_bool z = true).

Inductive refuses (z : npsizes) : pyval -> exn -> Prop :=
| R_negative i : (i < 0)%Z -> refuses z (PInt i) ValueError
| R_type v : (forall i, ~ the_int v i) -> refuses z v TypeError
| R_bool b : nz_bool z = false -> refuses z (PBool b) TypeError
| R_memory v n e : the_int v (Z.of_nat n) -> ((exists b, v = PBool b) -> nz_bool z = true) ->
    nz_fails z n = Some e -> refuses z v e.

(** A run of calls [ops] with results [rs] against the run [ops'], [rs'] in
    which the refused calls are left out. *)
Inductive without_refused (z : npsizes) : list vop -> list obs -> list op -> list obs -> Prop :=
| W_nil : without_refused z [] [] [] []
| W_refused v e ops rs ops' rs' : refuses z v e -> without_refused z ops rs ops' rs' ->
    without_refused z (VGet v :: ops) (ORes (CRaise e) :: rs) ops' rs'
| W_taken v n r ops rs ops' rs' : takes z v n -> without_refused z ops rs ops' rs' ->
    without_refused z (VGet v :: ops) (r :: rs) (OGet n :: ops') (r :: rs')
| W_reset ops rs ops' rs' : without_refused z ops rs ops' rs' ->
    without_refused z (VReset :: ops) (OUnit :: rs) (OReset :: ops') (OUnit :: rs').
