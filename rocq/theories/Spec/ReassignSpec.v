(** Vocabulary for assigning a new file list to a scheduler in use. *)
From Coq Require Import List Arith String Bool.
From Verif Require Import Prelude Model.Base Spec.BaseSpec.
Import ListNotations.

(** The last of the first [N] slices of the list is slice number [r] (from 1) of
    the file at place [i] (from 0). *)
Definition last_place (C : string -> content) (fl : list string) (N i r : nat) : Prop :=
  exists p, nth_error fl i = Some p /\ 1 <= r <= List.length (slices_of C p) /\
    N = List.length (epoch C (firstn i fl)) + r.

(** How many slices of the new list count as delivered: those of the files
    before place [i], and the [r] first ones of the file at place [i] if it is
    the same path as in the old list. *)
Definition counted (C : string -> content) (fl fl' : list string) (i r : nat) : nat :=
  List.length (epoch C (firstn i fl')) +
  match nth_error fl i, nth_error fl' i with
  | Some p, Some q => if String.eqb p q then r else 0
  | _, _ => 0
  end.

(** The list never gets shorter while it is read. *)
Definition growing (seen : nat -> list string) : Prop :=
  forall m n, m <= n -> List.length (seen m) <= List.length (seen n).

(** The list is replaced just before read number [m]. *)
Definition replaced (fl fl' : list string) (m n : nat) : list string := if n <? m then fl else fl'.

(** The slices of all lists that are seen have the same shapes. *)
Definition all_uniform (C : string -> content) (seen : nat -> list string) : Prop :=
  exists F I1 I2, List.length F = 3 /\ List.length I1 = 2 /\ List.length I2 = 2 /\
    forall m x, In x (epoch C (seen m)) -> stackable F I1 I2 x.
