(** Python slices by positions, for C69; .flo headers for C87. *)
From Coq Require Import List Arith ZArith Bool.
From Verif Require Import Spec.ScriptsSpec.
Import ListNotations.
Local Open Scope nat_scope.

(** The elements of [l] whose position satisfies [P], in order. *)
Definition positions {A} (l : list A) (P : Z -> bool) : list A :=
  map snd (filter (fun x => P (Z.of_nat (fst x))) (combine (seq 0 (List.length l)) l)).

(** Position [i] of [n] is not before / is before the bound [a] of a slice;
    negative bounds count from the end. *)
Definition not_before (n : nat) (a i : Z) : bool := (if a <? 0 then Z.of_nat n + a <=? i else a <=? i)%Z.
Definition before (n : nat) (b i : Z) : bool := (if b <? 0 then i <? Z.of_nat n + b else i <? b)%Z.

Definition is_byte (z : Z) : Prop := (0 <= z <= 255)%Z.

(** The four bytes of a negative number. *)
Definition negative_bytes (b : list Z) : Prop := exists b0 b1 b2 b3, b = [b0; b1; b2; b3] /\ (128 <= b3)%Z.

(** A .flo file in which the width or the height is given as a negative number:
    its vectors are all there are, up to fewer than four bytes. *)
Definition flo_open (h w : nat) (vectors : list (Z * Z * Z * Z)) (bytes : list Z) : Prop :=
  exists wb hb rest,
    bytes = ([80; 73; 69; 72] ++ wb ++ hb ++
             flat_map (fun v => let '(a, b, c, d) := v in [a; b; c; d]) vectors ++ rest)%Z%list /\
    List.length rest < 4 /\
    (negative_bytes wb /\ hb = le_bytes (Z.of_nat h) /\ 0 < h /\ (Z.of_nat h < 2147483648)%Z \/
     wb = le_bytes (Z.of_nat w) /\ 0 < w /\ (Z.of_nat w < 2147483648)%Z /\ negative_bytes hb).
