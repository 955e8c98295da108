(** What a user may assume about a freshly constructed scheduler's file list. *)
From Coq Require Import List Arith String Bool Sorting.Permutation Sorting.Sorted.
From Verif Require Import Prelude Model.Base Model.Files.
Import ListNotations.

Definition str_le (a b : string) : Prop := str_leb a b = true.

(** The files an argument stands for: itself, or, for a directory, all the
    matching files in lexicographic order. *)
Definition stands_for (f : fs) (pattern : string) (p : string) (seg : list string) : Prop :=
  (fs_isdir f p = false /\ seg = [p]) \/
  (fs_isdir f p = true /\ Permutation seg (fs_glob f p pattern) /\ Sorted str_le seg).

(** [s] ends with [suffix]. *)
Definition has_suffix (s suffix : string) : Prop := exists a, s = (a ++ suffix)%string.
