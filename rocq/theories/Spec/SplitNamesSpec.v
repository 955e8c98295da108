(** Names in the dataset lists: vocabulary for C85. *)
From Coq Require Import List Arith String Bool Ascii.
From Verif Require Import Prelude Spec.ScriptsSpec.
Import ListNotations.
Local Open Scope string_scope.
Local Open Scope nat_scope.

Definition decimal_digit (a : ascii) : Prop := In (nat_of_ascii a) [48; 49; 50; 51; 52; 53; 54; 55; 56; 57].
(** One digit or more. *)
Definition number (s : string) : Prop := s <> "" /\ forall a, mem a s -> decimal_digit a.

(** [n] has "_Re<number>_" after [p]. *)
Definition reynolds_at (n p ds q : string) : Prop := n = p ++ "_Re" ++ ds ++ "_" ++ q /\ number ds.
(** The first such mark in [n] is "_<g>_". *)
Definition reynolds (n g : string) : Prop :=
  exists p ds q, reynolds_at n p ds q /\ g = "Re" ++ ds /\
    forall p' ds' q', reynolds_at n p' ds' q' -> String.length p <= String.length p'.

(** [x] is the name [n] without its extension: what follows the last dot, if
    that is not the first character and something follows it. *)
Definition stem_of (n x : string) : Prop :=
  (exists e, n = x ++ "." ++ e /\ x <> "" /\ e <> "" /\ ~ mem "." e) \/
  (n = x /\ (~ mem "." n \/ (exists e, n = "." ++ e /\ ~ mem "." e) \/ exists y, n = y ++ ".")).
