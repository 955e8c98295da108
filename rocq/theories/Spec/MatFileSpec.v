(** What MATLAB and h5py put into a .mat file, and motion between pictures:
    vocabulary for C122. *)
From Coq Require Import List Arith ZArith String Ascii Bool QArith.
From Verif Require Import Prelude Model.Base Model.Files Model.Loaders Model.MatFile Spec.LoaderSpec.
Import ListNotations.
Local Open Scope nat_scope.

(** A name of a member of a group: not empty, without a slash. *)
Definition no_slash (s : string) : Prop := forall i, String.get i s <> Some "/"%char.
Definition name_ok (s : string) : Prop := s <> EmptyString /\ no_slash s.

(** The members of a group have distinct proper names, at every depth. *)
Inductive tree_ok : h5item -> Prop :=
| ok_data : forall v, tree_ok (HData v)
| ok_group : forall items, NoDup (map fst items) -> (forall n i, In (n, i) items -> name_ok n /\ tree_ok i) ->
    tree_ok (HGroup items).

(** The dataset reached from an item by following member names. *)
Inductive reaches : h5item -> list string -> mat_val -> Prop :=
| r_here : forall v, reaches (HData v) [] v
| r_down : forall items n i ns v, In (n, i) items -> reaches i ns v -> reaches (HGroup items) (n :: ns) v.

(** MATLAB stores an array by columns, so HDF5 has its axes in reverse order. *)
Definition by_columns (a raw : arr) : Prop :=
  wf_arr raw /\ shape raw = rev (shape a) /\
  forall idx, Forall2 lt idx (shape a) -> elt raw (rev idx) = elt a idx.

(** The second picture is the first one moved by [u] to the right and [v] down,
    as far as both places are in the picture. *)
Definition moved (h w : nat) (i0 i1 : arr) (u v : Z) : Prop :=
  forall y x y' x' : nat, y < h -> x < w -> y' < h -> x' < w ->
    Z.of_nat y' = (Z.of_nat y + v)%Z -> Z.of_nat x' = (Z.of_nat x + u)%Z ->
    elt i1 [y'; x'] = elt i0 [y; x].

(** The flow says [u] to the right and [v] down everywhere. *)
Definition says (h w : nat) (f : arr) (u v : Z) : Prop :=
  shape f = [h; w; 2] /\
  forall y x, y < h -> x < w -> elt f [y; x; 0] = inject_Z u /\ elt f [y; x; 1] = inject_Z v.
