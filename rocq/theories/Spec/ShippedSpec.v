(** The files a shipped configuration needs. *)
From Coq Require Import List Arith ZArith String Bool.
From Verif Require Import Prelude Model.PyVal Model.Base Model.Files Model.Loaders Model.Make.
From Verif Require Import Spec.FilesSpec Spec.MakeSpec.
Import ListNotations.
Local Open Scope string_scope.
Local Open Scope nat_scope.

(** The list of entries stands for these files: at least one, all there, with
    the extension of the class (of .h5 schedulers the entries themselves). *)
Definition found (w : world) (cls : fclass) (entries files : list string) : Prop :=
  exists segs, Forall2 (stands_for (w_fs w) (search cls)) entries segs /\ files = List.concat segs /\ files <> [] /\
    (forall p, In p files -> fs_isfile (w_fs w) p = true) /\
    (forall p, In p (match cls with H5 => entries | _ => files end) -> has_suffix p (extension cls)).

(** The first file can be opened and holds fields of [y] by [x] points. *)
Definition opens (w : world) (files : list string) (y x : nat) : Prop :=
  exists p rest a, files = p :: rest /\ w_h5 w p = H5Data a /\ nth_error (shape a) 0 = Some y /\ nth_error (shape a) 2 = Some x.

(** No stored array has a side of 2^31 or more. *)
Definition sensible_sizes (w : world) : Prop :=
  forall p a, w_h5 w p = H5Data a -> Forall (fun n => (Z.of_nat n < 2 ^ 31)%Z) (shape a).

(** A batch in which each of the [n] entries is the same pair of images with its
    flow field, marked as valid and as taken from the file [p]. *)
Definition same_pair (n : nat) (p : string) (x : SchedData) (flows : list arr) (images : list (arr * arr))
    (mask : option (list bool)) (files : option (list string)) : Prop :=
  exists a0 a1 mk fs, sd_im1 x = Some a0 /\ sd_im2 x = Some a1 /\
    flows = repeat (sd_flow x) n /\ images = repeat (a0, a1) n /\
    mask = Some mk /\ firstn n mk = repeat true n /\ files = Some fs /\ firstn n fs = repeat p n.
