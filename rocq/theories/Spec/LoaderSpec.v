(** Elements of arrays, planes, stored data: vocabulary for the loader
    properties. *)
From Coq Require Import List Arith ZArith String Bool QArith.
From Verif Require Import Prelude Model.Base Model.Files Model.Loaders Spec.BaseSpec.
Import ListNotations.
Local Open Scope nat_scope.

(** Row-major position of a multi-index. *)
Fixpoint flat_index (sh idx : list nat) : nat :=
  match sh, idx with
  | _ :: sh, i :: idx => i * size sh + flat_index sh idx
  | _, _ => 0
  end.

(** [a[i, j, ...]]. *)
Definition elt (a : arr) (idx : list nat) : Q := nth (flat_index (shape a) idx) (data a) 0%Q.

(** The array of shape (A, B, C) with element [f i j k] at (i, j, k). *)
Definition tab3 (A B C : nat) (f : nat -> nat -> nat -> Q) : arr :=
  mkArr [A; B; C]
    (flat_map (fun i => flat_map (fun j => map (fun k => f i j k) (seq 0 C)) (seq 0 B)) (seq 0 A)).

(** The (X, Z, C) plane number [y] of an (X, Y, Z, C) array. *)
Definition plane (a : arr) (y : nat) : arr :=
  match shape a with
  | [X; _; Z; Ch] => tab3 X Z Ch (fun i j k => elt a [i; y; j; k])
  | _ => a
  end.

(** All slices of an HDF5 file that holds the (X, Y, Z, C) array [a]. *)
Definition planes (p : string) (a : arr) : list SchedData :=
  map (fun y => mkSD (plane a y) None None None (Some [p])) (seq 0 (nth 1 (shape a) 0)).

(** What is known of image resizing: the result is a well-formed array of the
    requested height and width (further axes unchanged). *)
Definition pil_ok (r : pil) : Prop :=
  forall a w h b, r a w h = Ok b -> wf_arr b /\ shape b = h :: w :: skipn 2 (shape a).

(** [d] is the dictionary stored at [p]: read by SciPy, or, when SciPy says the
    format is not its own, from HDF5. *)
Definition stored (m : mat_disk) (p : string) (d : mat_dict) : Prop :=
  m_scipy m p = Ok d \/
  ((m_scipy m p = Err NotImplementedError \/ m_scipy m p = Err ValueError) /\
   m_is_h5 m p = true /\ m_h5 m p = Ok d).

(** A .npy file [p] with its two pictures, which are RGB arrays of shape
    (h, w, 3), and a flow of shape [F]. *)
Definition npy_with_images (npy jpg : string -> result arr) (F : list nat) (h w : nat) (p : string)
  : Prop :=
  exists a t i0 i1,
    npy p = Ok a /\ wf_arr a /\ shape a = F /\
    flow_number (basename p) = Some t /\
    jpg (img_path p (Z.of_nat t - 1)) = Ok i0 /\ wf_arr i0 /\ shape i0 = [h; w; 3] /\
    jpg (img_path p (Z.of_nat t)) = Ok i1 /\ wf_arr i1 /\ shape i1 = [h; w; 3].
