(** What the float version of trilinear interpolation is compared with. *)
From Coq Require Import ZArith QArith Reals.
From Verif Require Import Model.Interp Model.Geometry Model.InterpFloat Model.TriFloat Spec.InterpSpec Spec.InterpFloatSpec.

(** The size of a volume of floats (indices are int32), and its values. *)
Definition wsize (v : fvolume) : Prop :=
  (1 <= wD v <= 2 ^ 31)%Z /\ (1 <= wH v <= 2 ^ 31)%Z /\ (1 <= wW v <= 2 ^ 31)%Z.
Definition vvalues (v : fvolume) : volume := mkVolume (wD v) (wH v) (wW v) (fun d r c => value (wat v d r c)).

(** The sample [i] of an axis of [n] samples is a corner at [x]: it is less than
    one from the point of the axis nearest to [x]. *)
Definition corner (n : Z) (x : Q) (i : Z) : Prop :=
  (0 <= i < n)%Z /\ exists p, nearest 0 (inject_Z n - 1) x p /\ (p - 1 < inject_Z i < p + 1)%Q.

(** The voxels at the corners of the cell of (x, y, z) satisfy [P]. *)
Definition corners (v : fvolume) (x y z : f32) (P : f32 -> Prop) : Prop :=
  forall d r c, corner (wD v) (value z) d -> corner (wH v) (value y) r -> corner (wW v) (value x) c -> P (wat v d r c).
