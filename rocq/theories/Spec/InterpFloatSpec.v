(** What the float version of interpolation is compared with. *)
From Coq Require Import ZArith QArith Reals.
From Flocq Require Import Core IEEE754.BinarySingleNaN.
From Verif Require Import Model.Interp Model.Geometry Model.InterpFloat Spec.InterpSpec.

(** The binary32 numbers (without a largest one). *)
Definition float32 (t : R) : Prop := generic_format radix2 (FLT_exp (-149) 24) t.

(** [r] rounds like a float unit: to within [u] of the number and [e] below the
    smallest normal one, and numbers that are floats to within [e]. *)
Definition rounds (u e : R) (r : R -> R) : Prop :=
  (forall t, Rabs (r t - t) <= u * Rabs t + e)%R /\ (forall t, float32 t -> Rabs (r t - t) <= e)%R.

(** The value of a finite float as a rational number. *)
Definition value (x : f32) : Q := match f_val x with Some q => q | None => 0%Q end.
Definition finite (x : f32) : Prop := is_finite x = true.

(** The size of an image of floats, and the image of its values. *)
Definition fsize (im : fimage) : Prop := (1 <= g_rows im <= 2 ^ 24)%Z /\ (1 <= g_cols im <= 2 ^ 24)%Z.
Definition values (im : fimage) : image := mkImage (g_rows im) (g_cols im) (fun r c => value (g_at im r c)).

(** The sample [i] of an axis of [n] samples has a say at [x]: with [p] the point
    of the axis nearest to [x], it is less than one below [p] or at most one above. *)
Definition neighbour (n : Z) (x : Q) (i : Z) : Prop :=
  (0 <= i < n)%Z /\ exists p, nearest 0 (inject_Z n - 1) x p /\ (p - 1 < inject_Z i <= p + 1)%Q.

(** The pixels that have a say at (x, y) satisfy [P]. *)
Definition around (im : fimage) (x y : f32) (P : f32 -> Prop) : Prop :=
  forall r c, neighbour (g_rows im) (value y) r -> neighbour (g_cols im) (value x) c -> P (g_at im r c).
