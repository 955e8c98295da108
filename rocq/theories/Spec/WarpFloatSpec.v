(** Vocabulary for images warped in float arithmetic. *)
From Coq Require Import List ZArith QArith Qreals Reals.
From Flocq Require Import Core IEEE754.BinarySingleNaN.
From Verif Require Import Model.Interp Model.Geometry Model.InterpFloat Model.MoveFloat.
From Verif Require Import Spec.InterpFloatSpec Spec.MoveFloatSpec.
Local Open Scope R_scope.

(** A pixel of a float image. *)
Definition fpixel (im : fimage) (r c : Z) : Prop := (0 <= r < g_rows im)%Z /\ (0 <= c < g_cols im)%Z.

(** All pixels are numbers of size at most [M]. *)
Definition pixels_within (M : R) (im : fimage) : Prop :=
  forall r c, fpixel im r c -> finite (g_at im r c) /\ Rabs (real (g_at im r c)) <= M.

(** The flow over the image moves no pixel by more than [D] in the time [dt]. *)
Definition travels (D : R) (im : fimage) (f : flow32) (dt : f32) : Prop :=
  finite dt /\ forall r c, fpixel im r c ->
    finite (h_u f r c) /\ Rabs (real (h_u f r c) * real dt) <= D /\
    finite (h_v f r c) /\ Rabs (real (h_v f r c) * real dt) <= D.

(** What a position on an axis of [n] pixels may be off after a way of up to [D]. *)
Definition slip (n : Z) (D : R) : R := / 16777216 * (IZR n + 3 * D) + bpow radix2 (-148).

(** The flow takes pixel (y, x) to within two pixels of (r, c). *)
Definition lands_near (f : flow32) (dt : f32) (r c y x : Z) : Prop :=
  Rabs (IZR x + real (h_u f y x) * real dt - IZR c) <= 2 /\ Rabs (IZR y + real (h_v f y x) * real dt - IZR r) <= 2.

(** The pixels that land near (r, c) are all in the list [l]. *)
Definition catches (im : fimage) (f : flow32) (dt : f32) (r c : Z) (l : list (Z * Z)) : Prop :=
  forall y x, fpixel im y x -> lands_near f dt r c y x -> In (y, x) l.

(** The sizes of the pixels in [l], added up. *)
Definition light (im : fimage) (l : list (Z * Z)) : R :=
  fold_right (fun p s => Rabs (real (g_at im (fst p) (snd p))) + s) 0 l.

(** The flow moves every pixel by [dx] columns and [dy] rows. *)
Definition shifts (im : fimage) (f : flow32) (dt : f32) (dx dy : Z) : Prop :=
  finite dt /\ forall r c, fpixel im r c ->
    finite (h_u f r c) /\ real (h_u f r c) * real dt = IZR dx /\ finite (h_v f r c) /\ real (h_v f r c) * real dt = IZR dy.
