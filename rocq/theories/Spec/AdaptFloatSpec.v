(** Vocabulary for the flow field adapter in float arithmetic. *)
From Coq Require Import List ZArith QArith Qabs Qreals Reals.
From Flocq Require Import Core IEEE754.BinarySingleNaN.
From Verif Require Import Prelude Model.Interp Model.Geometry Model.InterpFloat Model.MoveFloat Model.AdaptFloat.
From Verif Require Import Spec.InterpFloatSpec Spec.LipschitzSpec Spec.MoveFloatSpec.
Local Open Scope R_scope.

(** The number a double stands for. *)
Definition double (x : f64) : Q := match f_val x with Some q => q | None => 0%Q end.

(** Resolutions between 2^-20 and 2^20. *)
Definition ordinary (x : f64) : Prop := is_finite x = true /\ (1 # 1048576 <= double x <= 1048576)%Q.
(** Offsets between 0 and 2^20, counts of pixels below 2^24. *)
Definition shift_ok (x : f64) : Prop := is_finite x = true /\ (0 <= double x <= 1048576)%Q.
Definition count_ok (z : Z) : Prop := (1 <= z < 2 ^ 24)%Z.
Definition usual (a : adapter64) : Prop :=
  (ordinary (b_res a) /\ ordinary (b_rx a) /\ ordinary (b_ry a)) /\
  (shift_ok (fst (b_pbo a)) /\ shift_ok (snd (b_pbo a))) /\
  ((0 <= fst (b_off a) < 2 ^ 24)%Z /\ (0 <= snd (b_off a) < 2 ^ 24)%Z) /\
  (count_ok (fst (b_image a)) /\ count_ok (snd (b_image a))) /\
  (count_ok (fst (b_pb a)) /\ count_ok (snd (b_pb a))) /\
  (count_ok (fst (b_new a)) /\ count_ok (snd (b_new a))) /\
  (is_finite (b_dt a) = true /\ (Qabs (double (b_dt a)) <= 1048576)%Q) /\
  ((0 <= fst (b_pad a))%Z /\ (0 <= snd (b_pad a))%Z).

(** The same arguments, as numbers. *)
Definition numbers (a : adapter64) : adapter_args :=
  mkAdapter (b_new a) (b_image a) (b_off a) (double (b_res a)) (double (b_rx a)) (double (b_ry a)) (b_pb a)
    (double (fst (b_pbo a)), double (snd (b_pbo a))) (b_batch a) (b_pixels a) (double (b_dt a)) (b_pad a).

(** No more than [B] grid steps between the origin of the flow field and the
    farthest end of the two grids. *)
Definition reach (B : R) (a : adapter64) : Prop :=
  let far (pbo : f64) (len : Z) (r : f64) := Q2R (double pbo * double r + inject_Z len / double (b_res a) * double r) + 1 <= B in
  far (fst (b_pbo a)) (fst (b_off a) + fst (b_image a))%Z (b_ry a) /\ far (snd (b_pbo a)) (snd (b_off a) + snd (b_image a))%Z (b_rx a) /\
  far (fst (b_pbo a)) (fst (b_pb a)) (b_ry a) /\ far (snd (b_pbo a)) (snd (b_pb a)) (b_rx a).

(** Within [e] of the flow [g], entry by entry, and of the same shape. *)
Definition entry_near (e : R) (x : f32) (q : Q) : Prop := finite x /\ Rabs (real x - Q2R q) <= e.
Definition flow_near (e : R) (f : flow32) (g : flow) : Prop :=
  h_H f = fH g /\ h_W f = fW g /\
  forall i j, (0 <= i < fH g)%Z -> (0 <= j < fW g)%Z -> entry_near e (h_u f i j) (fu g i j) /\ entry_near e (h_v f i j) (fv g i j).

(** From one grid point to the next the flow changes by at most [Dx] and [Dy]. *)
Definition varies (Dx Dy : Q) (f : flow32) : Prop :=
  (0 <= Dx)%Q /\ (0 <= Dy)%Q /\
  across Dx (chan0 (flow_of f)) /\ down Dy (chan0 (flow_of f)) /\ across Dx (chan1 (flow_of f)) /\ down Dy (chan1 (flow_of f)).

(** The flow stays below 2^24 rows and columns when it is padded. *)
Definition pad_room (a : adapter64) (f : flow32) : Prop := (h_H f + fst (b_pad a) < 2 ^ 24)%Z /\ (h_W f + snd (b_pad a) < 2 ^ 24)%Z.

(** Displacement in pixels per unit of speed, or 1 where speeds are reported. *)
Definition factor (a : adapter64) : R := if b_pixels a then Rabs (Q2R (double (b_res a) * double (b_dt a))) else 1.

(** What an interpolated entry may be off, for speeds up to [M]. *)
Definition blur (M : R) (Dx Dy : Q) (B : R) : R := bpow radix2 (-20) * M + 13 / 16777216 * ((Q2R Dx + Q2R Dy) * B).

(** The part of the flow [f] that covers the particles, sampled on [h] rows and
    [v] columns. *)
Definition covering (a : adapter_args) (h v : Z) (f0 : flow) : flow :=
  let f := pad_edge (fst (ad_pad a)) (snd (ad_pad a)) f0 in
  let place (pbo r : Q) (len n i : Z) :=
    linspace (pbo * r) (pbo * r + inject_Z len / ad_res a * r - 1)%Q n i in
  let y := place (fst (ad_pbo a)) (ad_ry a) (fst (ad_pb a)) h in
  let x := place (snd (ad_pbo a)) (ad_rx a) (snd (ad_pb a)) v in
  mkFlow h v (fun i j => bilinear (chan0 f) (x j) (y i)) (fun i j => bilinear (chan1 f) (x j) (y i)).

(** Grid steps covered by the particles. *)
Definition covered (a : adapter64) : Q * Q :=
  (inject_Z (fst (b_pb a)) / double (b_res a) * double (b_ry a), inject_Z (snd (b_pb a)) / double (b_res a) * double (b_rx a))%Q.
(** No integer within [x * 2^-50] of [x]. *)
Definition clear_of_integers (x : Q) : Prop := forall z, (x * (1 # 1125899906842624) < Qabs (x - inject_Z z))%Q.
(** A double. *)
Definition is_double (q : Q) : Prop := generic_format radix2 (FLT_exp (-1074) 53) (Q2R q).
