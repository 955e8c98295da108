(** Vocabulary for generated images in float arithmetic. *)
From Coq Require Import List Arith ZArith QArith Qreals Reals.
From Flocq Require Import Core IEEE754.BinarySingleNaN.
From Verif Require Import Prelude Model.Interp Model.Geometry Model.Render Model.InterpFloat Model.Hist Model.HistFloat Model.DrawFloat Model.MoveFloat Model.SampleFloat Model.FinishFloat.
From Verif Require Import Spec.InterpFloatSpec Spec.RenderSpec Spec.HistFloatSpec Spec.DrawFloatSpec Spec.KernelFloatSpec Spec.MoveFloatSpec Spec.SampleFloatSpec.
Import ListNotations.
Local Open Scope R_scope.

(** An image of the given shape, all of whose pixels are grey levels. *)
Definition grey (x : f32) : Prop := finite x /\ 0 <= real x <= 255.
Definition grey_image (shape : Z * Z) (im : fimage) : Prop :=
  g_rows im = fst shape /\ g_cols im = snd shape /\
  forall r c, (0 <= r < fst shape)%Z -> (0 <= c < snd shape)%Z -> grey (g_at im r c).

(** Noise that cannot overflow on its own; the standard deviation is any float. *)
Definition noise_ok (re : rest32) : Prop :=
  within (bpow radix2 100) (v_uniform re) /\ 0 <= real (v_uniform re) /\ within (bpow radix2 100) (v_mean re) /\ finite (v_std re).

(** The mask, if any, is zero or one at each pixel. *)
Definition mask_ok (re : rest32) : Prop :=
  forall m, v_mask re = Some m -> forall r c, (0 <= r < fst (v_image re))%Z -> (0 <= c < snd (v_image re))%Z ->
    finite (g_at m r c) /\ (real (g_at m r c) = 0 \/ real (g_at m r c) = 1).
Definition open_at (re : rest32) (r c : Z) : R :=
  match v_mask re with Some m => real (g_at m r c) | None => 1 end.

(** The image lies inside the simulated area. *)
Definition inside_area (re : rest32) (pb : Z * Z) : Prop :=
  (0 <= fst (v_offset re))%Z /\ (0 <= snd (v_offset re))%Z /\ (1 <= fst (v_image re))%Z /\ (1 <= snd (v_image re))%Z /\
  (fst (v_offset re) + fst (v_image re) <= fst pb)%Z /\ (snd (v_offset re) + snd (v_image re) <= snd pb)%Z.

(** The noise at pixel ([r], [c]) as an exact number, and its size: a unit draw
    times the amplitude, the mean, a normal draw times the deviation. *)
Definition index_of (re : rest32) (r c : Z) : nat := Z.to_nat (r * snd (v_image re) + c).
Definition pixels_of (re : rest32) : Z := (fst (v_image re) * snd (v_image re))%Z.
Definition bell_at (g : source32) (re : rest32) (k : key) (r c : Z) : f32 := s_normal g (Child k 1) (Z.to_nat (pixels_of re)) (index_of re r c).
Definition noise_at (g : source32) (re : rest32) (k : key) (r c : Z) : R :=
  unit_of (s_bits g (Child k 0) (Z.to_nat (pixels_of re)) (index_of re r c)) * real (v_uniform re) + real (v_mean re) +
  real (bell_at g re k r c) * real (v_std re).
Definition noise_size (g : source32) (re : rest32) (k : key) (r c : Z) : R :=
  real (v_uniform re) + Rabs (real (v_mean re)) + Rabs (real (bell_at g re k r c) * real (v_std re)).

(** Everything the generator is given is of ordinary size; [rad] is the radius of
    the patches. *)
Definition setup (eps : R) (ex : f32 -> f32) (g : source32) (sp : spec32) (re : rest32) (pb : Z * Z) (rx ry : f32) (flows : list flow32) (rad : Z) : Prop :=
  0 <= eps <= 1 /\ exp_within eps ex /\ exp_unit ex /\ fair g /\ sound_spec sp /\ noise_ok re /\ mask_ok re /\ inside_area re pb /\
  (0 <= v_max_diameter re)%Q /\ radius_of (v_max_diameter re) rad /\ (1 <= rad)%Z /\ room (fst pb) (snd pb) rad /\
  within (bpow radix2 20) rx /\ within (bpow radix2 20) ry /\ Forall (flow_within (bpow radix2 20)) flows /\
  (forall n, num64 pb (snd (v_density re)) = Some n -> (n <= 2 ^ 23)%Z).

(** Pixel ([r], [c]) of [im] shows the particles [ps] and the noise from key [k],
    up to rounding: [t] is missing of the kernels, [a] is the sum of the peaks. *)
Definition shows (eps : R) (g : source32) (re : rest32) (lasty lastx : Q) (rad : Z) (k : key) (ps : list particle32) (im : fimage) (r c : Z) : Prop :=
  exists m s t a,
    picture eps lasty lastx rad (r + fst (v_offset re)) (c + snd (v_offset re)) ps m s t a /\
    (noise_size g re k r c <= bpow radix2 100 ->
     Rabs (real (g_at im r c) - open_at re r c * clipped true (s + noise_at g re k r c)) <=
       t + (Q2R (grow (Nat.pred m)) - 1) * a + 8 / 16777216 * (2 * a + noise_size g re k r c) + bpow radix2 (-147)).

(** What becomes of an image [im] at the end: itself, or the exact match with the
    histogram when that counts as many pixels. *)
Definition delivered (re : rest32) (im out : fimage) : Prop :=
  match v_histogram re with
  | None => out = im
  | Some h => (pixels_of re <= 2 ^ 24)%Z -> counts_of (pixels_of re) h ->
      forall r c, (0 <= r < fst (v_image re))%Z -> (0 <= c < snd (v_image re))%Z ->
        (value (g_at out r c) == at_ (match_histogram (values im) (map value h)) r c)%Q
  end.

(** Brightness up to 255, correlations up to a half, and no diameter below 5/14 of
    the patch radius and one. *)
Definition tame (sp : spec32) (rad : Z) : Prop :=
  Forall (range_in (5 / 14 * (IZR rad + 1)) 1048576) (t_diameters sp) /\
  Forall (range_in 0 255) (t_intensities sp) /\ Forall (range_in (- / 2) (/ 2)) (t_rhos sp).
