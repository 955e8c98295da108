(** Vocabulary for particles sampled in float arithmetic. *)
From Coq Require Import List Arith ZArith QArith Reals.
From Flocq Require Import Core IEEE754.BinarySingleNaN.
From Verif Require Import Prelude Model.Interp Model.Geometry Model.Render Model.InterpFloat Model.HistFloat Model.DrawFloat Model.MoveFloat Model.SampleFloat.
From Verif Require Import Spec.InterpFloatSpec Spec.MoveFloatSpec.
Import ListNotations.
Local Open Scope R_scope.

(** 23 random bits. *)
Definition bits23 (k : Z) : Prop := (0 <= k < 2 ^ 23)%Z.

(** The number between zero and one they stand for. *)
Definition unit_of (k : Z) : R := IZR k * bpow radix2 (-23).

(** A range of finite floats between [a] and [b]. *)
Definition range_in (a b : R) (r : f32 * f32) : Prop :=
  finite (fst r) /\ finite (snd r) /\ a <= real (fst r) /\ real (fst r) <= real (snd r) /\ real (snd r) <= b.

(** [x] lies in the closed range. *)
Definition lies_in (r : f32 * f32) (x : f32) : Prop := finite x /\ real (fst r) <= real x <= real (snd r).

(** Draws of the generator. *)
Definition fair (g : source32) : Prop :=
  (forall k n i, bits23 (s_bits g k n i)) /\ (forall k n i, finite (s_normal g k n i)).

(** Parameters for which the kernel is well conditioned. *)
Definition sound_spec (sp : spec32) : Prop :=
  t_diameters sp <> [] /\ Forall (range_in (/ 1048576) 1048576) (t_diameters sp) /\
  t_intensities sp <> [] /\ Forall (range_in 0 1048576) (t_intensities sp) /\
  t_rhos sp <> [] /\ Forall (range_in (- (1023 / 1024)) (1023 / 1024)) (t_rhos sp) /\
  finite (t_diameter_std sp) /\ finite (t_intensity_std sp) /\ finite (t_rho_std sp) /\ within (bpow radix2 20) (t_dt sp).

(** The number of pixels. *)
Definition area_of (pb : Z * Z) : Z := (fst pb * snd pb)%Z.

(** The number of particles among the first [n] that are switched on. *)
Definition visible (pb : Z * Z) (d : f32) (n : nat) : nat := List.length (filter (mixed32 pb d) (seq 0 n)).

(** Inside the simulated area. *)
Definition in_box (pb : Z * Z) (p : particle32) : Prop :=
  finite (q_y p) /\ finite (q_x p) /\ 0 <= real (q_y p) < IZR (fst pb) /\ 0 <= real (q_x p) < IZR (snd pb).

(** The drawn parameters come from one range of each list, the same for all
    particles and both images; what is not switched on has no brightness. *)
Definition within_ranges (dr ir rr : f32 * f32) (p : particle32) : Prop :=
  lies_in dr (q_dx p) /\ lies_in dr (q_dy p) /\ lies_in rr (q_rho p) /\
  finite (q_amp p) /\ (real (q_amp p) = 0 \/ real (fst ir) <= real (q_amp p) <= real (snd ir)).
