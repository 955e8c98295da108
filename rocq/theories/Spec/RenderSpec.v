(** Vocabulary for drawn images. *)
From Coq Require Import List ZArith QArith Qround Qminmax.
From Verif Require Import Prelude Model.Interp Model.Render Model.DataGen Spec.InterpSpec.
Import ListNotations.
Local Open Scope Q_scope.

(** The patch radius: the largest whole number not exceeding 3/2 diameters. *)
Definition radius_of (maxd : Q) (r : Z) : Prop := inject_Z r <= (3 # 2) * maxd /\ (3 # 2) * maxd < inject_Z r + 1.

(** The interval of centres at which patches of radius [r] are drawn on an axis
    of [n] pixels, and the centre at which a particle at [p] is drawn. *)
Definition first_center (r : Z) : Q := inject_Z r.
Definition last_center (n r : Z) : Q := inject_Z n - inject_Z r - (1 # 1000000).
Definition center (n r : Z) (p : Q) : Q := Qmin (last_center n r) (Qmax (first_center r) p).

(** Row (column) [k] belongs to the patch of radius [r] around centre [c]. *)
Definition in_patch (r : Z) (c : Q) (k : Z) : Prop :=
  inject_Z (k - r) <= c /\ c < inject_Z (k + r) + 1.

(** The correlated Gaussian with standard deviations of half the diameters. *)
Definition mahalanobis (p : particle) (dy dx : Q) : Q :=
  let a := 2 * dx / p_dx p in
  let b := 2 * dy / p_dy p in
  (a * a - 2 * p_rho p * a * b + b * b) / (1 - p_rho p * p_rho p).
Definition bump (ex : Q -> Q) (p : particle) (dy dx : Q) : Q := p_amp p * ex (- (mahalanobis p dy dx / 2)).

(** What particle [p] adds to pixel ([row], [col]) of an image of [H] by [W]. *)
Definition contributes (ex : Q -> Q) (H W r : Z) (p : particle) (row col : Z) (v : Q) : Prop :=
  let cy := center H r (p_y p) in
  let cx := center W r (p_x p) in
  (in_patch r cy row -> in_patch r cx col -> v == bump ex p (inject_Z row - cy) (inject_Z col - cx)) /\
  (~ (in_patch r cy row /\ in_patch r cx col) -> v == 0).

Definition sum (l : list Q) : Q := fold_right Qplus 0 l.

(** A function of numbers. *)
Definition respects (ex : Q -> Q) : Prop := forall a b, a == b -> ex a == ex b.
(** A (rounded) exponential, on non-positive arguments. *)
Definition exp_like (ex : Q -> Q) : Prop := respects ex /\ forall a, a <= 0 -> 0 <= ex a <= 1.

Definition proper_particle (p : particle) : Prop :=
  0 < p_dx p /\ 0 < p_dy p /\ -(1) < p_rho p < 1.

(** What jax.random documents: unit draws in [0, 1), integers below the bound. *)
Definition lawful (g : generator) : Prop :=
  (forall k n i, 0 <= g_unit g k n i < 1) /\ (forall k n, (0 < n)%nat -> (g_randint g k n < n)%nat).

(** The constraints of ImageGenerationSpecification on ranges. *)
Definition valid_ranges (sp : gspec) : Prop :=
  0 <= fst (sp_density sp) <= snd (sp_density sp) /\
  (sp_diameters sp <> [] /\ forall d, In d (sp_diameters sp) -> 0 < fst d <= snd d) /\
  (sp_intensities sp <> [] /\ forall d, In d (sp_intensities sp) -> 0 < fst d <= snd d) /\
  (sp_rhos sp <> [] /\ forall d, In d (sp_rhos sp) -> -(1) < fst d <= snd d /\ snd d < 1).

Definition within (d : Q * Q) (v : Q) : Prop := fst d <= v <= snd d.

(** No variation between the two images of a pair other than the flow, and no noise. *)
Definition noiseless (sp : gspec) : Prop :=
  sp_hide1 sp == 0 /\ sp_hide2 sp == 0 /\ sp_diameter_var sp == 0 /\ sp_intensity_var sp == 0 /\ sp_rho_var sp == 0 /\
  sp_noise_uniform sp == 0 /\ sp_noise_mean sp == 0 /\ sp_noise_std sp == 0.
Definition sqrt_like (sq : Q -> Q) : Prop := forall a, a == 0 -> sq a == 0.

(** Pixel [k] of an axis of [n] pixels is more than 2r away from both ends. *)
Definition deep (n r k : Z) : Prop := (2 * r < k < n - 2 * r - 1)%Z.
