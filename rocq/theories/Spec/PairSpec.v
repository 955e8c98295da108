(** Vocabulary for "an image pair shows one set of particles twice". *)
From Coq Require Import List Arith ZArith QArith Qround Qminmax.
From Verif Require Import Prelude Model.Interp Model.Render Model.DataGen Spec.InterpSpec Spec.RenderSpec.
Import ListNotations.
Local Open Scope Q_scope.

(** The random keys of one pair: positions; the four parameters of a particle
    in the first image and their changes in the second; which particles are
    seen in each image; the two noises of each image; the choice of the three
    ranges. *)
Record pair_keys : Type := mkPairKeys {
  k_where : key;
  k_dx : key; k_dy : key; k_rho : key; k_int : key;
  k_dx2 : key; k_dy2 : key; k_rho2 : key; k_int2 : key;
  k_seen1 : key; k_seen2 : key;
  k_flat1 : key; k_bell1 : key; k_flat2 : key; k_bell2 : key;
  k_diameters : key; k_intensities : key; k_rhos : key
}.
Definition all_keys (K : pair_keys) : list key :=
  [ k_where K; k_dx K; k_dy K; k_rho K; k_int K; k_dx2 K; k_dy2 K; k_rho2 K; k_int2 K; k_seen1 K; k_seen2 K;
    k_flat1 K; k_bell1 K; k_flat2 K; k_bell2 K; k_diameters K; k_intensities K; k_rhos K ].

(** The point at fraction [u] of a range, and the point of a range nearest to [x]. *)
Definition along (d : Q * Q) (u : Q) : Q := fst d + u * (snd d - fst d).
Definition into (d : Q * Q) (x : Q) : Q := Qmax (fst d) (Qmin (snd d) x).

Section Pair.
Variables (ex sq : Q -> Q) (g : generator) (sp : gspec) (pb : Z * Z) (rx ry : Q).

Definition drawn_range (l : list (Q * Q)) (k : key) : Q * Q := nth (g_randint g k (List.length l)) l (0, 0).

(** The number of particles at density [d], and at the largest density (the
    size of the arrays of draws). *)
Definition particles_at (d : Q) : nat := Z.to_nat (Qfloor (inject_Z (fst pb * snd pb) * d)).

(** [seen] particles have brightness [i], hidden ones none. *)
Definition shines (hide u i : Q) (p : particle) : Prop := (u < 1 - hide -> p_amp p == i) /\ (1 - hide <= u -> p_amp p == 0).

(** Particle number [j] in the first image ([a]) and in the second ([b]), in
    the particle flow [f]. *)
Definition twins (f : flow) (K : pair_keys) (D I R : Q * Q) (j : nat) (a b : particle) : Prop :=
  let n := particles_at (snd (sp_density sp)) in
  let u k := g_unit g k n j in
  let z k := g_normal g k n j in
  let i1 := along I (u (k_int K)) in
  let sy := inject_Z (fH f) / inject_Z (fst pb) in
  let sx := inject_Z (fW f) / inject_Z (snd pb) in
  (* first image *)
  p_y a == g_unit g (k_where K) (2 * n) (2 * j) * inject_Z (fst pb) /\
  p_x a == g_unit g (k_where K) (2 * n) (2 * j + 1) * inject_Z (snd pb) /\
  p_dx a == along D (u (k_dx K)) /\
  p_dy a == into D (p_dx a + (2 * u (k_dy K) - 1)) /\
  p_rho a == along R (u (k_rho K)) /\
  shines (sp_hide1 sp) (u (k_seen1 K)) i1 a /\
  (* second image *)
  p_y b == p_y a + sp_dt sp * ry * bilinear (chan1 f) (p_x a * sx) (p_y a * sy) / sy /\
  p_x b == p_x a + sp_dt sp * rx * bilinear (chan0 f) (p_x a * sx) (p_y a * sy) / sx /\
  p_dx b == into D (p_dx a + sq (sp_diameter_var sp) * z (k_dx2 K)) /\
  p_dy b == into D (p_dy a + sq (sp_diameter_var sp) * z (k_dy2 K)) /\
  p_rho b == into R (p_rho a + sq (sp_rho_var sp) * z (k_rho2 K)) /\
  shines (sp_hide2 sp) (u (k_seen2 K)) (into I (i1 + sq (sp_intensity_var sp) * z (k_int2 K))) b.

(** Image [im] shows at ([row], [col]) the particles [ps], drawn with patches of
    radius [r] in the simulated area, seen through the window at the image
    offset, with the two noises, clipped and masked. *)
Definition pictures (r : Z) (mask : option image) (ps : list particle) (flat bell : key) (im : image) (row col : Z) : Prop :=
  let n := Z.to_nat (fst (sp_image sp) * snd (sp_image sp)) in
  let at_pixel := Z.to_nat (row * snd (sp_image sp) + col) in
  exists vs,
    Forall2 (fun p v => contributes ex (fst pb) (snd pb) r p (row + fst (sp_offset sp)) (col + snd (sp_offset sp)) v) ps vs /\
    at_ im row col ==
      Qmax 0 (Qmin 255 (sum vs + sp_noise_uniform sp * g_unit g flat n at_pixel +
                        (sp_noise_mean sp + sp_noise_std sp * g_normal g bell n at_pixel))) *
      match mask with Some m => at_ m row col | None => 1 end.

(** The pair [o], number [i] of its batch, shows one set of particles twice. *)
Definition one_scene (r : Z) (mask : option image) (f : flow) (kd : key) (K : pair_keys) (i : nat) (o : pair_out) : Prop :=
  let D := drawn_range (sp_diameters sp) (k_diameters K) in
  let I := drawn_range (sp_intensities sp) (k_intensities K) in
  let R := drawn_range (sp_rhos sp) (k_rhos K) in
  out_density o == along (sp_density sp) (g_unit g kd (sp_batch sp) i) /\
  out_diameters o = D /\ out_intensities o = I /\ out_rhos o = R /\
  rows (out1 o) = fst (sp_image sp) /\ cols (out1 o) = snd (sp_image sp) /\
  rows (out2 o) = fst (sp_image sp) /\ cols (out2 o) = snd (sp_image sp) /\
  exists scene : list (particle * particle),
    List.length scene = particles_at (out_density o) /\
    (forall j a b, nth_error scene j = Some (a, b) -> twins f K D I R j a b) /\
    forall row col, (0 <= row < fst (sp_image sp))%Z -> (0 <= col < snd (sp_image sp))%Z ->
      pictures r mask (map fst scene) (k_flat1 K) (k_bell1 K) (out1 o) row col /\
      pictures r mask (map snd scene) (k_flat2 K) (k_bell2 K) (out2 o) row col.
End Pair.

(** The window of the images lies in the simulated area. *)
Definition window (sp : gspec) (pb : Z * Z) : Prop :=
  (0 <= fst (sp_offset sp) /\ 0 <= fst (sp_image sp) /\ fst (sp_offset sp) + fst (sp_image sp) <= fst pb)%Z /\
  (0 <= snd (sp_offset sp) /\ 0 <= snd (sp_image sp) /\ snd (sp_offset sp) + snd (sp_image sp) <= snd pb)%Z.

(** [m] is the largest upper bound of the ranges. *)
Definition largest (l : list (Q * Q)) (m : Q) : Prop :=
  (exists d, In d l /\ snd d == m) /\ (forall d, In d l -> snd d <= m).

(** The mask and histogram after everything else. *)
Definition noise_free (sp : gspec) : gspec :=
  mkGspec (sp_batch sp) (sp_image sp) (sp_offset sp) (sp_density sp) (sp_hide1 sp) (sp_hide2 sp) (sp_diameters sp)
    (sp_diameter_var sp) (sp_intensities sp) (sp_intensity_var sp) (sp_rhos sp) (sp_rho_var sp) (sp_dt sp) 0 0 0.
