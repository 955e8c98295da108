(** The particles of an image pair in binary32: data_generate.py:65-268. *)
From Coq Require Import List Arith ZArith QArith Qround Bool.
From Flocq Require Import IEEE754.BinarySingleNaN.
From Verif Require Import Prelude Model.Interp Model.Geometry Model.Render Model.InterpFloat Model.HistFloat Model.DrawFloat Model.MoveFloat.
Import ListNotations.
Local Open Scope Z_scope.

(** A unit draw of [jax.random.uniform] (jax/_src/random.py): 23 random bits [k]
    as the fraction of a number between one and two, less one. *)
Definition unit32 (k : Z) : f32 :=
  minus32 (binary_normalize 24 128 p32 l32 mode_NE (8388608 + k) (-23) false) (f32_ofZ 1).

(** [w * d + lo], the product rounded or ([fused]) not. *)
Definition madd32 (fused : bool) (w d lo : f32) : f32 :=
  if fused then @Bfma 24 128 p32 l32 mode_NE w d lo else plus32 (mult32 w d) lo.

(** A draw between [lo] and [hi]: the unit draw scaled and shifted, never below [lo]. *)
Definition draw32 (fused : bool) (lo hi : f32) (k : Z) : f32 :=
  let v := madd32 fused (unit32 k) (minus32 hi lo) lo in
  if f32_leb lo v then v else lo.

(** [num_particles], data_generate.py:84: Python integers and a Python float. *)
Definition num64 (pb : Z * Z) (max_density : f64) : option Z :=
  option_map Qtrunc (f_val (@Bmult 53 1024 p64 l64 mode_NE (f64_ofZ (fst pb * snd pb)) max_density)).

(** [seeding_densities], data_generate.py:91-97; the bounds become singles. *)
Definition density32 (fused : bool) (range : f64 * f64) (k : Z) : f32 :=
  f32_clip (f32_ofZ 0) (to_f32 (snd range)) (draw32 fused (to_f32 (fst range)) (to_f32 (snd range)) k).

(** [current_num_particles] and [mixed], data_generate.py:131-136: a counter below
    the floor of a single.  The comparison is made in singles, exactly for counters
    up to 2^24. *)
Definition mixed32 (pb : Z * Z) (d : f32) (i : nat) : bool :=
  match f_val (mult32 (f32_ofZ (fst pb * snd pb)) d) with
  | Some q => Z.of_nat i <? Qfloor q
  | None => false
  end.

(** jax.random: element [i] of the array of [n] draws from a key, as the 23 random
    bits of a unit draw, as a normal draw, and an index. *)
Record source32 : Type := mkSource32 {
  s_bits : key -> nat -> nat -> Z;
  s_normal : key -> nat -> nat -> f32;
  s_randint : key -> nat -> nat
}.

(** The fields of ImageGenerationSpecification (types.py:186-207) that matter for
    the particles, as the floats they become. *)
Record spec32 : Type := mkSpec32 {
  t_hide1 : f32; t_hide2 : f32;             (* 1.0 - p_hide_img1, 1.0 - p_hide_img2 *)
  t_diameters : list (f32 * f32); t_diameter_std : f32;
  t_intensities : list (f32 * f32); t_intensity_std : f32;
  t_rhos : list (f32 * f32); t_rho_std : f32; (* square roots of the variances *)
  t_dt : f32
}.

Definition bool_32 (b : bool) : f32 := f32_ofZ (if b then 1 else 0).

Section Particles.
Variables (fused recip : bool) (g : source32) (sp : spec32) (pb : Z * Z) (n : nat) (rx ry : f32).

(** [ranges[idx]] (JAX clamps the index). *)
Definition pick32 (l : list (f32 * f32)) (i : nat) : f32 * f32 := nth (Nat.min i (List.length l - 1)) l (f32_ofZ 0, f32_ofZ 0).

(** [jax.random.bernoulli(key, p, shape)]: unit draw below [p]. *)
Definition shown32 (k : key) (p : f32) (i : nat) : bool := negb (f32_leb p (unit32 (s_bits g k n i))).

(** data_generate.py:106-128 and 155-222.  Sums commute, so [dx1 + noise] is
    written as [noise + dx1]. *)
Definition params32 (key_i : key) (i : nat) : (f32 * f32 * f32 * f32) * (f32 * f32 * f32 * f32) :=
  let (dlo, dhi) := pick32 (t_diameters sp) (s_randint g (Child key_i 6) (List.length (t_diameters sp))) in
  let (ilo, ihi) := pick32 (t_intensities sp) (s_randint g (Child key_i 7) (List.length (t_intensities sp))) in
  let (rlo, rhi) := pick32 (t_rhos sp) (s_randint g (Child key_i 8) (List.length (t_rhos sp))) in
  let sub j := Child (Child key_i 3) j in
  let bits j := s_bits g (sub j) n i in
  let noisy j std v := madd32 fused (s_normal g (sub j) n i) std v in
  let dx1 := draw32 fused dlo dhi (bits 0%nat) in
  let dy1 := f32_clip dlo dhi (plus32 dx1 (draw32 fused (f32_ofZ (-1)) (f32_ofZ 1) (bits 1%nat))) in
  let rho1 := draw32 fused rlo rhi (bits 2%nat) in
  let in1 := draw32 fused ilo ihi (bits 3%nat) in
  let dx2 := f32_clip dlo dhi (noisy 4%nat (t_diameter_std sp) dx1) in
  let dy2 := f32_clip dlo dhi (noisy 5%nat (t_diameter_std sp) dy1) in
  let rho2 := f32_clip rlo rhi (noisy 6%nat (t_rho_std sp) rho1) in
  let in2 := f32_clip ilo ihi (noisy 7%nat (t_intensity_std sp) in1) in
  ((dx1, dy1, rho1, in1), (dx2, dy2, rho2, in2)).

(** data_generate.py:150-153; the array of bounds holds integers. *)
Definition position32 (key_i : key) (i : nat) : f32 * f32 :=
  let w j := unit32 (s_bits g (Child key_i 2) (2 * n) (2 * i + j)) in
  (mult32 (w 0%nat) (f32_ofZ (fst pb)), mult32 (w 1%nat) (f32_ofZ (snd pb))).

(** data_generate.py:225-234 and 236-271. *)
Definition first32p (key_i : key) (d : f32) (i : nat) : particle32 :=
  let (y, x) := position32 key_i i in
  let '(dx, dy, rho, amp) := fst (params32 key_i i) in
  mkP32 y x dx dy rho (mult32 (mult32 amp (bool_32 (shown32 (Child key_i 0) (t_hide1 sp) i))) (bool_32 (mixed32 pb d i))).
Definition second32p (key_i : key) (d : f32) (f : flow32) (i : nat) : particle32 :=
  let (y, x) := second_position32 recip pb f (t_dt sp) rx ry (position32 key_i i) in
  let '(dx, dy, rho, amp) := snd (params32 key_i i) in
  mkP32 y x dx dy rho (mult32 (mult32 amp (bool_32 (shown32 (Child key_i 1) (t_hide2 sp) i))) (bool_32 (mixed32 pb d i))).
Definition firsts32 (key_i : key) (d : f32) : list particle32 := map (first32p key_i d) (seq 0 n).
Definition seconds32 (key_i : key) (d : f32) (f : flow32) : list particle32 := map (second32p key_i d f) (seq 0 n).
End Particles.
