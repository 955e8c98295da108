(** Particles sampled in binary32. *)
From Coq Require Import List Arith ZArith QArith Qround Qreals Qabs Qminmax Bool Reals Lia Lqa Lra Psatz.
From Flocq Require Import Core Relative Plus_error Mult_error IEEE754.BinarySingleNaN.
From Verif Require Import Prelude Model.Interp Model.Geometry Model.Render Model.InterpFloat Model.HistFloat Model.DrawFloat Model.MoveFloat Model.SampleFloat.
From Verif Require Import Spec.InterpSpec Spec.RenderSpec Spec.InterpFloatSpec Spec.DrawFloatSpec Spec.KernelFloatSpec Spec.MoveFloatSpec Spec.SampleFloatSpec.
From Verif Require Import Proofs.InterpProofs Proofs.RenderProofs Proofs.FloatProofs Proofs.RoundProofs Proofs.InterpFloatProofs Proofs.InterpBinary.
From Verif Require Import Proofs.DrawFloatProofs Proofs.PlaceFloatProofs Proofs.DrawnPixel Proofs.KernelError Proofs.KernelFloatProofs Proofs.KernelImage Proofs.MoveFloatProofs.
From Verif Require Import Proofs.HistFloatProofs.
Import ListNotations.
Local Open Scope R_scope.
Local Existing Instance p32.

Lemma real_rep : forall x, finite x -> rep x (real x).
Proof. exact finite_rep. Qed.

Lemma rep_real : forall x a, rep x a -> finite x /\ real x = a.
Proof. intros x a [F V]. split; [exact F|]. unfold real. rewrite (value_R x F). exact V. Qed.

Lemma real_float : forall x, finite x -> float32 (real x).
Proof. exact value_float. Qed.

(** * Rounding between two floats *)
Lemma rn_ge : forall f t, float32 f -> f <= t -> f <= rn32 t.
Proof. intros f t F H. rewrite <- (rn32_exact f F). apply rn32_le. exact H. Qed.
Lemma rn_le : forall f t, float32 f -> t <= f -> rn32 t <= f.
Proof. intros f t F H. rewrite <- (rn32_exact f F). apply rn32_le. exact H. Qed.

Lemma between_fits : forall a b t k, (k <= 127)%Z -> Rabs a <= bpow radix2 k -> Rabs b <= bpow radix2 k -> a <= t <= b -> fits t.
Proof.
  intros a b t k K A B T. apply small_fits. apply Rle_trans with (bpow radix2 k); [|apply bpow_le; exact K].
  apply Rabs_le. apply Rabs_le_inv in A, B. lra.
Qed.

(** * The unit draw *)
Lemma int23_float : forall m, (Z.abs m < 2 ^ 24)%Z -> float32 (IZR m * bpow radix2 (-23)).
Proof.
  intros m M. unfold float32. apply generic_format_FLT. exists (Float radix2 m (-23)); [reflexivity | exact M | cbn; lia].
Qed.

Lemma b23 : bpow radix2 (-23) = 2 * u.
Proof. rewrite <- u_u32. unfold u32. change 2 with (bpow radix2 1). rewrite <- bpow_plus. reflexivity. Qed.

Lemma unit_of_range : forall k, bits23 k -> 0 <= unit_of k <= 1 - 2 * u.
Proof.
  intros k [K1 K2]. unfold unit_of. rewrite b23. apply IZR_le in K1. assert (K3 : IZR k <= IZR (2 ^ 23 - 1)) by (apply IZR_le; lia).
  change (2 ^ 23 - 1)%Z with 8388607%Z in K3. unfold u. lra.
Qed.

Lemma unit_rep : forall k, bits23 k -> rep (unit32 k) (unit_of k).
Proof.
  intros k K. pose proof (unit_of_range k K) as R. pose proof u_pos as UP. assert (US : u <= / 1000000) by (unfold u; lra). unfold unit32.
  assert (N : rep (binary_normalize 24 128 p32 l32 mode_NE (8388608 + k) (-23) false) (1 + unit_of k)).
  { pose proof (binary_normalize_correct 24 128 p32 l32 mode_NE (8388608 + k) (-23) false) as C. cbv zeta in C.
    fold (rn32 (F2R (Float radix2 (8388608 + k) (-23)))) in C.
    assert (V : F2R (Float radix2 (8388608 + k) (-23)) = 1 + unit_of k)
      by (unfold F2R; cbn [Fnum Fexp]; rewrite plus_IZR, Rmult_plus_distr_r; unfold unit_of; f_equal; rewrite b23; unfold u; lra).
    assert (FF : float32 (F2R (Float radix2 (8388608 + k) (-23)))) by (apply (int23_float (8388608 + k)); unfold bits23 in K; lia).
    rewrite (rn32_exact _ FF) in C. rewrite V in C. rewrite Rlt_bool_true in C; [destruct C as (C1 & C2 & _); split; assumption|].
    rewrite Rabs_pos_eq by lra. apply Rlt_trans with (bpow radix2 1); [change (bpow radix2 1) with 2; lra | apply bpow_lt; lia]. }
  assert (FW : float32 (unit_of k)) by (apply int23_float; unfold bits23 in K; lia).
  pose proof (rep_sub _ _ _ _ N (rep_ofZ 1 ltac:(lia))) as S. replace (1 + unit_of k - IZR 1) with (unit_of k) in S by ring. rewrite (rn32_exact _ FW) in S.
  apply S. apply small_fits. rewrite Rabs_pos_eq by lra. apply Rle_trans with (bpow radix2 0); [change (bpow radix2 0) with 1; lra | apply bpow_le; lia].
Qed.

(** * Products with the width of a range *)
Lemma width_fixed : forall a b, float32 a -> float32 b -> Rabs (b - a) <= bpow radix2 (-125) -> float32 (b - a).
Proof.
  intros a b A B S. apply (@generic_format_FLT_FIX radix2 (-149) 24 p32); [exact S|].
  apply generic_format_FIX_FLT in A, B. apply FIX_format_generic in A, B. destruct A as [[ma ea] VA EA]. destruct B as [[mb eb] VB EB]. cbn in EA, EB. subst ea eb.
  apply generic_format_FIX. exists (Float radix2 (mb - ma) (-149)); [|reflexivity].
  rewrite VA, VB. unfold F2R. cbn [Fnum Fexp]. rewrite minus_IZR. ring.
Qed.

Lemma width_below : forall a b w, float32 a -> float32 b -> a <= b -> 0 <= w <= 1 - 2 * u ->
  0 <= w * rn32 (b - a) <= b - a /\ 0 <= rn32 (w * rn32 (b - a)) <= b - a.
Proof.
  intros a b w A B AB W. pose proof u_pos as UP. assert (US : u <= / 1000000) by (unfold u; lra). set (d := b - a) in *. assert (D0 : 0 <= d) by (unfold d; lra).
  pose proof (rn32_pos d D0) as R0. assert (P0 : 0 <= w * rn32 d) by (apply Rmult_le_pos; lra).
  set (lo := round radix2 (FLT_exp (-149) 24) Zfloor d).
  assert (FL : float32 lo) by (apply generic_format_round; [apply FLT_exp_valid; reflexivity | typeclasses eauto]).
  assert (LD : lo <= d) by (apply round_DN_pt; apply FLT_exp_valid; reflexivity).
  assert (K : w * rn32 d <= lo).
  { assert (EX : float32 d -> w * rn32 d <= lo).
    { intros F. unfold lo. rewrite round_generic by (try typeclasses eauto; exact F). rewrite (rn32_exact d F).
      apply Rle_trans with (1 * d); [apply Rmult_le_compat_r; lra | lra]. }
    destruct (Rle_or_lt (Rabs d) (bpow radix2 (-125))) as [S|S]; [apply EX; apply width_fixed; assumption|].
    rewrite Rabs_pos_eq in S by exact D0.
    destruct (generic_format_EM radix2 (FLT_exp (-149) 24) d) as [F|NF]; [apply EX; exact F|].
    destruct (round_DN_or_UP radix2 (FLT_exp (-149) 24) (round_mode mode_NE) d) as [E|E];
      change (round radix2 (FLT_exp (-149) 24) (round_mode mode_NE) d) with (rn32 d) in E.
    - fold lo in E. rewrite E in *. apply Rle_trans with (1 * lo); [apply Rmult_le_compat_r; lra | lra].
    - pose proof (round_UP_DN_ulp radix2 (FLT_exp (-149) 24) d NF) as UPE. rewrite <- E in UPE. fold lo in UPE.
      assert (UL : ulp radix2 (FLT_exp (-149) 24) d <= d * (2 * u)).
      { rewrite <- b23. rewrite <- (Rabs_pos_eq d) at 2 by exact D0. apply (ulp_FLT_le radix2 (-149) 24). rewrite Rabs_pos_eq by exact D0.
        eapply Rle_trans; [|apply Rlt_le; exact S]. apply bpow_le. lia. }
      assert (DU : d <= rn32 d) by (rewrite E; apply round_UP_pt; apply FLT_exp_valid; reflexivity).
      assert (M : w * rn32 d <= (1 - 2 * u) * rn32 d) by (apply Rmult_le_compat_r; lra).
      assert (M2 : d * (2 * u) <= rn32 d * (2 * u)) by (apply Rmult_le_compat_r; lra). lra. }
  split; [split; lra|]. split; [apply rn32_pos; exact P0|]. apply Rle_trans with lo; [apply rn_le; assumption | exact LD].
Qed.

(** * A draw from a range *)
Definition moved_by (fused : bool) (w d : R) : R := if fused then w * d else rn32 (w * d).

Lemma rep_madd : forall fused x y z a b c, rep x a -> rep y b -> rep z c -> fits (rn32 (a * b)) -> fits (rn32 (moved_by fused a b + c)) ->
  rep (madd32 fused x y z) (rn32 (moved_by fused a b + c)).
Proof.
  intros [|] x y z a b c X Y Z P S; unfold madd32, moved_by in *.
  - destruct X as [FX <-], Y as [FY <-], Z as [FZ <-]. pose proof (Bfma_correct 24 128 p32 l32 mode_NE x y z FX FY FZ) as C. cbv zeta in C.
    fold (rn32 (B2R x * B2R y + B2R z)) in C. rewrite Rlt_bool_true in C by exact S. destruct C as (C1 & C2 & _). split; assumption.
  - apply rep_add; [apply rep_mul; assumption | exact Z | exact S].
Qed.

Section Draw.
Variables (fused : bool) (lo hi : f32) (k : Z).
Hypotheses (FL : finite lo) (FH : finite hi) (LH : real lo <= real hi).
Hypotheses (BL : Rabs (real lo) <= bpow radix2 126) (BH : Rabs (real hi) <= bpow radix2 126) (K : bits23 k).

Let w := unit_of k.
Let d := real hi - real lo.

Lemma drawn_value : rep (draw32 fused lo hi k) (rn32 (moved_by fused w (rn32 d) + real lo)) /\
  real lo <= rn32 (moved_by fused w (rn32 d) + real lo) <= real hi /\ real lo <= moved_by fused w (rn32 d) + real lo <= real hi.
Proof.
  pose proof (real_float lo FL) as TL. pose proof (real_float hi FH) as TH. pose proof (unit_of_range k K) as W. fold w in W.
  destruct (width_below (real lo) (real hi) w TL TH LH W) as [A B]. fold d in A, B.
  assert (DB : Rabs d <= bpow radix2 127).
  { unfold d. replace (bpow radix2 127) with (2 * bpow radix2 126) by (change 2 with (bpow radix2 1); rewrite <- bpow_plus; reflexivity).
    apply Rabs_le. apply Rabs_le_inv in BL, BH. lra. }
  destruct (rn_bound d 127 ltac:(lia) DB) as [DB' DF].
  assert (RD : rep (minus32 hi lo) (rn32 d)) by (apply rep_sub; [apply real_rep; exact FH | apply real_rep; exact FL | exact DF]).
  assert (I : 0 <= moved_by fused w (rn32 d) <= d) by (destruct fused; assumption).
  assert (J : real lo <= moved_by fused w (rn32 d) + real lo <= real hi) by (assert (DE : d = real hi - real lo) by reflexivity; lra).
  assert (R : real lo <= rn32 (moved_by fused w (rn32 d) + real lo) <= real hi) by (split; [apply rn_ge; [exact TL | lra] | apply rn_le; [exact TH | lra]]).
  assert (V : rep (madd32 fused (unit32 k) (minus32 hi lo) lo) (rn32 (moved_by fused w (rn32 d) + real lo))).
  { apply rep_madd; [apply unit_rep; exact K | exact RD | apply real_rep; exact FL | |].
    - apply (between_fits 0 (bpow radix2 127) _ 127); [lia | rewrite Rabs_R0; apply bpow_ge_0 | rewrite Rabs_pos_eq; [lra | apply bpow_ge_0] |].
      split; [lra|]. rewrite Rabs_pos_eq in DB by (unfold d; lra). lra.
    - apply (between_fits (real lo) (real hi) _ 126); [lia | exact BL | exact BH | exact R]. }
  split; [|split; assumption]. unfold draw32. cbv zeta. rewrite (proj2 (rep_leb _ _ _ _ (real_rep lo FL) V) (proj1 R)). exact V.
Qed.

Lemma drawn_lies : lies_in (lo, hi) (draw32 fused lo hi k).
Proof. destruct drawn_value as (V & R & _). destruct (rep_real _ _ V) as [F E]. split; [exact F|]. rewrite E. exact R. Qed.

Lemma drawn_error : Rabs (real (draw32 fused lo hi k) - (real lo + unit_of k * (real hi - real lo))) <=
  2 * u * (real hi - real lo) + u * Rmax (Rabs (real lo)) (Rabs (real hi)) + 2 * e32.
Proof.
  destruct drawn_value as (V & R & J). destruct (rep_real _ _ V) as [_ ->]. fold w d.
  pose proof (unit_of_range k K) as W. fold w in W. pose proof u_pos as UP. assert (US : u <= / 1000000) by (unfold u; lra).
  assert (D0 : 0 <= d) by (unfold d; lra). pose proof (rn32_pos d D0) as R0.
  assert (ED : Rabs (rn32 d - d) <= u * d).
  { pose proof (rnd_add (real hi) (- real lo) (real_float hi FH)) as X. unfold rnd in X. unfold Rminus in d. fold d in X.
    rewrite (Rabs_pos_eq d) in X by exact D0. apply X. apply generic_format_opp. exact (real_float lo FL). }
  assert (M : Rabs (moved_by fused w (rn32 d) + real lo) <= Rmax (Rabs (real lo)) (Rabs (real hi))).
  { pose proof (Rmax_l (Rabs (real lo)) (Rabs (real hi))). pose proof (Rmax_r (Rabs (real lo)) (Rabs (real hi))).
    pose proof (Rle_abs (real hi)). pose proof (Rle_abs (- real lo)) as N. rewrite Rabs_Ropp in N. apply Rabs_le. lra. }
  pose proof (rn32_err (moved_by fused w (rn32 d) + real lo)) as E1.
  assert (E1' : Rabs (rn32 (moved_by fused w (rn32 d) + real lo) - (moved_by fused w (rn32 d) + real lo)) <= u * Rmax (Rabs (real lo)) (Rabs (real hi)) + e32)
    by (eapply Rle_trans; [exact E1|]; apply Rplus_le_compat_r; apply Rmult_le_compat_l; lra).
  assert (EW : Rabs (w * rn32 d - w * d) <= (1 - 2 * u) * (u * d)).
  { rewrite <- Rmult_minus_distr_l, Rabs_mult, (Rabs_pos_eq w) by lra. apply Rmult_le_compat; [lra | apply Rabs_pos | lra | exact ED]. }
  assert (UD : 0 <= u * d) by (apply Rmult_le_pos; lra).
  assert (PD : w * rn32 d <= (1 - u) * d).
  { apply Rabs_le_inv in ED. apply Rle_trans with ((1 - 2 * u) * (d + u * d)); [apply Rmult_le_compat; lra|].
    assert (0 <= u * (u * d)) by (apply Rmult_le_pos; lra). lra. }
  assert (EM : Rabs (moved_by fused w (rn32 d) - w * rn32 d) <= u * ((1 - u) * d) + e32).
  { assert (0 <= u * ((1 - u) * d)) by (apply Rmult_le_pos; [lra|]; apply Rmult_le_pos; lra). assert (P0 : 0 <= w * rn32 d) by (apply Rmult_le_pos; lra). pose proof (proj1 e32_small) as E0.
    destruct fused; unfold moved_by; [rewrite Rminus_diag_eq, Rabs_R0 by reflexivity; lra|].
    eapply Rle_trans; [apply rn32_err|]. rewrite (Rabs_pos_eq _ P0). apply Rplus_le_compat_r. apply Rmult_le_compat_l; lra. }
  replace (rn32 (moved_by fused w (rn32 d) + real lo) - (real lo + w * d)) with
    ((rn32 (moved_by fused w (rn32 d) + real lo) - (moved_by fused w (rn32 d) + real lo)) + ((moved_by fused w (rn32 d) - w * rn32 d) + (w * rn32 d - w * d))) by ring.
  eapply Rle_trans; [apply Rabs_triang|]. eapply Rle_trans; [apply Rplus_le_compat_l; apply Rabs_triang|].
  assert (0 <= u * (u * d)) by (apply Rmult_le_pos; lra).
  replace (2 * u * d) with (2 * (u * d)) by ring. replace (u * ((1 - u) * d)) with (u * d - u * (u * d)) in EM by ring.
  replace ((1 - 2 * u) * (u * d)) with (u * d - 2 * (u * (u * d))) in EW by ring. lra.
Qed.
End Draw.

(** * Clipping *)
Lemma not_nan_add : forall x y, finite x -> f32_isnan y = false -> f32_isnan (plus32 y x) = false.
Proof.
  intros x y F N. destruct (is_finite y) eqn:FY.
  - pose proof (Bplus_correct 24 128 p32 l32 mode_NE y x FY F) as C. fold (plus32 y x) in C. destruct (Rlt_bool _ _) in C.
    + destruct C as (_ & C & _). destruct (plus32 y x); [reflexivity | reflexivity | discriminate C | reflexivity].
    + destruct C as (C & _). destruct (plus32 y x); [reflexivity | reflexivity | discriminate C | reflexivity].
  - destruct y as [|s| |]; try discriminate FY; try discriminate N. destruct x; try discriminate F; reflexivity.
Qed.

Lemma not_nan_mul : forall x y, finite x -> finite y -> f32_isnan (mult32 x y) = false.
Proof.
  intros x y F G. pose proof (Bmult_correct 24 128 p32 l32 mode_NE x y) as C. fold (mult32 x y) in C. destruct (Rlt_bool _ _) in C.
  - destruct C as (_ & C & _). rewrite F, G in C. destruct (mult32 x y); [reflexivity | reflexivity | discriminate C | reflexivity].
  - destruct (mult32 x y); [reflexivity | reflexivity | discriminate C | reflexivity].
Qed.

Lemma not_nan_madd : forall fused x y z, finite x -> finite y -> finite z -> f32_isnan (madd32 fused x y z) = false.
Proof.
  intros [|] x y z F G H; unfold madd32.
  - pose proof (Bfma_correct 24 128 p32 l32 mode_NE x y z F G H) as C. cbv zeta in C. set (v := Bfma mode_NE x y z) in *. destruct (Rlt_bool _ _) in C.
    + destruct C as (_ & C & _). destruct v; [reflexivity | reflexivity | discriminate C | reflexivity].
    + destruct v; [reflexivity | reflexivity | discriminate C | reflexivity].
  - apply not_nan_add; [exact H|]. apply not_nan_mul; assumption.
Qed.

Lemma clip_lies : forall lo hi x, finite lo -> finite hi -> real lo <= real hi -> f32_isnan x = false -> lies_in (lo, hi) (f32_clip lo hi x).
Proof.
  intros lo hi x L H LH N. unfold f32_clip. rewrite N. cbv zeta. unfold lies_in. cbn [fst snd].
  assert (C : forall z, finite z -> real lo <= real z -> finite (if f32_leb z hi then z else hi) /\ real lo <= real (if f32_leb z hi then z else hi) <= real hi).
  { intros z Z LZ. destruct (f32_leb z hi) eqn:E; [|split; [exact H | lra]].
    apply (rep_leb _ _ _ _ (real_rep z Z) (real_rep hi H)) in E. split; [exact Z | lra]. }
  destruct (is_finite x) eqn:FX.
  - destruct (f32_leb lo x) eqn:E; [apply (rep_leb _ _ _ _ (real_rep lo L) (real_rep x FX)) in E; apply C; assumption | apply C; [exact L | lra]].
  - destruct x as [|s| |]; try discriminate FX; try discriminate N.
    assert (A : f32_leb lo (B754_infinity s) = negb s) by (destruct lo; destruct s; try discriminate L; try reflexivity; destruct s0; reflexivity).
    rewrite A. destruct s; cbn [negb]; [apply C; [exact L | lra]|].
    assert (B : f32_leb (B754_infinity false) hi = false) by (destruct hi; try discriminate H; try reflexivity; destruct s; reflexivity).
    rewrite B. split; [exact H | lra].
Qed.

(** * Positions *)
Lemma bpow_normal : forall k n, (0 < k)%Z -> (1 <= n)%Z -> bpow radix2 (-126) <= Rabs (unit_of k * IZR n).
Proof.
  intros k n K N. unfold unit_of. assert (K1 : 1 <= IZR k) by (apply (IZR_le 1); lia). assert (N1 : 1 <= IZR n) by (apply (IZR_le 1); lia).
  pose proof (bpow_gt_0 radix2 (-23)). apply Rle_trans with (bpow radix2 (-23)); [apply bpow_le; lia|].
  assert (A : bpow radix2 (-23) <= IZR k * bpow radix2 (-23)) by (rewrite <- (Rmult_1_l (bpow radix2 (-23))) at 1; apply Rmult_le_compat_r; lra).
  rewrite Rabs_pos_eq by (apply Rmult_le_pos; lra).
  rewrite <- (Rmult_1_r (bpow radix2 (-23))) at 1. apply Rmult_le_compat; lra.
Qed.

Lemma spot_ok : forall k n, bits23 k -> (1 <= n < 2 ^ 24)%Z ->
  finite (mult32 (unit32 k) (f32_ofZ n)) /\ 0 <= real (mult32 (unit32 k) (f32_ofZ n)) < IZR n /\
  Rabs (real (mult32 (unit32 k) (f32_ofZ n)) - unit_of k * IZR n) <= u * IZR n.
Proof.
  intros k n K N. pose proof (unit_of_range k K) as W. pose proof u_pos as UP. assert (US : u <= / 1000000) by (unfold u; lra).
  pose proof (unit_rep k K) as RU. pose proof (rep_ofZ n ltac:(lia)) as RN. set (w := unit_of k) in *.
  assert (N1 : 1 <= IZR n) by (apply (IZR_le 1); lia).
  assert (FN : float32 (IZR n)) by (apply float32_Z; lia).
  assert (P0 : 0 <= w * IZR n) by (apply Rmult_le_pos; lra).
  set (p := Ulp.pred radix2 (FLT_exp (-149) 24) (IZR n)).
  assert (FP : float32 p) by (apply generic_format_pred; [typeclasses eauto | exact FN]).
  assert (PL : p < IZR n) by (apply pred_lt_id; lra).
  assert (PH : / 2 <= p).
  { apply pred_ge_gt; [typeclasses eauto | | exact FN | lra]. change (/ 2) with (bpow radix2 (-1)). apply bpow_float. lia. }
  assert (WP : w * IZR n <= p).
  { pose proof (pred_plus_ulp radix2 (FLT_exp (-149) 24) (IZR n) ltac:(lra) FN) as E. fold p in E.
    pose proof (ulp_FLT_le radix2 (-149) 24 p) as L. rewrite (Rabs_pos_eq p) in L by lra.
    assert (L' : ulp radix2 (FLT_exp (-149) 24) p <= p * (2 * u)).
    { rewrite <- b23. apply L. apply Rle_trans with (bpow radix2 (-1)); [apply bpow_le; lia | change (bpow radix2 (-1)) with (/ 2); lra]. }
    assert (M : w * IZR n <= (1 - 2 * u) * IZR n) by (apply Rmult_le_compat_r; lra).
    assert (M2 : p * (2 * u) <= IZR n * (2 * u)) by (apply Rmult_le_compat_r; lra). lra. }
  assert (R : 0 <= rn32 (w * IZR n) <= p) by (split; [apply rn32_pos; exact P0 | apply rn_le; assumption]).
  assert (V : rep (mult32 (unit32 k) (f32_ofZ n)) (rn32 (w * IZR n))).
  { apply rep_mul; [exact RU | exact RN|]. apply (between_fits 0 (bpow radix2 24) _ 24); [lia | rewrite Rabs_R0; apply bpow_ge_0 | rewrite Rabs_pos_eq; [lra | apply bpow_ge_0] |].
    change (bpow radix2 24) with (IZR (2 ^ 24)). assert (IZR n <= IZR (2 ^ 24)) by (apply IZR_le; lia). lra. }
  destruct (rep_real _ _ V) as [F E]. rewrite E. split; [exact F|]. split; [lra|].
  assert (WN : u * (w * IZR n) <= u * IZR n) by (apply Rmult_le_compat_l; [lra|]; rewrite <- (Rmult_1_l (IZR n)) at 2; apply Rmult_le_compat_r; lra).
  destruct (Z.eq_dec k 0) as [->|NZ].
  - replace (w * IZR n) with 0 in * by (unfold w, unit_of; ring). rewrite rn32_0, Rminus_0_r, Rabs_R0. lra.
  - assert (KP : (0 < k)%Z) by (destruct K; lia). pose proof (bpow_normal k n KP ltac:(lia)) as B. fold w in B.
    assert (S : sz (-126) 24 (w * IZR n)).
    { right. split; [exact B|]. rewrite Rabs_pos_eq by exact P0. change (bpow radix2 24) with (IZR (2 ^ 24)). assert (IZR n <= IZR (2 ^ 24)) by (apply IZR_le; lia). lra. }
    pose proof (sz_rnd (-126) 24 _ ltac:(lia) S) as X. unfold rnd in X. rewrite (Rabs_pos_eq _ P0) in X. lra.
Qed.

(** * Hiding *)
Lemma shown_iff : forall g n k p i, fair g -> finite p -> shown32 g n k p i = true <-> unit_of (s_bits g k n i) < real p.
Proof.
  intros g n k p i [B _] P. unfold shown32. pose proof (rep_leb p (unit32 (s_bits g k n i)) _ _ (real_rep p P) (unit_rep _ (B k n i))) as L.
  destruct (f32_leb p (unit32 (s_bits g k n i))); cbn [negb]; split; intros H.
  - discriminate H.
  - pose proof (proj1 L eq_refl). lra.
  - destruct (Rlt_le_dec (unit_of (s_bits g k n i)) (real p)) as [A|A]; [exact A|]. apply L in A. discriminate A.
  - reflexivity.
Qed.

(** * Numbers of particles *)
Lemma floor_between : forall t r, 0 <= t -> IZR (Zfloor t) <= r <= IZR (Zfloor t + 1) -> (Zfloor t <= Zfloor r <= Zfloor t + 1)%Z.
Proof.
  intros t r T [A B]. split; [apply Zfloor_lub; exact A|].
  apply Z.le_trans with (Zfloor (IZR (Zfloor t + 1))); [apply Zfloor_le; exact B | rewrite Zfloor_IZR; lia].
Qed.

Lemma floor_rn : forall t, 0 <= t -> t < IZR (2 ^ 24) -> (Zfloor t <= Zfloor (rn32 t) <= Zfloor t + 1)%Z.
Proof.
  intros t T U. assert (F0 : (0 <= Zfloor t)%Z) by (apply Zfloor_lub; exact T). assert (F1 : (Zfloor t < 2 ^ 24)%Z) by (apply lt_IZR; eapply Rle_lt_trans; [apply Zfloor_lb | exact U]).
  apply floor_between; [exact T|]. pose proof (Zfloor_lb t). pose proof (Zfloor_ub t). rewrite plus_IZR.
  split; [apply rn_ge; [apply float32_int; unfold top; lia | lra] | rewrite <- plus_IZR; apply rn_le; [apply float32_int; unfold top; lia | rewrite plus_IZR; lra]].
Qed.

Lemma visible_count : forall pb d q n, f_val (mult32 (f32_ofZ (fst pb * snd pb)) d) = Some q -> (0 <= Qfloor q)%Z ->
  visible pb d n = Nat.min n (Z.to_nat (Qfloor q)).
Proof.
  intros pb d q n E P. unfold visible, mixed32. rewrite E. set (c := Qfloor q) in *. clearbody c. clear E.
  induction n as [|n IH]; [reflexivity|]. rewrite seq_S, filter_app, app_length, IH. cbn [filter Nat.add].
  destruct (Z.ltb_spec (Z.of_nat n) c); cbn [List.length]; lia.
Qed.

Lemma lit_number : forall pb d n, (1 <= area_of pb < 2 ^ 24)%Z -> finite d -> 0 <= real d -> IZR (area_of pb) * real d < IZR (2 ^ 24) ->
  exists c, (c = Qfloor (inject_Z (area_of pb) * value d) \/ c = Qfloor (inject_Z (area_of pb) * value d) + 1)%Z /\ (0 <= c)%Z /\ visible pb d n = Nat.min n (Z.to_nat c).
Proof.
  intros pb d n A F D B. assert (A1 : 1 <= IZR (area_of pb)) by (apply (IZR_le 1); lia). set (t := IZR (area_of pb) * real d) in *.
  assert (T : 0 <= t) by (apply Rmult_le_pos; lra).
  pose proof (floor_rn t T B) as FR.
  assert (V : rep (mult32 (f32_ofZ (fst pb * snd pb)) d) (rn32 t)).
  { apply rep_mul; [apply (rep_ofZ (area_of pb)); lia | apply real_rep; exact F|]. fold t.
    apply (between_fits 0 (bpow radix2 24) _ 24); [lia | rewrite Rabs_R0; apply bpow_ge_0 | rewrite Rabs_pos_eq; [lra | apply bpow_ge_0] |].
    split; [apply rn32_pos; exact T|]. apply rn_le; [apply bpow_float; lia|]. change (bpow radix2 24) with (IZR (2 ^ 24)). lra. }
  destruct (rep_real _ _ V) as [FV E]. set (m := mult32 (f32_ofZ (fst pb * snd pb)) d) in *.
  assert (EQ : Q2R (inject_Z (area_of pb) * value d) = t) by (rewrite Q2R_mult, Q2R_Z; reflexivity).
  rewrite <- floor_Q2R, EQ. exists (Qfloor (value m)). rewrite <- floor_Q2R. unfold real in E. rewrite E.
  assert (F0 : (0 <= Zfloor t)%Z) by (apply Zfloor_lub; exact T).
  split; [lia|]. split; [lia|]. rewrite <- E, floor_Q2R.
  apply visible_count; [|rewrite <- floor_Q2R, E; lia]. fold m. unfold value. unfold finite in FV. destruct m; try discriminate FV; reflexivity.
Qed.

(** The double product. *)
Lemma rn64_int : forall t, 0 <= t -> t < IZR (2 ^ 30) ->
  (Zfloor t <= Zfloor (round radix2 (FLT_exp (-1074) 53) ZnearestE t) <= Zfloor t + 1)%Z /\ Rabs (round radix2 (FLT_exp (-1074) 53) ZnearestE t - t) <= / 1000 /\ 0 <= round radix2 (FLT_exp (-1074) 53) ZnearestE t < IZR (2 ^ 30) + 1.
Proof.
  intros t T U. assert (V : Valid_exp (FLT_exp (-1074) 53)) by (apply FLT_exp_valid; reflexivity).
  assert (F0 : (0 <= Zfloor t)%Z) by (apply Zfloor_lub; exact T). assert (F1 : (Zfloor t < 2 ^ 30)%Z) by (apply lt_IZR; eapply Rle_lt_trans; [apply Zfloor_lb | exact U]).
  assert (G : forall z, (0 <= z <= 2 ^ 30)%Z -> generic_format radix2 (FLT_exp (-1074) 53) (IZR z)).
  { intros z Z. apply generic_format_FLT. exists (Float radix2 z 0); [unfold F2R; cbn [Fnum Fexp bpow]; ring | cbn [Fnum]; change (2 ^ 53)%Z with 9007199254740992%Z; change (radix2 ^ 53)%Z with 9007199254740992%Z; lia | cbn; lia]. }
  pose proof (Zfloor_lb t) as LB. pose proof (Zfloor_ub t) as UB. set (r := round radix2 (FLT_exp (-1074) 53) ZnearestE t).
  assert (R : IZR (Zfloor t) <= r <= IZR (Zfloor t + 1)).
  { split; [apply round_ge_generic; [exact V | typeclasses eauto | apply G; lia | exact LB] | apply round_le_generic; [exact V | typeclasses eauto | apply G; lia | rewrite plus_IZR; lra]]. }
  split; [apply floor_between; assumption|]. split.
  - destruct (error_N_FLT radix2 (-1074) 53 ltac:(reflexivity) (fun x => negb (Z.even x)) t) as (ep & et & H1 & H2 & _ & H3).
    fold r in H3. rewrite H3. replace (t * (1 + ep) + et - t) with (ep * t + et) by ring. eapply Rle_trans; [apply Rabs_triang|]. rewrite Rabs_mult, (Rabs_pos_eq t T).
    assert (A : / 2 * bpow radix2 (- (53) + 1) = bpow radix2 (-53)) by (change (/ 2) with (bpow radix2 (-1)); rewrite <- bpow_plus; reflexivity).
    assert (B : / 2 * bpow radix2 (-1074) <= bpow radix2 (-23)) by (change (/ 2) with (bpow radix2 (-1)); rewrite <- bpow_plus; apply bpow_le; lia).
    rewrite A in H1. assert (C : Rabs ep * t <= bpow radix2 (-53) * bpow radix2 30) by (apply Rmult_le_compat; [apply Rabs_pos | exact T | exact H1 | change (bpow radix2 30) with (IZR (2 ^ 30)); lra]).
    rewrite <- bpow_plus in C. change (-53 + 30)%Z with (-23)%Z in C. rewrite b23 in *. unfold u in *. lra.
  - assert (IZR 0 <= IZR (Zfloor t)) by (apply IZR_le; exact F0). assert (IZR (Zfloor t + 1) <= IZR (2 ^ 30)) by (apply IZR_le; lia). lra.
Qed.

Lemma all_number : forall pb (x : f64) q, (1 <= area_of pb < 2 ^ 24)%Z -> f_val x = Some q -> (0 <= q)%Q -> (inject_Z (area_of pb) * q <= 8388608)%Q ->
  exists t, num64 pb x = Some (Zfloor t) /\ 0 <= t /\ Rabs (t - IZR (area_of pb) * Q2R q) <= / 1000 /\
    (Qfloor (inject_Z (area_of pb) * q) <= Zfloor t <= Qfloor (inject_Z (area_of pb) * q) + 1)%Z.
Proof.
  intros pb x q A E Q0 B. assert (F : is_finite x = true) by (destruct x; try discriminate E; reflexivity).
  destruct (f_val_R x F) as (q' & E' & VX). rewrite E in E'. injection E' as <-.
  destruct (dy_ofZ (area_of pb) ltac:(lia)) as [FN VN].
  assert (VN' : B2R (f64_ofZ (area_of pb)) = IZR (area_of pb)) by (rewrite VN; unfold F2R; cbn [Fnum Fexp Z.opp bpow]; ring).
  assert (A1 : 1 <= IZR (area_of pb)) by (apply (IZR_le 1); lia). apply Qle_Rle in Q0, B. rewrite Q2R_0 in Q0. rewrite Q2R_mult, Q2R_Z in B.
  change (8388608)%Q with (inject_Z 8388608) in B. rewrite Q2R_Z in B.
  assert (T : 0 <= IZR (area_of pb) * Q2R q) by (apply Rmult_le_pos; lra).
  set (t0 := IZR (area_of pb) * Q2R q) in *. destruct (rn64_int t0 T) as (K1 & K2 & K3); [apply Rle_lt_trans with 8388608; [exact B | apply IZR_lt; reflexivity]|].
  set (t := round radix2 (FLT_exp (-1074) 53) ZnearestE t0) in *.
  pose proof (Bmult_correct 53 1024 p64 l64 mode_NE (f64_ofZ (area_of pb)) x) as C. rewrite VN', <- VX in C. fold t0 in C.
  change (round radix2 (SpecFloat.fexp 53 1024) (round_mode mode_NE) t0) with t in C.
  rewrite Rlt_bool_true in C.
  2:{ rewrite Rabs_pos_eq by lra. apply Rlt_trans with (bpow radix2 31); [|apply bpow_lt; lia]. change (bpow radix2 31) with (IZR (2 ^ 31)).
      apply Rlt_le_trans with (IZR (2 ^ 30) + 1); [apply K3|]. rewrite <- plus_IZR. apply IZR_le. lia. }
  destruct C as (C1 & C2 & _). rewrite FN, F in C2. destruct (f_val_R _ C2) as (qt & ET & VT). rewrite C1 in VT.
  exists t. split; [|split; [lra|split; [exact K2|]]].
  - unfold num64. fold (area_of pb). rewrite ET. cbn [option_map]. f_equal. unfold Qtrunc.
    assert (QT : (0 <= qt)%Q) by (apply Rle_Qle; rewrite Q2R_0, VT; lra). apply Qle_bool_iff in QT. rewrite QT, <- floor_Q2R, VT. reflexivity.
  - assert (ET0 : Q2R (inject_Z (area_of pb) * q) = t0) by (rewrite Q2R_mult, Q2R_Z; reflexivity). rewrite <- floor_Q2R, ET0. exact K1.
Qed.

(** * Densities *)
Lemma single_of : forall (x : f64) q, f_val x = Some q -> (0 <= q <= 8388608)%Q ->
  finite (to_f32 x) /\ real (to_f32 x) = rn32 (Q2R q) /\ 0 <= real (to_f32 x) <= 8388608.
Proof.
  intros x q E [Q0 Q1]. assert (F : is_finite x = true) by (destruct x; try discriminate E; reflexivity).
  destruct (f_val_R x F) as (q' & E' & VX). rewrite E in E'. injection E' as <-.
  apply Qle_Rle in Q0, Q1. rewrite Q2R_0 in Q0. change (8388608)%Q with (inject_Z 8388608) in Q1. rewrite Q2R_Z in Q1.
  assert (R : 0 <= rn32 (Q2R q) <= 8388608) by (split; [apply rn32_pos; exact Q0 | apply rn_le; [change 8388608 with (bpow radix2 23); apply bpow_float; lia | exact Q1]]).
  pose proof (to_f32_rep x F) as V. rewrite <- VX in V. destruct (rep_real _ _ (V ltac:(apply (between_fits 0 8388608 _ 23); [lia | rewrite Rabs_R0; apply bpow_ge_0 | rewrite Rabs_pos_eq by lra; change 8388608 with (bpow radix2 23); lra | exact R]))) as [V1 V2].
  split; [exact V1|]. rewrite V2. split; [reflexivity | exact R].
Qed.

Lemma density_lies : forall fused range k ql qh, bits23 k -> f_val (fst range) = Some ql -> f_val (snd range) = Some qh ->
  (0 <= ql)%Q -> (ql <= qh)%Q -> (qh <= 8388608)%Q ->
  finite (density32 fused range k) /\ rn32 (Q2R ql) <= real (density32 fused range k) <= rn32 (Q2R qh).
Proof.
  intros fused [lo hi] k ql qh K EL EH Q0 Q1 Q2. cbn [fst snd] in EL, EH. destruct (single_of lo ql EL) as (FL & VL & RL); [split; Lqa.lra|].
  destruct (single_of hi qh EH) as (FH & VH & RH); [split; Lqa.lra|]. unfold density32. cbn [fst snd].
  assert (LH : real (to_f32 lo) <= real (to_f32 hi)) by (rewrite VL, VH; apply rn32_le; apply Qle_Rle; exact Q1).
  assert (B : forall x, 0 <= x <= 8388608 -> Rabs x <= bpow radix2 126) by (intros x X; rewrite Rabs_pos_eq by lra; apply Rle_trans with (bpow radix2 23); [change (bpow radix2 23) with 8388608; lra | apply bpow_le; lia]).
  destruct (drawn_lies fused (to_f32 lo) (to_f32 hi) k FL FH LH (B _ RL) (B _ RH) K) as [FD RD]. cbn [fst snd] in RD.
  set (d := draw32 fused (to_f32 lo) (to_f32 hi) k) in *.
  destruct (rep_ofZ 0 ltac:(lia)) as [Z1 Z2]. assert (ZR : real (f32_ofZ 0) = 0) by (unfold real; rewrite (value_R _ Z1), Z2; reflexivity).
  assert (N : f32_isnan d = false) by (unfold finite in FD; destruct d; try discriminate FD; reflexivity).
  unfold f32_clip. rewrite N. cbv zeta.
  rewrite (proj2 (rep_leb _ _ _ _ (real_rep _ Z1) (real_rep _ FD))) by lra. rewrite (proj2 (rep_leb _ _ _ _ (real_rep _ FD) (real_rep _ FH))) by lra.
  split; [exact FD|]. rewrite <- VL, <- VH. exact RD.
Qed.

(** * Particles *)
Lemma pick_in : forall l i, l <> [] -> In (pick32 l i) l.
Proof. intros l i N. unfold pick32. apply nth_In. destruct l; [congruence|]. cbn [List.length]. lia. Qed.

Lemma bool_rep : forall b, rep (bool_32 b) (if b then 1 else 0).
Proof. intros [|]; [apply (rep_ofZ 1) | apply (rep_ofZ 0)]; lia. Qed.

Lemma switch : forall x b, finite x -> Rabs (real x) <= bpow radix2 126 ->
  finite (mult32 x (bool_32 b)) /\ real (mult32 x (bool_32 b)) = if b then real x else 0.
Proof.
  intros x b F B. assert (E : rn32 (real x * (if b then 1 else 0)) = if b then real x else 0)
    by (destruct b; [rewrite Rmult_1_r; apply rn32_exact; apply real_float; exact F | rewrite Rmult_0_r; apply rn32_0]).
  assert (V : rep (mult32 x (bool_32 b)) (rn32 (real x * (if b then 1 else 0)))).
  { apply rep_mul; [apply real_rep; exact F | apply bool_rep|]. rewrite E. destruct b; apply small_fits; [eapply Rle_trans; [exact B|]; apply bpow_le; lia | rewrite Rabs_R0; apply bpow_ge_0]. }
  rewrite E in V. apply rep_real. exact V.
Qed.

Section Params.
Variables (fused recip : bool) (g : source32) (sp : spec32) (pb : Z * Z) (n : nat) (rx ry : f32).
Hypotheses (G : fair g) (SP : sound_spec sp) (PB : bounds_ok pb).
Variable key_i : key.

Let dr := pick32 (t_diameters sp) (s_randint g (Child key_i 6) (List.length (t_diameters sp))).
Let ir := pick32 (t_intensities sp) (s_randint g (Child key_i 7) (List.length (t_intensities sp))).
Let rr := pick32 (t_rhos sp) (s_randint g (Child key_i 8) (List.length (t_rhos sp))).

Lemma dr_in : In dr (t_diameters sp). Proof. apply pick_in. apply SP. Qed.
Lemma ir_in : In ir (t_intensities sp). Proof. apply pick_in. apply SP. Qed.
Lemma rr_in : In rr (t_rhos sp). Proof. apply pick_in. apply SP. Qed.
Lemma dr_ok : range_in (/ 1048576) 1048576 dr.
Proof. destruct SP as (_ & F & _). rewrite Forall_forall in F. apply F. exact dr_in. Qed.
Lemma ir_ok : range_in 0 1048576 ir.
Proof. destruct SP as (_ & _ & _ & F & _). rewrite Forall_forall in F. apply F. exact ir_in. Qed.
Lemma rr_ok : range_in (- (1023 / 1024)) (1023 / 1024) rr.
Proof. destruct SP as (_ & _ & _ & _ & _ & F & _). rewrite Forall_forall in F. apply F. exact rr_in. Qed.

Lemma small_side : forall x, -1048576 <= x <= 1048576 -> Rabs x <= bpow radix2 126.
Proof.
  intros x X. apply Rle_trans with (bpow radix2 20); [change (bpow radix2 20) with 1048576; apply Rabs_le; lra | apply bpow_le; lia].
Qed.

Lemma draw_in : forall a b r k, -1048576 <= a -> b <= 1048576 -> range_in a b r -> bits23 k -> lies_in r (draw32 fused (fst r) (snd r) k).
Proof.
  intros a b [lo hi] k A B (F1 & F2 & R1 & R2 & R3) K. cbn [fst snd] in *. apply drawn_lies; try assumption; apply small_side; lra.
Qed.

Lemma clip_in : forall a b r x, range_in a b r -> f32_isnan x = false -> lies_in r (f32_clip (fst r) (snd r) x).
Proof. intros a b [lo hi] x (F1 & F2 & R1 & R2 & R3) N. cbn [fst snd] in *. apply clip_lies; assumption. Qed.

Lemma finite_not_nan : forall x, finite x -> f32_isnan x = false.
Proof. intros x F. unfold finite in F. destruct x; try discriminate F; reflexivity. Qed.

Definition quad_in (q : f32 * f32 * f32 * f32) : Prop :=
  let '(dx, dy, rho, amp) := q in lies_in dr dx /\ lies_in dr dy /\ lies_in rr rho /\ lies_in ir amp.

Lemma params_in : forall i, quad_in (fst (params32 fused g sp n key_i i)) /\ quad_in (snd (params32 fused g sp n key_i i)).
Proof.
  intros i. destruct G as [GB GN]. pose proof dr_ok as DO. pose proof ir_ok as IO. pose proof rr_ok as RO.
  destruct SP as (_ & _ & _ & _ & _ & _ & SD & SI & SR & _).
  unfold params32. fold dr ir rr.
  destruct dr as [dlo dhi] eqn:ED. destruct ir as [ilo ihi] eqn:EI. destruct rr as [rlo rhi] eqn:ER. cbv zeta. cbn [fst snd].
  assert (L1 : lies_in (dlo, dhi) (draw32 fused dlo dhi (s_bits g (Child (Child key_i 3) 0) n i))) by (apply (draw_in (/ 1048576) 1048576 (dlo, dhi)); [lra | lra | exact DO | apply GB]).
  assert (L3 : lies_in (rlo, rhi) (draw32 fused rlo rhi (s_bits g (Child (Child key_i 3) 2) n i))) by (apply (draw_in (- (1023 / 1024)) (1023 / 1024) (rlo, rhi)); [lra | lra | exact RO | apply GB]).
  assert (L4 : lies_in (ilo, ihi) (draw32 fused ilo ihi (s_bits g (Child (Child key_i 3) 3) n i))) by (apply (draw_in 0 1048576 (ilo, ihi)); [lra | lra | exact IO | apply GB]).
  destruct (rep_real _ _ (rep_ofZ (-1) ltac:(lia))) as [M1 M2]. destruct (rep_real _ _ (rep_ofZ 1 ltac:(lia))) as [P1 P2].
  assert (L0 : finite (draw32 fused (f32_ofZ (-1)) (f32_ofZ 1) (s_bits g (Child (Child key_i 3) 1) n i))).
  { apply (draw_in (-1) 1 (f32_ofZ (-1), f32_ofZ 1)); [lra | lra | | apply GB]. unfold range_in. cbn [fst snd]. rewrite M2, P2. repeat split; try assumption; lra. }
  set (dx1 := draw32 fused dlo dhi _) in *. set (rho1 := draw32 fused rlo rhi _) in *. set (in1 := draw32 fused ilo ihi _) in *. set (st := draw32 fused (f32_ofZ (-1)) _ _) in *.
  assert (L2 : lies_in (dlo, dhi) (f32_clip dlo dhi (plus32 dx1 st))).
  { apply (clip_in _ _ (dlo, dhi) _ DO). apply not_nan_add; [exact L0 | apply finite_not_nan; apply L1]. }
  set (dy1 := f32_clip dlo dhi (plus32 dx1 st)) in *.
  unfold quad_in. rewrite ED, EI, ER.
  split; (split; [|split; [|split]]); try assumption;
    (eapply (clip_in _ _ (_, _)); [eassumption|]); apply not_nan_madd; try apply GN; try assumption; first [apply L1 | apply L2 | apply L3 | apply L4].
Qed.

Lemma amp_ok : forall x a b, lies_in ir x -> 
  finite (mult32 (mult32 x (bool_32 a)) (bool_32 b)) /\ real (mult32 (mult32 x (bool_32 a)) (bool_32 b)) = if a && b then real x else 0.
Proof.
  intros x a b [F R]. destruct ir_ok as (_ & _ & R1 & _ & R3).
  destruct (switch x a F) as [F1 V1]; [apply small_side; lra|].
  destruct (switch (mult32 x (bool_32 a)) b F1) as [F2 V2]; [rewrite V1; apply small_side; destruct a; lra|].
  split; [exact F2|]. rewrite V2, V1. destruct a, b; reflexivity.
Qed.

Lemma position_ok : forall i, let (y, x) := position32 g pb n key_i i in
  (finite y /\ 0 <= real y < IZR (fst pb)) /\ (finite x /\ 0 <= real x < IZR (snd pb)).
Proof.
  intros i. destruct G as [GB _]. destruct PB as [P1 P2]. unfold position32.
  destruct (spot_ok _ _ (GB (Child key_i 2) (2 * n)%nat (2 * i + 0)%nat) P1) as (A1 & A2 & _).
  destruct (spot_ok _ _ (GB (Child key_i 2) (2 * n)%nat (2 * i + 1)%nat) P2) as (B1 & B2 & _). auto.
Qed.

Lemma first_box : forall d i, in_box pb (first32p fused g sp pb n key_i d i).
Proof.
  intros d i. unfold first32p. pose proof (position_ok i) as P. destruct (position32 g pb n key_i i) as [y x]. destruct P as [[A B] [C D]].
  destruct (fst (params32 fused g sp n key_i i)) as [[[dx dy] rho] amp]. unfold in_box. cbn [q_y q_x]. auto.
Qed.

Lemma first_in : forall d i, within_ranges dr ir rr (first32p fused g sp pb n key_i d i).
Proof.
  intros d i. unfold first32p. destruct (params_in i) as [P _]. destruct (position32 g pb n key_i i) as [y x].
  destruct (fst (params32 fused g sp n key_i i)) as [[[dx dy] rho] amp]. destruct P as (A & B & C & D). unfold within_ranges. cbn [q_dx q_dy q_rho q_amp].
  destruct (amp_ok amp (shown32 g n (Child key_i 0) (t_hide1 sp) i) (mixed32 pb d i) D) as [F V]. rewrite V.
  split; [exact A|]. split; [exact B|]. split; [exact C|]. split; [exact F|]. destruct (_ && _); [right; apply D | left; reflexivity].
Qed.

Lemma second_in : forall d f i, within_ranges dr ir rr (second32p fused recip g sp pb n rx ry key_i d f i).
Proof.
  intros d f i. unfold second32p. destruct (params_in i) as [_ P]. destruct (second_position32 _ _ _ _ _ _ _) as [y x].
  destruct (snd (params32 fused g sp n key_i i)) as [[[dx dy] rho] amp]. destruct P as (A & B & C & D). unfold within_ranges. cbn [q_dx q_dy q_rho q_amp].
  destruct (amp_ok amp (shown32 g n (Child key_i 1) (t_hide2 sp) i) (mixed32 pb d i) D) as [F V]. rewrite V.
  split; [exact A|]. split; [exact B|]. split; [exact C|]. split; [exact F|]. destruct (_ && _); [right; apply D | left; reflexivity].
Qed.

Lemma in_within : forall x b, finite x -> 0 <= real x < IZR b -> (1 <= b < 2 ^ 24)%Z -> within (bpow radix2 24) x.
Proof.
  intros x b F R B. split; [exact F|]. rewrite Rabs_pos_eq by lra. change (bpow radix2 24) with (IZR (2 ^ 24)).
  assert (IZR b <= IZR (2 ^ 24)) by (apply IZR_le; lia). lra.
Qed.

Lemma second_placed : forall d f i M, flow_within M f -> M <= bpow radix2 20 -> within (bpow radix2 20) rx -> within (bpow radix2 20) ry ->
  placed (second32p fused recip g sp pb n rx ry key_i d f i).
Proof.
  intros d f i M FW BM RX RY. unfold second32p. pose proof (position_ok i) as P. destruct (position32 g pb n key_i i) as [y x]. destruct P as [[A B] [C D]].
  assert (DT : within (bpow radix2 20) (t_dt sp)) by apply SP. destruct PB as [P1 P2].
  pose proof (moved recip pb f (t_dt sp) rx ry y x M FW BM PB (in_within y _ A B P1) (in_within x _ C D P2) DT RX RY) as K.
  destruct (second_position32 recip pb f (t_dt sp) rx ry (y, x)) as [y' x']. destruct K as (K1 & K2 & _).
  destruct (snd (params32 fused g sp n key_i i)) as [[[dx dy] rho] amp]. split; assumption.
Qed.

Lemma ranges_ordinary : forall p, within_ranges dr ir rr p -> ordinary p.
Proof.
  intros p ([F1 R1] & [F2 R2] & [F3 R3] & F4 & R4). destruct dr_ok as (_ & _ & D1 & D2 & D3). destruct ir_ok as (_ & _ & I1 & I2 & I3). destruct rr_ok as (_ & _ & C1 & C2 & C3).
  assert (Q1 : Q2R (1 # 1048576) = / 1048576) by (unfold Q2R; cbn; lra). assert (Q2 : Q2R 1048576 = 1048576) by (unfold Q2R; cbn; lra).
  assert (Q3 : Q2R (1023 # 1024) = 1023 / 1024) by (unfold Q2R; cbn; lra).
  unfold ordinary. split; [exact F1|]. split; [exact F2|]. split; [exact F3|]. split; [exact F4|]. unfold real in *.
  repeat split; apply Rle_Qle; rewrite ?Q2R_opp, ?Q1, ?Q2, ?Q3, ?Q2R_0; lra.
Qed.
End Params.
