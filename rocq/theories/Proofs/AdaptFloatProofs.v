(** The flow field adapter in float arithmetic. *)
From Coq Require Import List Arith ZArith QArith Qround Qreals Qabs Qminmax Bool Reals Lia Lqa Lra Psatz.
From Flocq Require Import Core Relative IEEE754.BinarySingleNaN.
From Verif Require Import Prelude Model.Interp Model.Geometry Model.Render Model.InterpFloat Model.HistFloat Model.DrawFloat Model.MoveFloat Model.SampleFloat Model.AdaptFloat.
From Verif Require Import Spec.InterpSpec Spec.RenderSpec Spec.InterpFloatSpec Spec.LipschitzSpec Spec.DrawFloatSpec Spec.MoveFloatSpec Spec.SampleFloatSpec Spec.AdaptFloatSpec.
From Verif Require Import Proofs.InterpProofs Proofs.AdapterProofs Proofs.RenderProofs Proofs.FloatProofs Proofs.RoundProofs Proofs.InterpFloatProofs Proofs.InterpBinary Proofs.LipschitzProofs.
From Verif Require Import Proofs.DrawFloatProofs Proofs.PlaceFloatProofs Proofs.DrawnPixel Proofs.KernelError Proofs.KernelFloatProofs Proofs.KernelImage Proofs.HistFloatProofs Proofs.MoveFloatProofs Proofs.SampleFloatProofs.
Local Open Scope R_scope.

(** * Doubles *)
Definition rn64 (t : R) : R := round radix2 (SpecFloat.fexp 53 1024) (round_mode mode_NE) t.
Definition rep64 (x : f64) (a : R) : Prop := is_finite x = true /\ B2R x = a.
Definition fits64 (t : R) : Prop := Rabs t < bpow radix2 1024.
Definition v : R := / 9007199254740992.

Lemma v53 : bpow radix2 (-53) = v.
Proof. unfold v. cbn [bpow]. reflexivity. Qed.

Lemma double_R : forall x, is_finite x = true -> Q2R (double x) = B2R x.
Proof. intros x F. destruct (f_val_R x F) as (q & E & V). unfold double. rewrite E. exact V. Qed.

Lemma rep64_double : forall x, is_finite x = true -> rep64 x (Q2R (double x)).
Proof. intros x F. split; [exact F | symmetry; apply double_R; exact F]. Qed.

Lemma rep64_ofZ : forall z, (Z.abs z < 2 ^ 53)%Z -> rep64 (f64_ofZ z) (IZR z).
Proof. intros z H. destruct (dy_ofZ z H) as [F V]. split; [exact F|]. rewrite V. unfold F2R. cbn [Fnum Fexp Z.opp bpow]. ring. Qed.

Lemma rep64_add : forall x y a b, rep64 x a -> rep64 y b -> fits64 (rn64 (a + b)) -> rep64 (add64 x y) (rn64 (a + b)).
Proof.
  intros x y a b [Fx <-] [Fy <-] B. pose proof (Bplus_correct 53 1024 p64 l64 mode_NE x y Fx Fy) as C. fold (rn64 (B2R x + B2R y)) in C.
  rewrite Rlt_bool_true in C by exact B. destruct C as (C1 & C2 & _). split; [exact C2 | exact C1].
Qed.
Lemma rep64_sub : forall x y a b, rep64 x a -> rep64 y b -> fits64 (rn64 (a - b)) -> rep64 (sub64 x y) (rn64 (a - b)).
Proof.
  intros x y a b [Fx <-] [Fy <-] B. pose proof (Bminus_correct 53 1024 p64 l64 mode_NE x y Fx Fy) as C. fold (rn64 (B2R x - B2R y)) in C.
  rewrite Rlt_bool_true in C by exact B. destruct C as (C1 & C2 & _). split; [exact C2 | exact C1].
Qed.
Lemma rep64_mul : forall x y a b, rep64 x a -> rep64 y b -> fits64 (rn64 (a * b)) -> rep64 (mul64 x y) (rn64 (a * b)).
Proof.
  intros x y a b [Fx <-] [Fy <-] B. pose proof (Bmult_correct 53 1024 p64 l64 mode_NE x y) as C. fold (rn64 (B2R x * B2R y)) in C.
  rewrite Rlt_bool_true in C by exact B. destruct C as (C1 & C2 & _). rewrite Fx, Fy in C2. split; [exact C2 | exact C1].
Qed.
Lemma rep64_div : forall x y a b, rep64 x a -> rep64 y b -> b <> 0 -> fits64 (rn64 (a / b)) -> rep64 (div64 x y) (rn64 (a / b)).
Proof.
  intros x y a b [Fx <-] [Fy <-] NZ B. pose proof (Bdiv_correct 53 1024 p64 l64 mode_NE x y NZ) as C. fold (rn64 (B2R x / B2R y)) in C.
  rewrite Rlt_bool_true in C by exact B. destruct C as (C1 & C2 & _). rewrite Fx in C2. split; [exact C2 | exact C1].
Qed.

Lemma rn64_err : forall t, Rabs (rn64 t - t) <= v * Rabs t + bpow radix2 (-1075).
Proof.
  intros t. destruct (error_N_FLT radix2 (-1074) 53 ltac:(reflexivity) (fun x => negb (Z.even x)) t) as (ep & et & H1 & H2 & _ & H3).
  change (round radix2 (FLT_exp (-1074) 53) (Znearest (fun x => negb (Z.even x))) t) with (rn64 t) in H3. rewrite H3.
  assert (A : / 2 * bpow radix2 (- (53) + 1) = v) by (rewrite <- v53; change (/ 2) with (bpow radix2 (-1)); rewrite <- bpow_plus; reflexivity).
  assert (B : / 2 * bpow radix2 (-1074) = bpow radix2 (-1075)) by (change (/ 2) with (bpow radix2 (-1)); rewrite <- bpow_plus; reflexivity).
  rewrite A in H1. rewrite B in H2. replace (t * (1 + ep) + et - t) with (ep * t + et) by ring.
  eapply Rle_trans; [apply Rabs_triang|]. rewrite Rabs_mult. apply Rplus_le_compat; [apply Rmult_le_compat_r; [apply Rabs_pos | exact H1] | exact H2].
Qed.

Lemma tiny_v : 0 <= bpow radix2 (-1075) <= / 1000 * v.
Proof.
  split; [apply bpow_ge_0|]. rewrite <- v53. apply Rle_trans with (bpow radix2 (-10 + -53)); [apply bpow_le; lia|]. rewrite bpow_plus.
  apply Rmult_le_compat_r; [apply bpow_ge_0|]. cbn [bpow]. change (Z.pow_pos radix2 10) with 1024%Z. lra.
Qed.

(** Zero, or far from underflow. *)
Lemma rn64_pos : forall t, t = 0 \/ bpow radix2 (-1000) <= t -> Rabs (rn64 t - t) <= v * t.
Proof.
  intros t [-> | H].
  - unfold rn64. rewrite round_0 by apply valid_rnd_round_mode. rewrite Rminus_0_r, Rabs_R0, Rmult_0_r. apply Rle_refl.
  - pose proof (bpow_gt_0 radix2 (-1000)). pose proof (rn64_rel t) as X. rewrite (Rabs_pos_eq t) in X by lra. rewrite <- v53. apply X. exact H.
Qed.

Lemma big_fits : forall t, Rabs t <= bpow radix2 100 -> fits64 t.
Proof. intros t H. unfold fits64. eapply Rle_lt_trans; [exact H|]. apply bpow_lt. lia. Qed.

Lemma bpow_70 : forall B d, 1 <= B <= bpow radix2 70 -> Rabs d <= 2 * B -> Rabs d <= bpow radix2 100.
Proof.
  intros B d [_ B1] D. eapply Rle_trans; [exact D|]. apply Rle_trans with (2 * bpow radix2 70); [lra|].
  change 2 with (bpow radix2 1). rewrite <- bpow_plus. apply bpow_le. lia.
Qed.

(** Near a number. *)
Definition near64 (x : f64) (t d : R) : Prop := exists a, rep64 x a /\ Rabs (a - t) <= d.

Lemma round_near : forall B a t d, 1 <= B <= bpow radix2 70 -> Rabs t <= B -> Rabs (a - t) <= d -> d <= B / 2 ->
  fits64 (rn64 a) /\ Rabs (rn64 a - t) <= d + 2 * (v * B).
Proof.
  intros B a t d HB T D D2. pose proof (rn64_err a) as E. pose proof tiny_v as TV. assert (V0 : 0 < v <= / 1000) by (unfold v; lra).
  assert (A : Rabs a <= 3 / 2 * B) by (replace a with ((a - t) + t) by ring; eapply Rle_trans; [apply Rabs_triang|]; lra).
  assert (VA : v * Rabs a <= v * (3 / 2 * B)) by (apply Rmult_le_compat_l; lra).
  assert (VB : v * 1 <= v * B) by (apply Rmult_le_compat_l; lra).
  assert (E' : Rabs (rn64 a - a) <= 2 * (v * B)) by lra.
  split.
  - apply big_fits, (bpow_70 B); [exact HB|]. replace (rn64 a) with ((rn64 a - a) + a) by ring. eapply Rle_trans; [apply Rabs_triang|].
    assert (v * B <= / 1000 * B) by (apply Rmult_le_compat_r; lra). lra.
  - replace (rn64 a - t) with ((rn64 a - a) + (a - t)) by ring. eapply Rle_trans; [apply Rabs_triang|]. lra.
Qed.

Lemma near64_add : forall B x y a b d e, 1 <= B <= bpow radix2 70 -> near64 x a d -> near64 y b e -> Rabs (a + b) <= B -> d + e <= B / 2 ->
  near64 (add64 x y) (a + b) (d + e + 2 * (v * B)).
Proof.
  intros B x y a b d e HB (a' & RX & EX) (b' & RY & EY) AB D. assert (D' : Rabs (a' + b' - (a + b)) <= d + e).
  { replace (a' + b' - (a + b)) with ((a' - a) + (b' - b)) by ring. eapply Rle_trans; [apply Rabs_triang|]. lra. }
  destruct (round_near B _ _ _ HB AB D' D) as [F E]. exists (rn64 (a' + b')). split; [apply rep64_add; assumption | exact E].
Qed.

Lemma near64_sub : forall B x y a b d e, 1 <= B <= bpow radix2 70 -> near64 x a d -> near64 y b e -> Rabs (a - b) <= B -> d + e <= B / 2 ->
  near64 (sub64 x y) (a - b) (d + e + 2 * (v * B)).
Proof.
  intros B x y a b d e HB (a' & RX & EX) (b' & RY & EY) AB D. assert (D' : Rabs (a' - b' - (a - b)) <= d + e).
  { replace (a' - b' - (a - b)) with ((a' - a) - (b' - b)) by ring. unfold Rminus at 1. eapply Rle_trans; [apply Rabs_triang|]. rewrite Rabs_Ropp. lra. }
  destruct (round_near B _ _ _ HB AB D' D) as [F E]. exists (rn64 (a' - b')). split; [apply rep64_sub; assumption | exact E].
Qed.

Lemma near64_mul : forall B x y a b, 1 <= B <= bpow radix2 70 -> rep64 x a -> rep64 y b -> Rabs (a * b) <= B ->
  near64 (mul64 x y) (a * b) (2 * (v * B)).
Proof.
  intros B x y a b HB RX RY AB. destruct (round_near B (a * b) (a * b) 0 HB AB) as [F E]; [rewrite Rminus_diag_eq, Rabs_R0 by reflexivity; lra | lra|].
  exists (rn64 (a * b)). split; [apply rep64_mul; assumption | lra].
Qed.

Lemma near64_weak : forall x t d d', near64 x t d -> d <= d' -> near64 x t d'.
Proof. intros x t d d' (a & R & E) D. exists a. split; [exact R | lra]. Qed.

(** * Spans *)
Definition spanR (len : Z) (res r : f64) : R := IZR len / Q2R (double res) * Q2R (double r).

Lemma p20 : bpow radix2 20 = 1048576.
Proof. reflexivity. Qed.
Lemma m20 : bpow radix2 (-20) = / 1048576.
Proof. reflexivity. Qed.

Lemma ordinary_R : forall x, ordinary x -> rep64 x (Q2R (double x)) /\ bpow radix2 (-20) <= Q2R (double x) <= bpow radix2 20.
Proof.
  intros x (F & L & H). split; [apply rep64_double; exact F|]. apply Qle_Rle in L, H. rewrite p20, m20.
  assert (A : Q2R (1 # 1048576) = / 1048576) by (unfold Q2R; cbn [Qnum Qden]; lra). assert (B : Q2R 1048576 = 1048576) by (unfold Q2R; cbn [Qnum Qden]; lra).
  rewrite A in L. rewrite B in H. split; assumption.
Qed.

Lemma quotient_range : forall len q, (0 <= len < 2 ^ 25)%Z -> bpow radix2 (-20) <= q <= bpow radix2 20 ->
  (IZR len / q = 0 \/ bpow radix2 (-20) <= IZR len / q) /\ 0 <= IZR len / q <= bpow radix2 45.
Proof.
  intros len q L Q. pose proof (bpow_gt_0 radix2 (-20)) as P. pose proof (bpow_gt_0 radix2 20) as P'.
  assert (IQ : bpow radix2 (-20) <= / q <= bpow radix2 20).
  { split; [change (-20)%Z with (- (20))%Z | change 20%Z with (- (-20))%Z]; rewrite bpow_opp; apply Rinv_le_contravar; lra. }
  assert (L1 : IZR 0 <= IZR len <= IZR (2 ^ 25)) by (split; apply IZR_le; lia). change (IZR (2 ^ 25)) with (bpow radix2 25) in L1.
  unfold Rdiv. split.
  - destruct (Z.eq_dec len 0) as [-> | N]; [left; ring|]. right. assert (IZR 1 <= IZR len) by (apply IZR_le; lia).
    rewrite <- (Rmult_1_l (bpow radix2 (-20))). apply Rmult_le_compat; lra.
  - split; [apply Rmult_le_pos; lra|]. change 45%Z with (25 + 20)%Z. rewrite bpow_plus. apply Rmult_le_compat; lra.
Qed.

Lemma span_range : forall len res r, (0 <= len < 2 ^ 25)%Z -> ordinary res -> ordinary r ->
  0 <= spanR len res r <= bpow radix2 65 /\ (spanR len res r = 0 \/ bpow radix2 (-40) <= spanR len res r).
Proof.
  intros len res r L O O'. destruct (ordinary_R _ O) as [_ Q]. destruct (ordinary_R _ O') as [_ Q'].
  destruct (quotient_range len _ L Q) as [Z [G0 G1]]. pose proof (bpow_gt_0 radix2 (-20)). unfold spanR. split.
  - split; [apply Rmult_le_pos; lra|]. change 65%Z with (45 + 20)%Z. rewrite bpow_plus. apply Rmult_le_compat; lra.
  - destruct Z as [-> | Z]; [left; ring | right]. change (-40)%Z with (-20 + -20)%Z. rewrite bpow_plus. apply Rmult_le_compat; lra.
Qed.

(** The double span: relative error below 3 * 2^-53. *)
Lemma span_rel : forall len res r, (0 <= len < 2 ^ 25)%Z -> ordinary res -> ordinary r ->
  exists a, rep64 (span64 len res r) a /\ Rabs (a - spanR len res r) <= 3 * (v * spanR len res r) /\ 0 <= a /\
    (rn64 (IZR len / Q2R (double res)) = IZR len / Q2R (double res) -> a = rn64 (spanR len res r)).
Proof.
  intros len res r L O O'. destruct (ordinary_R _ O) as [RO Q]. destruct (ordinary_R _ O') as [RO' Q'].
  destruct (quotient_range len _ L Q) as [Z [G0 G1]]. destruct (span_range len res r L O O') as [[S0 S1] S2].
  pose proof (bpow_gt_0 radix2 (-20)) as P. assert (V0 : 0 < v <= / 1000) by (unfold v; lra).
  assert (RL : rep64 (f64_ofZ len) (IZR len)) by (apply rep64_ofZ; lia).
  unfold span64. unfold spanR in *. set (q := Q2R (double res)) in *. set (p := Q2R (double r)) in *. set (g := IZR len / q) in *.
  assert (B20 : bpow radix2 (-1000) <= bpow radix2 (-20)) by (apply bpow_le; lia).
  assert (EG : Rabs (rn64 g - g) <= v * g) by (apply rn64_pos; destruct Z as [Z|Z]; [left; exact Z | right; lra]).
  assert (VG : v * g <= / 1000 * g) by (apply Rmult_le_compat_r; lra).
  assert (GR : (1 - v) * g <= rn64 g <= (1 + v) * g) by (apply Rabs_le_inv in EG; lra).
  assert (FG : fits64 (rn64 g)).
  { apply big_fits. rewrite Rabs_pos_eq by lra. apply Rle_trans with (2 * bpow radix2 45); [lra|]. change 2 with (bpow radix2 1). rewrite <- bpow_plus. apply bpow_le. lia. }
  assert (RG : rep64 (div64 (f64_ofZ len) res) (rn64 g)) by (apply rep64_div; [exact RL | exact RO | lra | exact FG]).
  set (h := rn64 g) in *. assert (H0 : 0 <= h) by lra. assert (X : 0 <= g * p) by (apply Rmult_le_pos; lra).
  assert (HP : Rabs (h * p - g * p) <= v * (g * p)).
  { replace (h * p - g * p) with ((h - g) * p) by ring. rewrite Rabs_mult, (Rabs_pos_eq p) by lra. rewrite <- Rmult_assoc. apply Rmult_le_compat_r; lra. }
  assert (VX : v * (g * p) <= / 1000 * (g * p)) by (apply Rmult_le_compat_r; lra).
  assert (H1 : 0 <= h * p) by (apply Rmult_le_pos; lra).
  assert (EH : Rabs (rn64 (h * p) - h * p) <= v * (h * p)).
  { apply rn64_pos. destruct S2 as [S2|S2].
    - left. rewrite S2, Rmult_0_r, Rminus_0_r in HP. pose proof (Rabs_pos (h * p)). rewrite Rabs_pos_eq in HP by exact H1. lra.
    - right. apply Rabs_le_inv in HP. apply Rle_trans with (bpow radix2 (-1 + -40)); [apply bpow_le; lia|]. rewrite bpow_plus. change (bpow radix2 (-1)) with (/ 2). lra. }
  assert (VH : v * (h * p) <= v * (g * p) + v * (v * (g * p))) by (rewrite <- Rmult_plus_distr_l; apply Rmult_le_compat_l; [lra | apply Rabs_le_inv in HP; lra]).
  assert (VV : v * (v * (g * p)) <= / 1000 * (v * (g * p))) by (apply Rmult_le_compat_r; [apply Rmult_le_pos|]; lra).
  assert (VP : 0 <= v * (g * p)) by (apply Rmult_le_pos; lra).
  assert (ER : Rabs (rn64 (h * p) - g * p) <= 3 * (v * (g * p))).
  { replace (rn64 (h * p) - g * p) with ((rn64 (h * p) - h * p) + (h * p - g * p)) by ring. eapply Rle_trans; [apply Rabs_triang|]. lra. }
  exists (rn64 (h * p)). split; [|split; [exact ER | split]].
  - apply rep64_mul; [exact RG | exact RO'|]. apply big_fits. apply Rabs_le_inv in ER. rewrite Rabs_pos_eq by lra.
    apply Rle_trans with (2 * bpow radix2 65); [lra|]. change 2 with (bpow radix2 1). rewrite <- bpow_plus. apply bpow_le. lia.
  - apply Rabs_le_inv in ER. lra.
  - intros E. rewrite E. reflexivity.
Qed.

Lemma span_near : forall B len res r, 1 <= B -> (0 <= len < 2 ^ 25)%Z -> ordinary res -> ordinary r -> spanR len res r <= B ->
  near64 (span64 len res r) (spanR len res r) (4 * (v * B)).
Proof.
  intros B len res r HB L O O' S. destruct (span_rel len res r L O O') as (a & R & E & _). exists a. split; [exact R|].
  destruct (span_range len res r L O O') as [[S0 _] _]. assert (V0 : 0 < v) by (unfold v; lra).
  assert (v * spanR len res r <= v * B) by (apply Rmult_le_compat_l; lra). assert (0 <= v * spanR len res r) by (apply Rmult_le_pos; lra). lra.
Qed.

(** * The ends of the grids *)
Lemma start_near : forall B pbo res r off, 1 <= B <= bpow radix2 70 -> shift_ok pbo -> ordinary res -> ordinary r -> (0 <= off < 2 ^ 25)%Z ->
  Q2R (double pbo) * Q2R (double r) + spanR off res r <= B ->
  near64 (mul64 pbo r) (Q2R (double pbo) * Q2R (double r)) (2 * (v * B)) /\
  near64 (rep_start64 pbo res r off) (Q2R (double pbo) * Q2R (double r) + spanR off res r) (8 * (v * B)).
Proof.
  intros B pbo res r off HB (FP & P0 & P1) O O' L S. destruct (ordinary_R _ O') as [RO' Q']. pose proof (bpow_gt_0 radix2 (-20)).
  apply Qle_Rle in P0. rewrite Q2R_0 in P0. destruct (span_range off res r L O O') as [[S0 _] _]. set (p := Q2R (double pbo)) in *. set (q := Q2R (double r)) in *.
  assert (PQ : 0 <= p * q) by (apply Rmult_le_pos; lra). assert (VB : 0 < v * B <= / 1000 * B).
  { split; [apply Rmult_lt_0_compat; unfold v; lra | apply Rmult_le_compat_r; [lra | unfold v; lra]]. }
  assert (M : near64 (mul64 pbo r) (p * q) (2 * (v * B))).
  { apply near64_mul; [exact HB | apply rep64_double; exact FP | exact RO' | rewrite Rabs_pos_eq by exact PQ; lra]. }
  split; [exact M|]. unfold rep_start64. apply near64_weak with (2 * (v * B) + 4 * (v * B) + 2 * (v * B)); [|lra].
  apply near64_add; [exact HB | exact M | apply span_near; [lra | assumption.. | lra] | rewrite Rabs_pos_eq; lra | lra].
Qed.

Lemma end_near : forall B x t len res r, 1 <= B <= bpow radix2 70 -> near64 x t (8 * (v * B)) -> 0 <= t -> ordinary res -> ordinary r -> (0 <= len < 2 ^ 25)%Z ->
  t + spanR len res r + 1 <= B -> near64 (end64 x len res r) (t + spanR len res r - 1) (16 * (v * B)).
Proof.
  intros B x t len res r HB N T O O' L S. destruct (span_range len res r L O O') as [[S0 _] _].
  assert (VB : 0 < v * B <= / 1000 * B) by (split; [apply Rmult_lt_0_compat; unfold v; lra | apply Rmult_le_compat_r; [lra | unfold v; lra]]).
  unfold end64. apply near64_weak with ((8 * (v * B) + 4 * (v * B) + 2 * (v * B)) + 0 + 2 * (v * B)); [|lra].
  apply near64_sub; [exact HB | | | apply Rabs_le; lra | lra].
  - apply near64_add; [exact HB | exact N | apply span_near; [lra | assumption.. | lra] | rewrite Rabs_pos_eq; lra | lra].
  - exists 1. split; [apply (rep64_ofZ 1); lia|]. rewrite Rminus_diag_eq, Rabs_R0 by reflexivity. lra.
Qed.

(** * Singles *)
Definition near32 (x : f32) (t d : R) : Prop := exists a, rep x a /\ Rabs (a - t) <= d.

Lemma near32_weak : forall x t d d', near32 x t d -> d <= d' -> near32 x t d'.
Proof. intros x t d d' (a & R & E) D. exists a. split; [exact R | lra]. Qed.

Lemma e32_u : 0 <= e32 <= / 1000 * u.
Proof.
  split; [apply bpow_ge_0|]. rewrite <- u_u32. unfold e32, u32. apply Rle_trans with (bpow radix2 (-10 + -24)); [apply bpow_le; lia|]. rewrite bpow_plus.
  apply Rmult_le_compat_r; [apply bpow_ge_0|]. cbn [bpow]. change (Z.pow_pos radix2 10) with 1024%Z. lra.
Qed.

Lemma bpow_70' : forall B d, 1 <= B <= bpow radix2 70 -> Rabs d <= 2 * B -> Rabs d <= bpow radix2 71.
Proof.
  intros B d [_ B1] D. eapply Rle_trans; [exact D|]. apply Rle_trans with (2 * bpow radix2 70); [lra|].
  change 2 with (bpow radix2 1) at 1. rewrite <- bpow_plus. apply bpow_le. lia.
Qed.

Lemma round_near32 : forall B a t d, 1 <= B <= bpow radix2 70 -> Rabs t <= B -> Rabs (a - t) <= d -> d <= B / 1000 ->
  fits (rn32 a) /\ Rabs (rn32 a - t) <= d + 1005 / 1000 * (u * B).
Proof.
  intros B a t d HB T D D2. pose proof (rn32_err a) as E. pose proof e32_u as TV. assert (V0 : 0 < u <= / 1000) by (unfold u; lra).
  assert (A : Rabs a <= 1001 / 1000 * B) by (replace a with ((a - t) + t) by ring; eapply Rle_trans; [apply Rabs_triang|]; lra).
  assert (VA : u * Rabs a <= u * (1001 / 1000 * B)) by (apply Rmult_le_compat_l; lra).
  assert (VB : u * 1 <= u * B) by (apply Rmult_le_compat_l; lra). split.
  - apply (rn_bound a 71); [lia|]. apply (bpow_70' B); [exact HB | lra].
  - replace (rn32 a - t) with ((rn32 a - a) + (a - t)) by ring. eapply Rle_trans; [apply Rabs_triang|]. lra.
Qed.

Lemma narrow_near : forall B x t, 1 <= B <= bpow radix2 70 -> near64 x t (16 * (v * B)) -> Rabs t <= B -> near32 (to_f32 x) t (101 / 100 * (u * B)).
Proof.
  intros B x t HB (a & [F V] & E) T. assert (VU : v * B <= / 100000 * (u * B)) by (rewrite <- Rmult_assoc; apply Rmult_le_compat_r; [lra | unfold u, v; lra]).
  assert (UB : 0 < u * B <= / 100000 * B) by (split; [apply Rmult_lt_0_compat; unfold u; lra | apply Rmult_le_compat_r; [lra | unfold u; lra]]).
  destruct (round_near32 B a t _ HB T E) as [G H]; [lra|]. exists (rn32 a). split; [rewrite <- V; apply to_f32_rep; [exact F | rewrite V; exact G]|]. lra.
Qed.

(** * The grid *)
Definition linR (a c : R) (n i : Z) : R := if (n =? 1)%Z then a else a + IZR i * ((c - a) / IZR (n - 1)).

Lemma linR_Q : forall a c n i, (1 <= n)%Z -> Q2R (linspace a c n i) = linR (Q2R a) (Q2R c) n i.
Proof.
  intros a c n i N. unfold linspace, linR. destruct (Z.eqb_spec n 1) as [_ | N1]; [reflexivity|].
  rewrite Q2R_plus, Q2R_mult, Q2R_div', Q2R_minus, !Q2R_Z; [reflexivity|]. intros E. unfold Qeq in E. cbn in E. lia.
Qed.

Lemma mix_near : forall fuse B fa fb fm fs A C m s a c sg,
  1 <= B <= bpow radix2 70 -> rep fa A -> rep fb C -> rep fm m -> rep fs s -> Rabs a <= B -> Rabs c <= B -> 0 <= sg <= 1 ->
  Rabs (A - a) <= 101 / 100 * (u * B) -> Rabs (C - c) <= 101 / 100 * (u * B) -> Rabs (m - (1 - sg)) <= 304 / 100 * u -> Rabs (s - sg) <= 202 / 100 * u ->
  near32 (mix32 fuse fa fm fb fs) (a * (1 - sg) + c * sg) (12 * (u * B)).
Proof.
  intros fuse B fa fb fm fs A C m s a c sg HB RA RC RM RS HA HC HS EA EC EM ES.
  assert (U0 : 0 < u <= / 100000) by (unfold u; lra).
  assert (UB : 0 < u * B <= / 100000 * B) by (split; [apply Rmult_lt_0_compat; lra | apply Rmult_le_compat_r; lra]).
  assert (PR : forall X x y t k, Rabs x <= B -> Rabs (X - x) <= 101 / 100 * (u * B) -> 0 <= y <= 1 -> 0 <= k <= 4 -> Rabs (t - y) <= k * u ->
            Rabs (X * t - x * y) <= (102 / 100 + k) * (u * B) /\ Rabs (x * y) <= B).
  { intros X x y t k HX EX HY HK ET. split.
    - replace (X * t - x * y) with ((X - x) * t + x * (t - y)) by ring. eapply Rle_trans; [apply Rabs_triang|]. rewrite !Rabs_mult.
      assert (KU : k * u <= 4 * / 100000) by (apply Rmult_le_compat; lra).
      assert (T : Rabs t <= 1001 / 1000) by (apply Rabs_le; apply Rabs_le_inv in ET; lra).
      assert (P1 : Rabs (X - x) * Rabs t <= 101 / 100 * (u * B) * (1001 / 1000)) by (apply Rmult_le_compat; try apply Rabs_pos; assumption).
      assert (P2 : Rabs x * Rabs (t - y) <= B * (k * u)) by (apply Rmult_le_compat; try apply Rabs_pos; assumption).
      replace (B * (k * u)) with (k * (u * B)) in P2 by ring. lra.
    - rewrite Rabs_mult, (Rabs_pos_eq y) by lra. rewrite <- (Rmult_1_r B). apply Rmult_le_compat; try apply Rabs_pos; lra. }
  destruct (PR A a (1 - sg) m (304 / 100) HA EA ltac:(lra) ltac:(lra) EM) as [P1 Q1].
  destruct (PR C c sg s (202 / 100) HC EC HS ltac:(lra) ES) as [P2 Q2]. clear PR.
  assert (SUM : Rabs (a * (1 - sg) + c * sg) <= B).
  { apply Rabs_le_inv in HA, HC. apply Rabs_le. split.
    - apply Rle_trans with (- B * (1 - sg) + - B * sg); [lra|]. apply Rplus_le_compat; apply Rmult_le_compat_r; lra.
    - apply Rle_trans with (B * (1 - sg) + B * sg); [|lra]. apply Rplus_le_compat; apply Rmult_le_compat_r; lra. }
  destruct (round_near32 B _ _ _ HB Q1 P1) as [F1 G1]; [lra|]. destruct (round_near32 B _ _ _ HB Q2 P2) as [F2 G2]; [lra|].
  pose proof (rep_mul _ _ _ _ RA RM F1) as R1. pose proof (rep_mul _ _ _ _ RC RS F2) as R2.
  assert (ADD : forall p q e f, Rabs (p - a * (1 - sg)) <= e -> Rabs (q - c * sg) <= f -> Rabs (p + q - (a * (1 - sg) + c * sg)) <= e + f).
  { intros p q e f E1 E2. replace (p + q - (a * (1 - sg) + c * sg)) with ((p - a * (1 - sg)) + (q - c * sg)) by ring. eapply Rle_trans; [apply Rabs_triang|]. lra. }
  destruct fuse as [[|]|]; unfold mix32.
  - destruct (round_near32 B _ _ _ HB SUM (ADD _ _ _ _ P1 G2)) as [F G]; [lra|].
    exists (rn32 (A * m + rn32 (C * s))). split; [|lra]. exact (rep_madd true _ _ _ _ _ _ RA RM R2 F1 F).
  - pose proof (ADD _ _ _ _ G1 P2) as AD. rewrite (Rplus_comm (rn32 _)) in AD.
    destruct (round_near32 B _ _ _ HB SUM AD) as [F G]; [lra|].
    exists (rn32 (C * s + rn32 (A * m))). split; [|lra]. exact (rep_madd true _ _ _ _ _ _ RC RS R1 F2 F).
  - destruct (round_near32 B _ _ _ HB SUM (ADD _ _ _ _ G1 G2)) as [F G]; [lra|].
    exists (rn32 (rn32 (A * m) + rn32 (C * s))). split; [|lra]. unfold plus32. apply rep_add; [exact R1 | exact R2 | exact F].
Qed.

Lemma linspace_near : forall w B a b s e n i, 1 <= B <= bpow radix2 70 -> near64 a s (16 * (v * B)) -> near64 b e (16 * (v * B)) ->
  Rabs s <= B -> Rabs e <= B -> (1 <= n < 2 ^ 24)%Z -> (0 <= i < n)%Z -> near32 (linspace32 w a b n i) (linR s e n i) (12 * (u * B)).
Proof.
  intros w B a b s e n i HB NA NB HS HE N I. pose proof (narrow_near B a s HB NA HS) as (A & RA & EA). pose proof (narrow_near B b e HB NB HE) as (C & RC & EC).
  assert (U0 : 0 < u <= / 100000) by (unfold u; lra). assert (UB : 0 < u * B) by (apply Rmult_lt_0_compat; lra).
  unfold linspace32, linR. destruct (Z.eqb_spec n 1) as [_ | N1]; [exists A; split; [exact RA | lra]|].
  assert (NZ : 1 <= IZR (n - 1)) by (apply (IZR_le 1); lia).
  destruct (Z.eqb_spec i (n - 1)) as [-> | NI].
  { exists C. split; [exact RC|]. replace (s + IZR (n - 1) * ((e - s) / IZR (n - 1))) with e by (field; lra). lra. }
  assert (NB24 : IZR (n - 1) <= bpow radix2 24) by (change (bpow radix2 24) with (IZR (2 ^ 24)); apply IZR_le; lia).
  assert (I0 : 0 <= IZR i) by (apply (IZR_le 0); lia). assert (I1 : IZR i <= IZR (n - 1)) by (apply IZR_le; lia).
  destruct (unscale_rep (w_recip w) (f32_ofZ i) (f32_ofZ (n - 1)) (IZR i) (IZR (n - 1))) as (st & RS & ES & _).
  - apply rep_ofZ. lia.
  - apply rep_ofZ. lia.
  - lra.
  - split; rewrite Rabs_pos_eq by lra; [apply Rle_trans with 1; [change 1 with (bpow radix2 0); apply bpow_le; lia | exact NZ] | eapply Rle_trans; [exact NB24 | apply bpow_le; lia]].
  - rewrite Rabs_pos_eq by lra. apply Rle_trans with (bpow radix2 24); [lra | apply bpow_le; lia].
  - set (sg := IZR i / IZR (n - 1)) in *.
    assert (SG : 0 <= sg <= 1).
    { unfold sg, Rdiv. assert (0 < / IZR (n - 1)) by (apply Rinv_0_lt_compat; lra). split; [apply Rmult_le_pos; lra|]. rewrite <- (Rinv_r (IZR (n - 1))) by lra. apply Rmult_le_compat_r; lra. }
    rewrite (Rabs_pos_eq sg) in ES by lra. pose proof e32_u as EU. assert (US : u * sg <= u * 1) by (apply Rmult_le_compat_l; lra).
    assert (ES' : Rabs (st - sg) <= 202 / 100 * u) by (replace (201 / 100 * u * sg) with (201 / 100 * (u * sg)) in ES by ring; lra). clear ES.
    destruct (round_near32 1 (1 - st) (1 - sg) (202 / 100 * u)) as [FM EM].
    { split; [lra|]. change 1 with (bpow radix2 0). apply bpow_le. lia. }
    { apply Rabs_le. lra. }
    { replace (1 - st - (1 - sg)) with (- (st - sg)) by ring. rewrite Rabs_Ropp. exact ES'. }
    { lra. }
    assert (RM : rep (minus32 (f32_ofZ 1) (unscale32 (w_recip w) (f32_ofZ i) (f32_ofZ (n - 1)))) (rn32 (1 - st))) by (unfold minus32; apply rep_sub; [apply (rep_ofZ 1); lia | exact RS | exact FM]).
    replace (s + IZR i * ((e - s) / IZR (n - 1))) with (s * (1 - sg) + e * sg) by (unfold sg; field; lra).
    apply (mix_near (w_fuse w) B _ _ _ _ A C (rn32 (1 - st)) st s e sg); try assumption. lra.
Qed.

(** * The coordinates *)
Lemma span_Q : forall len res r, ordinary res -> Q2R (inject_Z len / double res * double r) = spanR len res r.
Proof.
  intros len res r O. destruct (ordinary_R _ O) as [_ [O1 _]]. pose proof (bpow_gt_0 radix2 (-20)). unfold spanR. rewrite Q2R_mult, Q2R_div', Q2R_Z; [reflexivity|].
  intros E. rewrite (Qeq_eqR _ _ E), Q2R_0 in O1. lra.
Qed.

Lemma span_plus : forall x y res r, ordinary res -> spanR (x + y) res r = spanR x res r + spanR y res r.
Proof. intros x y res r O. destruct (ordinary_R _ O) as [_ [O1 _]]. pose proof (bpow_gt_0 radix2 (-20)). unfold spanR. rewrite plus_IZR. field. lra. Qed.

Lemma shift_R : forall x r, shift_ok x -> ordinary r -> 0 <= Q2R (double x) * Q2R (double r) <= bpow radix2 40.
Proof.
  intros x r (_ & P0 & P1) O. destruct (ordinary_R _ O) as [_ [O1 O2]]. pose proof (bpow_gt_0 radix2 (-20)). apply Qle_Rle in P0, P1. rewrite Q2R_0 in P0.
  assert (B : Q2R 1048576 = bpow radix2 20) by (rewrite p20; unfold Q2R; cbn [Qnum Qden]; lra). rewrite B in P1.
  split; [apply Rmult_le_pos; lra|]. change 40%Z with (20 + 20)%Z. rewrite bpow_plus. apply Rmult_le_compat; lra.
Qed.

Lemma far_small : forall s t, 0 <= s <= bpow radix2 40 -> 0 <= t <= bpow radix2 65 -> 1 <= s + t + 1 <= bpow radix2 70.
Proof.
  intros s t S T. split; [lra|]. assert (A : bpow radix2 40 <= bpow radix2 65) by (apply bpow_le; lia). assert (B : 1 <= bpow radix2 65) by (change 1 with (bpow radix2 0); apply bpow_le; lia).
  change 70%Z with (5 + 65)%Z. rewrite bpow_plus. change (bpow radix2 5) with 32. lra.
Qed.

Lemma rep_near : forall w B pbo res r off image n i, shift_ok pbo -> ordinary res -> ordinary r -> (0 <= off < 2 ^ 24)%Z -> (1 <= image < 2 ^ 24)%Z ->
  (1 <= n < 2 ^ 24)%Z -> (0 <= i < n)%Z -> Q2R (double pbo * double r + inject_Z (off + image) / double res * double r) + 1 <= B ->
  near32 (rep32 w pbo res r off image n i)
    (Q2R (let s := (double pbo * double r + inject_Z off / double res * double r)%Q in linspace s (s + inject_Z image / double res * double r - 1)%Q n i)) (12 * (u * B)).
Proof.
  intros w B pbo res r off image n i SH O O' L L' N I HB. cbv zeta. rewrite linR_Q by lia. rewrite Q2R_minus, !Q2R_plus, Q2R_mult, !span_Q, Q2R_1 by exact O.
  rewrite Q2R_plus, span_Q, Q2R_mult, span_plus in HB by exact O. pose proof (shift_R _ _ SH O') as P.
  destruct (span_range off res r ltac:(lia) O O') as [S0 _]. destruct (span_range image res r ltac:(lia) O O') as [S1 _]. destruct (span_range (off + image) res r ltac:(lia) O O') as [S2 _].
  rewrite span_plus in S2 by exact O. set (p := Q2R (double pbo) * Q2R (double r)) in *. set (s := spanR off res r) in *. set (t := spanR image res r) in *.
  pose proof (far_small p (s + t) P S2) as BB. set (B0 := p + (s + t) + 1) in *. assert (BL : B0 <= B) by exact HB.
  apply near32_weak with (12 * (u * B0)); [|assert (u * B0 <= u * B) by (apply Rmult_le_compat_l; [unfold u; lra | exact BL]); lra].
  destruct (start_near B0 pbo res r off BB SH O O' ltac:(lia)) as [_ NS]; [fold p s; unfold B0; lra|]. fold p s in NS.
  assert (VB : 0 < v * B0) by (apply Rmult_lt_0_compat; [unfold v; lra | lra]).
  unfold rep32. apply linspace_near; [exact BB | apply near64_weak with (8 * (v * B0)); [exact NS | lra] | | rewrite Rabs_pos_eq; unfold B0; lra | apply Rabs_le; unfold B0; lra | exact N | exact I].
  pose proof (end_near B0 _ _ image res r BB NS ltac:(lra) O O' ltac:(lia)) as NE. fold t in NE. apply NE. unfold B0. lra.
Qed.

Lemma par_near : forall w B pbo res r pb n i, shift_ok pbo -> ordinary res -> ordinary r -> (1 <= pb < 2 ^ 24)%Z ->
  (1 <= n < 2 ^ 24)%Z -> (0 <= i < n)%Z -> Q2R (double pbo * double r + inject_Z pb / double res * double r) + 1 <= B ->
  near32 (par32 w pbo res r pb n i)
    (Q2R (linspace (double pbo * double r) (double pbo * double r + inject_Z pb / double res * double r - 1)%Q n i)) (12 * (u * B)).
Proof.
  intros w B pbo res r pb n i SH O O' L N I HB. rewrite linR_Q by lia. rewrite Q2R_minus, Q2R_plus, Q2R_mult, span_Q, Q2R_1 by exact O.
  rewrite Q2R_plus, span_Q, Q2R_mult in HB by exact O. pose proof (shift_R _ _ SH O') as P.
  destruct (span_range pb res r ltac:(lia) O O') as [S0 _]. set (p := Q2R (double pbo) * Q2R (double r)) in *. set (t := spanR pb res r) in *.
  pose proof (far_small p t P S0) as BB. set (B0 := p + t + 1) in *. assert (BL : B0 <= B) by exact HB.
  apply near32_weak with (12 * (u * B0)); [|assert (u * B0 <= u * B) by (apply Rmult_le_compat_l; [unfold u; lra | exact BL]); lra].
  destruct (start_near B0 pbo res r 0 BB SH O O' ltac:(lia)) as [NS _]; [unfold spanR, Rdiv; rewrite !Rmult_0_l; fold p; unfold B0; lra|]. fold p in NS.
  assert (VB : 0 < v * B0) by (apply Rmult_lt_0_compat; [unfold v; lra | lra]).
  unfold par32. apply linspace_near; [exact BB | apply near64_weak with (2 * (v * B0)); [exact NS | lra] | | rewrite Rabs_pos_eq; unfold B0; lra | apply Rabs_le; unfold B0; lra | exact N | exact I].
  pose proof (end_near B0 _ _ pb res r BB (near64_weak _ _ _ (8 * (v * B0)) NS ltac:(lra)) ltac:(lra) O O' ltac:(lia)) as NE. fold t in NE. apply NE. unfold B0. lra.
Qed.

(** * One entry *)
Lemma Q2R_abs : forall q, Q2R (Qabs q) = Rabs (Q2R q).
Proof.
  intros q. destruct (Qlt_le_dec q 0) as [S|S].
  - rewrite (Qeq_eqR _ _ (Qabs_neg q (Qlt_le_weak _ _ S))), Q2R_opp. apply Qlt_Rlt in S. rewrite Q2R_0 in S. rewrite Rabs_left; lra.
  - rewrite (Qeq_eqR _ _ (Qabs_pos q S)). apply Qle_Rle in S. rewrite Q2R_0 in S. rewrite Rabs_pos_eq; lra.
Qed.

Definition pixels_within (M : R) (im : fimage) : Prop :=
  forall r c, (0 <= r < g_rows im)%Z -> (0 <= c < g_cols im)%Z -> finite (g_at im r c) /\ Rabs (B2R (g_at im r c)) <= M.

Lemma sample_near : forall im x y px py Dx Dy M d, fsize im -> pixels_within M im -> 0 <= M <= bpow radix2 126 ->
  (0 <= Dx)%Q -> (0 <= Dy)%Q -> across Dx (values im) -> down Dy (values im) -> near32 x (Q2R px) d -> near32 y (Q2R py) d ->
  exists a, rep (bilinear32 im x y) a /\ Rabs a <= M + (bpow radix2 (-21) * M + bpow radix2 (-144)) /\
    Rabs (a - Q2R (bilinear (values im) px py)) <= bpow radix2 (-21) * M + bpow radix2 (-144) + (Q2R Dx + Q2R Dy) * d.
Proof.
  intros im x y px py Dx Dy M d SZ P [M0 B] HX HY AX AY (xa & [FX VX] & EX) (ya & [FY VY] & EY).
  assert (A : around im x y (fun p => finite p /\ Rabs (B2R p) <= M)) by (intros r c [R _] [C _]; apply P; assumption).
  destruct (binary32_error im x y M SZ FX FY A B) as [F E].
  assert (NE : nonempty (values im)) by (destruct SZ; split; cbn [values rows cols]; lia).
  pose proof (bilinear_lipschitz (values im) Dx Dy (value x) (value y) px py NE HX HY AX AY) as L.
  apply Qle_Rle in L. rewrite Q2R_plus, !Q2R_mult, !Q2R_abs, !Q2R_minus, (value_R x FX), (value_R y FY), VX, VY in L.
  apply Qle_Rle in HX, HY. rewrite Q2R_0 in HX, HY.
  assert (L1 : Q2R Dx * Rabs (xa - Q2R px) <= Q2R Dx * d) by (apply Rmult_le_compat_l; assumption).
  assert (L2 : Q2R Dy * Rabs (ya - Q2R py) <= Q2R Dy * d) by (apply Rmult_le_compat_l; assumption).
  assert (BT : - M <= Q2R (bilinear (values im) (value x) (value y)) <= M).
  { apply exact_between; [exact NE|]. intros r c NR NC. cbn [values at_]. destruct (A r c NR NC) as [F' G]. rewrite (value_R _ F'). apply Rabs_le_inv. exact G. }
  exists (B2R (bilinear32 im x y)). split; [split; [exact F | reflexivity]|]. split.
  - apply Rabs_le. apply Rabs_le_inv in E. lra.
  - replace (B2R (bilinear32 im x y) - Q2R (bilinear (values im) px py))
      with ((B2R (bilinear32 im x y) - Q2R (bilinear (values im) (value x) (value y)))
            + (Q2R (bilinear (values im) (value x) (value y)) - Q2R (bilinear (values im) px py))) by ring.
    eapply Rle_trans; [apply Rabs_triang|]. lra.
Qed.

(** * The factor *)
Lemma factor_near : forall res dt, ordinary res -> is_finite dt = true -> (Qabs (double dt) <= 1048576)%Q ->
  exists K, rep (to_f32 (mul64 res dt)) K /\ Rabs (K - Q2R (double res) * Q2R (double dt)) <= 101 / 100 * u * Rabs (Q2R (double res) * Q2R (double dt)) + 2 * e32 /\
    Rabs (Q2R (double res) * Q2R (double dt)) <= bpow radix2 40.
Proof.
  intros res dt O FD D. destruct (ordinary_R _ O) as [RO [O1 O2]]. pose proof (bpow_gt_0 radix2 (-20)) as P20. apply Qle_Rle in D. rewrite Q2R_abs in D.
  assert (E : Q2R 1048576 = bpow radix2 20) by (rewrite p20; unfold Q2R; cbn [Qnum Qden]; lra). rewrite E in D.
  set (k := Q2R (double res) * Q2R (double dt)). assert (KB : Rabs k <= bpow radix2 40).
  { unfold k. apply (mul_bound _ _ 20 20); [rewrite Rabs_pos_eq; lra | exact D]. }
  pose proof (rn64_err k) as E1. pose proof tiny_v as TV. assert (V0 : 0 < v <= / 1000 * / 1000) by (unfold v; lra). assert (U0 : 0 < u <= / 100000) by (unfold u; lra). pose proof (Rabs_pos k) as K0.
  assert (TE : 2 * bpow radix2 (-1075) <= e32) by (unfold e32; change 2 with (bpow radix2 1); rewrite <- bpow_plus; apply bpow_le; lia).
  assert (VU : v * Rabs k <= / 1000 * (u * Rabs k)) by (rewrite <- Rmult_assoc; apply Rmult_le_compat_r; [exact K0 | unfold u, v; lra]).
  assert (P40 : 1 <= bpow radix2 40) by (change 1 with (bpow radix2 0); apply bpow_le; lia).
  assert (A : Rabs (rn64 k) <= 1001 / 1000 * Rabs k + bpow radix2 (-1075)).
  { replace (rn64 k) with ((rn64 k - k) + k) by ring. eapply Rle_trans; [apply Rabs_triang|]. assert (v * Rabs k <= / 1000 * Rabs k) by (apply Rmult_le_compat_r; lra). lra. }
  assert (A2 : Rabs (rn64 k) <= bpow radix2 41) by (change 41%Z with (1 + 40)%Z; rewrite bpow_plus; change (bpow radix2 1) with 2; lra).
  assert (R1 : rep64 (mul64 res dt) (rn64 k)).
  { apply rep64_mul; [exact RO | apply rep64_double; exact FD|]. apply big_fits. eapply Rle_trans; [exact A2 | apply bpow_le; lia]. }
  destruct R1 as [F1 V1]. exists (rn32 (rn64 k)). split; [rewrite <- V1; apply to_f32_rep; [exact F1 | rewrite V1; apply (rn_bound _ 41); [lia | exact A2]]|]. split; [|exact KB].
  pose proof (rn32_err (rn64 k)) as E2. replace (rn32 (rn64 k) - k) with ((rn32 (rn64 k) - rn64 k) + (rn64 k - k)) by ring. eapply Rle_trans; [apply Rabs_triang|].
  assert (UA : u * Rabs (rn64 k) <= u * (1001 / 1000 * Rabs k + bpow radix2 (-1075))) by (apply Rmult_le_compat_l; lra).
  assert (UT : u * bpow radix2 (-1075) <= 1 * bpow radix2 (-1075)) by (apply Rmult_le_compat_r; lra). assert (0 <= u * Rabs k) by (apply Rmult_le_pos; lra). lra.
Qed.

Lemma scaled_near : forall x f K k a q M E, rep x a -> rep f K -> 0 <= M <= bpow radix2 40 -> 0 <= E ->
  Rabs a <= 1001 / 1000 * M + bpow radix2 (-140) -> Rabs (a - q) <= E ->
  Rabs (K - k) <= 101 / 100 * u * Rabs k + 2 * e32 -> Rabs k <= bpow radix2 40 ->
  near32 (mult32 x f) (q * k) (Rabs k * E + 21 / 10 * (u * (M * Rabs k)) + bpow radix2 (-101)).
Proof.
  intros x f K k a q M E RX RF [M0 M1] E0 HA HE HK KB. pose proof (Rabs_pos k) as K0. assert (U0 : 0 < u <= / 100000) by (unfold u; lra).
  pose proof (bpow_gt_0 radix2 (-140)) as T0. pose proof (bpow_gt_0 radix2 40) as P40. assert (e0 : 0 < e32) by apply bpow_gt_0.
  assert (EV : e32 = bpow radix2 (-101) * bpow radix2 (-49)) by (unfold e32; rewrite <- bpow_plus; reflexivity).
  assert (TV : bpow radix2 (-140) * bpow radix2 40 = bpow radix2 (-101) * / 2 ^ 1 * 4) by (rewrite <- bpow_plus; change (-140 + 40)%Z with (1 + -101)%Z; rewrite bpow_plus; change (bpow radix2 1) with 2; field).
  set (T := bpow radix2 (-101)) in *. assert (TP : 0 < T) by apply bpow_gt_0.
  (* the product *)
  assert (P : Rabs (a * K - q * k) <= Rabs a * (101 / 100 * u * Rabs k + 2 * e32) + E * Rabs k).
  { replace (a * K - q * k) with (a * (K - k) + (a - q) * k) by ring. eapply Rle_trans; [apply Rabs_triang|]. rewrite !Rabs_mult.
    apply Rplus_le_compat; [apply Rmult_le_compat_l; [apply Rabs_pos | exact HK] | apply Rmult_le_compat_r; [exact K0 | exact HE]]. }
  assert (KA : Rabs K <= 1001 / 1000 * Rabs k + 2 * e32).
  { replace K with ((K - k) + k) by ring. eapply Rle_trans; [apply Rabs_triang|]. assert (u * Rabs k <= / 100000 * Rabs k) by (apply Rmult_le_compat_r; lra). lra. }
  set (A := 1001 / 1000 * M + bpow radix2 (-140)) in *. assert (A0 : 0 <= A) by (unfold A; lra).
  assert (T1 : bpow radix2 (-140) <= 1) by (change 1 with (bpow radix2 0); apply bpow_le; lia). assert (P1 : 1 <= bpow radix2 40) by (change 1 with (bpow radix2 0); apply bpow_le; lia).
  assert (A2 : A <= 3 * bpow radix2 40) by (unfold A; lra).
  assert (AK : Rabs (a * K) <= A * (1001 / 1000 * Rabs k + 2 * e32)) by (rewrite Rabs_mult; apply Rmult_le_compat; try apply Rabs_pos; assumption).
  assert (Ae : A * e32 <= / 100 * T).
  { apply Rle_trans with (3 * bpow radix2 40 * e32); [apply Rmult_le_compat_r; lra|]. rewrite EV. replace (3 * bpow radix2 40 * (T * bpow radix2 (-49))) with (T * (3 * (bpow radix2 40 * bpow radix2 (-49)))) by ring.
    rewrite <- bpow_plus. change (bpow radix2 (40 + -49)) with (/ 512). lra. }
  assert (Ak : A * Rabs k <= 1001 / 1000 * (M * Rabs k) + 2 * T).
  { unfold A. rewrite Rmult_plus_distr_r. assert (bpow radix2 (-140) * Rabs k <= bpow radix2 (-140) * bpow radix2 40) by (apply Rmult_le_compat_l; lra). lra. }
  assert (MK : 0 <= M * Rabs k) by (apply Rmult_le_pos; assumption).
  assert (UAk : u * (A * Rabs k) <= 1001 / 1000 * (u * (M * Rabs k)) + / 10000 * T).
  { assert (u * (A * Rabs k) <= u * (1001 / 1000 * (M * Rabs k) + 2 * T)) by (apply Rmult_le_compat_l; lra). assert (u * T <= / 100000 * T) by (apply Rmult_le_compat_r; lra). lra. }
  assert (UAe : u * (A * e32) <= / 100000 * T).
  { assert (u * (A * e32) <= u * (/ 100 * T)) by (apply Rmult_le_compat_l; lra). assert (u * T <= / 100000 * T) by (apply Rmult_le_compat_r; lra). lra. }
  assert (AR : Rabs a * (101 / 100 * u * Rabs k + 2 * e32) <= 101 / 100 * (u * (A * Rabs k)) + 2 * (A * e32)).
  { replace (101 / 100 * (u * (A * Rabs k)) + 2 * (A * e32)) with (A * (101 / 100 * u * Rabs k + 2 * e32)) by ring. apply Rmult_le_compat_r; [|exact HA].
    assert (0 <= u * Rabs k) by (apply Rmult_le_pos; lra). lra. }
  assert (UK : u * Rabs (a * K) <= 1001 / 1000 * (u * (A * Rabs k)) + 2 * (u * (A * e32))).
  { replace (1001 / 1000 * (u * (A * Rabs k)) + 2 * (u * (A * e32))) with (u * (A * (1001 / 1000 * Rabs k + 2 * e32))) by ring. apply Rmult_le_compat_l; lra. }
  assert (e1 : e32 <= / 100 * T). { rewrite EV. rewrite (Rmult_comm T). apply Rmult_le_compat_r; [lra|]. apply Rle_trans with (bpow radix2 (-10)); [apply bpow_le; lia|]. change (bpow radix2 (-10)) with (/ 1024). lra. }
  pose proof (rn32_err (a * K)) as ER. exists (rn32 (a * K)). split.
  - unfold mult32. apply rep_mul; [exact RX | exact RF|]. apply (rn_bound _ 84); [lia|]. change 84%Z with (42 + 42)%Z. apply mul_bound.
    + eapply Rle_trans; [exact HA|]. eapply Rle_trans; [exact A2|]. change 42%Z with (2 + 40)%Z. rewrite bpow_plus. change (bpow radix2 2) with 4. lra.
    + eapply Rle_trans; [exact KA|]. assert (e32 <= 1) by (unfold e32; change 1 with (bpow radix2 0); apply bpow_le; lia). change 42%Z with (2 + 40)%Z. rewrite bpow_plus. change (bpow radix2 2) with 4. lra.
  - replace (rn32 (a * K) - q * k) with ((rn32 (a * K) - a * K) + (a * K - q * k)) by ring. eapply Rle_trans; [apply Rabs_triang|].
    assert (UM : 0 <= u * (M * Rabs k)) by (apply Rmult_le_pos; lra). lra.
Qed.

(** * Flows *)
Lemma flow_M : forall M f, flow_within M f -> 0 <= M.
Proof. intros M f (H & W & A). destruct (A 0%Z 0%Z ltac:(lia) ltac:(lia)) as [[_ A0] _]. pose proof (Rabs_pos (real (h_u f 0 0))). lra. Qed.

Lemma pad_across : forall py px D (im : image), (0 <= py)%Z -> (0 <= px)%Z -> (0 <= D)%Q -> (1 <= rows im)%Z -> (1 <= cols im)%Z -> across D im ->
  across D (mkImage (rows im + py) (cols im + px) (fun r c => at_ im (Z.max 0 (r - py)) (Z.max 0 (c - px)))).
Proof.
  intros py px D im Y X D0 H W A r c [R1 C1] [R2 C2]. cbn [rows cols at_] in *. destruct (Z.le_gt_cases px c) as [G|G].
  - replace (Z.max 0 (c + 1 - px)) with (Z.max 0 (c - px) + 1)%Z by lia. apply A; split; lia.
  - replace (Z.max 0 (c + 1 - px)) with (Z.max 0 (c - px)) by lia. setoid_replace (at_ im (Z.max 0 (r - py)) (Z.max 0 (c - px)) - at_ im (Z.max 0 (r - py)) (Z.max 0 (c - px)))%Q with 0%Q by ring. exact D0.
Qed.

Lemma pad_down : forall py px D (im : image), (0 <= py)%Z -> (0 <= px)%Z -> (0 <= D)%Q -> (1 <= rows im)%Z -> (1 <= cols im)%Z -> down D im ->
  down D (mkImage (rows im + py) (cols im + px) (fun r c => at_ im (Z.max 0 (r - py)) (Z.max 0 (c - px)))).
Proof.
  intros py px D im Y X D0 H W A r c [R1 C1] [R2 C2]. cbn [rows cols at_] in *. destruct (Z.le_gt_cases py r) as [G|G].
  - replace (Z.max 0 (r + 1 - py)) with (Z.max 0 (r - py) + 1)%Z by lia. apply A; split; lia.
  - replace (Z.max 0 (r + 1 - py)) with (Z.max 0 (r - py)) by lia. setoid_replace (at_ im (Z.max 0 (r - py)) (Z.max 0 (c - px)) - at_ im (Z.max 0 (r - py)) (Z.max 0 (c - px)))%Q with 0%Q by ring. exact D0.
Qed.

(** One channel: of floats [at0] in the flow, padded. *)
Definition padded (py px H W : Z) (at0 : Z -> Z -> f32) : fimage :=
  @mkGimage binary32 (H + py) (W + px) (fun r c => at0 (Z.max 0 (r - py)) (Z.max 0 (c - px))).
Definition chan_ok (M : R) (Dx Dy : Q) (H W : Z) (at0 : Z -> Z -> f32) : Prop :=
  (1 <= H)%Z /\ (1 <= W)%Z /\ (0 <= Dx)%Q /\ (0 <= Dy)%Q /\
  (forall r c, (0 <= r < H)%Z -> (0 <= c < W)%Z -> finite (at0 r c) /\ Rabs (real (at0 r c)) <= M) /\
  across Dx (mkImage H W (fun r c => value (at0 r c))) /\ down Dy (mkImage H W (fun r c => value (at0 r c))).

Lemma chan_ready : forall M Dx Dy H W at0 py px, chan_ok M Dx Dy H W at0 -> (0 <= py)%Z -> (0 <= px)%Z -> (H + py < 2 ^ 24)%Z -> (W + px < 2 ^ 24)%Z ->
  fsize (padded py px H W at0) /\ pixels_within M (padded py px H W at0) /\ across Dx (values (padded py px H W at0)) /\ down Dy (values (padded py px H W at0)) /\ 0 <= M.
Proof.
  intros M Dx Dy H W at0 py px (H1 & W1 & D0 & D1 & P & A & D) Y X LH LW. split; [split; cbn [padded g_rows g_cols]; lia|]. split.
  { intros r c R C. cbn [padded g_at g_rows g_cols] in *. destruct (P (Z.max 0 (r - py)) (Z.max 0 (c - px)) ltac:(lia) ltac:(lia)) as [F B]. split; [exact F|].
    unfold real in B. rewrite (value_R _ F) in B. exact B. }
  split; [exact (pad_across py px Dx (mkImage H W (fun r c => value (at0 r c))) Y X D0 H1 W1 A)|].
  split; [exact (pad_down py px Dy (mkImage H W (fun r c => value (at0 r c))) Y X D1 H1 W1 D)|].
  destruct (P 0%Z 0%Z ltac:(lia) ltac:(lia)) as [_ B]. pose proof (Rabs_pos (real (at0 0%Z 0%Z))). lra.
Qed.

Lemma powers : bpow radix2 (-21) = 8 * u /\ bpow radix2 (-20) = 16 * u.
Proof. rewrite <- u_u32. unfold u32. change 8 with (bpow radix2 3). change 16 with (bpow radix2 4). rewrite <- !bpow_plus. split; reflexivity. Qed.

Lemma blur_form : forall M Dx Dy B, blur M Dx Dy B = 16 * (u * M) + 13 * (u * ((Q2R Dx + Q2R Dy) * B)).
Proof. intros M Dx Dy B. unfold blur. destruct powers as [_ ->]. unfold u. field. Qed.

Lemma tiny_144 : bpow radix2 (-144) <= bpow radix2 (-140) /\ bpow radix2 (-144) * bpow radix2 40 <= / 8 * bpow radix2 (-101) /\ bpow radix2 (-101) = / 2 * bpow radix2 (-100).
Proof.
  split; [apply bpow_le; lia|]. split; [|change (/ 2) with (bpow radix2 (-1)); rewrite <- bpow_plus; reflexivity].
  rewrite <- bpow_plus. change (/ 8) with (bpow radix2 (-3)). rewrite <- bpow_plus. apply Req_le. reflexivity.
Qed.

Lemma reported_entry : forall w a B M Dx Dy at0 H W i j, usual a -> reach B a -> M <= bpow radix2 40 ->
  chan_ok M Dx Dy H W at0 -> (H + fst (b_pad a) < 2 ^ 24)%Z -> (W + snd (b_pad a) < 2 ^ 24)%Z -> (0 <= i < fst (b_new a))%Z -> (0 <= j < snd (b_new a))%Z ->
  let im := padded (fst (b_pad a)) (snd (b_pad a)) H W at0 in
  let x := bilinear32 im (rep_x32 w a j) (rep_y32 w a i) in
  let q := bilinear (values im) (rep_x (numbers a) j) (rep_y (numbers a) i) in
  entry_near (factor a * blur M Dx Dy B + bpow radix2 (-100)) (if b_pixels a then mult32 x (to_f32 (mul64 (b_res a) (b_dt a))) else x)
    (if b_pixels a then (q * (double (b_res a) * double (b_dt a)))%Q else q).
Proof.
  intros w a B M Dx Dy at0 H W i j ((O & OX & OY) & (SY & SX) & (LY & LX) & (IY & IX) & _ & (NY & NX) & (FD & HD) & PY & PX) (RY & RX & _) M40 CH LH LW I J im x q.
  destruct (chan_ready M Dx Dy H W at0 _ _ CH PY PX LH LW) as (SZ & PW & AC & DN & M0). destruct CH as (_ & _ & D0 & D1 & _). fold im in SZ, PW, AC, DN.
  assert (NEX : near32 (rep_x32 w a j) (Q2R (rep_x (numbers a) j)) (12 * (u * B))) by (exact (rep_near w B _ _ _ _ _ _ j SX O OX LX IX NX J RX)).
  assert (NEY : near32 (rep_y32 w a i) (Q2R (rep_y (numbers a) i)) (12 * (u * B))) by (exact (rep_near w B _ _ _ _ _ _ i SY O OY LY IY NY I RY)).
  assert (P40 : bpow radix2 40 <= bpow radix2 126) by (apply bpow_le; lia).
  destruct (sample_near im _ _ _ _ Dx Dy M (12 * (u * B)) SZ PW (conj M0 (Rle_trans _ _ _ M40 P40)) D0 D1 AC DN NEX NEY) as (s & RS & SB & SE). fold q in SE. fold x in RS.
  assert (U0 : 0 < u <= / 100000) by (unfold u; lra). pose proof tiny_144 as (T1 & T2 & T3). destruct powers as [E21 E20]. rewrite E21 in SB, SE.
  replace ((Q2R Dx + Q2R Dy) * (12 * (u * B))) with (12 * (u * ((Q2R Dx + Q2R Dy) * B))) in SE by ring.
  assert (UM : 0 <= u * M) by (apply Rmult_le_pos; lra). rewrite blur_form. set (DB := u * ((Q2R Dx + Q2R Dy) * B)) in *.
  assert (DB0 : 0 <= DB).
  { apply Qle_Rle in D0, D1. rewrite Q2R_0 in D0, D1. assert (B0 : 0 <= B).
    { destruct NEX as (z & _ & Z). pose proof (Rabs_pos (z - Q2R (rep_x (numbers a) j))). assert (0 <= u * B) by lra. apply Rmult_le_reg_l with u; [lra|]. lra. }
    unfold DB. apply Rmult_le_pos; [lra|]. apply Rmult_le_pos; lra. }
  pose proof (bpow_gt_0 radix2 (-144)) as T0. pose proof (bpow_gt_0 radix2 (-100)) as T0'.
  unfold factor. destruct (b_pixels a).
  - destruct (factor_near (b_res a) (b_dt a) O FD HD) as (K & RK & EK & BK). rewrite <- Q2R_mult in EK, BK. set (k := Q2R (double (b_res a) * double (b_dt a))) in *.
    assert (UM' : u * M <= / 100000 * M) by (apply Rmult_le_compat_r; lra).
    destruct (scaled_near x _ K k s (Q2R q) M (8 * u * M + bpow radix2 (-144) + 12 * DB) RS RK (conj M0 M40)) as (r & RR & ER); [lra | lra | exact SE | exact EK | exact BK|].
    destruct (rep_real _ _ RR) as [F V]. split; [exact F|]. rewrite V, Q2R_mult. change (Q2R (double (b_res a) * double (b_dt a))) with k. eapply Rle_trans; [exact ER|].
    pose proof (Rabs_pos k) as K0. assert (KT : Rabs k * bpow radix2 (-144) <= bpow radix2 40 * bpow radix2 (-144)) by (apply Rmult_le_compat_r; lra).
    assert (KM : 0 <= u * (M * Rabs k)) by (apply Rmult_le_pos; [lra | apply Rmult_le_pos; lra]). assert (KD : 0 <= Rabs k * DB) by (apply Rmult_le_pos; lra).
    replace (Rabs k * (8 * u * M + bpow radix2 (-144) + 12 * DB)) with (8 * (u * (M * Rabs k)) + Rabs k * bpow radix2 (-144) + 12 * (Rabs k * DB)) by ring.
    replace (Rabs k * (16 * (u * M) + 13 * DB)) with (16 * (u * (M * Rabs k)) + 13 * (Rabs k * DB)) by ring. lra.
  - destruct (rep_real _ _ RS) as [F V]. split; [exact F|]. rewrite V. eapply Rle_trans; [exact SE|].
    assert (bpow radix2 (-144) <= bpow radix2 (-100)) by (apply bpow_le; lia). lra.
Qed.

Lemma cropped_entry : forall w a B M Dx Dy at0 H W h v i j, usual a -> reach B a -> M <= bpow radix2 40 ->
  chan_ok M Dx Dy H W at0 -> (H + fst (b_pad a) < 2 ^ 24)%Z -> (W + snd (b_pad a) < 2 ^ 24)%Z -> count_ok h -> count_ok v -> (0 <= i < h)%Z -> (0 <= j < v)%Z ->
  let im := padded (fst (b_pad a)) (snd (b_pad a)) H W at0 in
  let n := numbers a in
  entry_near (blur M Dx Dy B + bpow radix2 (-100))
    (bilinear32 im (par32 w (snd (b_pbo a)) (b_res a) (b_rx a) (snd (b_pb a)) v j) (par32 w (fst (b_pbo a)) (b_res a) (b_ry a) (fst (b_pb a)) h i))
    (bilinear (values im)
       (linspace (snd (ad_pbo n) * ad_rx n) (snd (ad_pbo n) * ad_rx n + inject_Z (snd (ad_pb n)) / ad_res n * ad_rx n - 1)%Q v j)
       (linspace (fst (ad_pbo n) * ad_ry n) (fst (ad_pbo n) * ad_ry n + inject_Z (fst (ad_pb n)) / ad_res n * ad_ry n - 1)%Q h i)).
Proof.
  intros w a B M Dx Dy at0 H W h v' i j ((O & OX & OY) & (SY & SX) & _ & _ & (BY & BX) & _ & _ & PY & PX) (_ & _ & RY & RX) M40 CH LH LW HC VC I J im n.
  destruct (chan_ready M Dx Dy H W at0 _ _ CH PY PX LH LW) as (SZ & PW & AC & DN & M0). destruct CH as (_ & _ & D0 & D1 & _). fold im in SZ, PW, AC, DN.
  pose proof (par_near w B _ _ _ _ v' j SX O OX BX VC J RX) as NEX. pose proof (par_near w B _ _ _ _ h i SY O OY BY HC I RY) as NEY.
  assert (P40 : bpow radix2 40 <= bpow radix2 126) by (apply bpow_le; lia).
  destruct (sample_near im _ _ _ _ Dx Dy M (12 * (u * B)) SZ PW (conj M0 (Rle_trans _ _ _ M40 P40)) D0 D1 AC DN NEX NEY) as (s & RS & _ & SE).
  destruct (rep_real _ _ RS) as [F V]. split; [exact F|]. rewrite V. eapply Rle_trans; [exact SE|].
  assert (U0 : 0 < u <= / 100000) by (unfold u; lra). destruct powers as [E21 E20]. rewrite E21, blur_form.
  replace ((Q2R Dx + Q2R Dy) * (12 * (u * B))) with (12 * (u * ((Q2R Dx + Q2R Dy) * B))) by ring.
  assert (UM : 0 <= u * M) by (apply Rmult_le_pos; lra).
  assert (DB0 : 0 <= u * ((Q2R Dx + Q2R Dy) * B)).
  { apply Qle_Rle in D0, D1. rewrite Q2R_0 in D0, D1. assert (B0 : 0 <= B).
    { destruct NEX as (z & _ & Z). match type of Z with Rabs ?t <= _ => pose proof (Rabs_pos t) end. assert (0 <= u * B) by lra. apply Rmult_le_reg_l with u; [lra|]. lra. }
    apply Rmult_le_pos; [lra|]. apply Rmult_le_pos; lra. }
  assert (bpow radix2 (-144) <= bpow radix2 (-100)) by (apply bpow_le; lia). lra.
Qed.

Lemma flow_chans : forall M Dx Dy f, flow_within M f -> varies Dx Dy f ->
  chan_ok M Dx Dy (h_H f) (h_W f) (h_u f) /\ chan_ok M Dx Dy (h_H f) (h_W f) (h_v f).
Proof.
  intros M Dx Dy f (H & W & A) (D0 & D1 & A0 & N0 & A1 & N1).
  split; (repeat split; try lia; try assumption); try (intros; apply A; assumption).
Qed.

Lemma reported_near : forall w a f B M Dx Dy, usual a -> reach B a -> M <= bpow radix2 40 -> flow_within M f -> varies Dx Dy f -> pad_room a f ->
  flow_near (factor a * blur M Dx Dy B + bpow radix2 (-100)) (reported32 w a f) (fst (process_single (numbers a) (flow_of f))).
Proof.
  intros w a f B M Dx Dy U R M40 FW VR [R1 R2]. destruct (flow_chans M Dx Dy f FW VR) as [C0 C1]. split; [reflexivity|]. split; [reflexivity|].
  intros i j I J. change (fH (fst (process_single (numbers a) (flow_of f)))) with (fst (b_new a)) in I. change (fW (fst (process_single (numbers a) (flow_of f)))) with (snd (b_new a)) in J.
  split.
  - exact (reported_entry w a B M Dx Dy (h_u f) (h_H f) (h_W f) i j U R M40 C0 R1 R2 I J).
  - exact (reported_entry w a B M Dx Dy (h_v f) (h_H f) (h_W f) i j U R M40 C1 R1 R2 I J).
Qed.

Lemma cropped_near : forall w a f B M Dx Dy h v, usual a -> reach B a -> M <= bpow radix2 40 -> flow_within M f -> varies Dx Dy f -> pad_room a f ->
  count_ok h -> count_ok v -> flow_near (blur M Dx Dy B + bpow radix2 (-100)) (cropped32 w a h v f) (covering (numbers a) h v (flow_of f)).
Proof.
  intros w a f B M Dx Dy h v' U R M40 FW VR [R1 R2] HC VC. destruct (flow_chans M Dx Dy f FW VR) as [C0 C1]. split; [reflexivity|]. split; [reflexivity|].
  intros i j I J. change (fH (covering (numbers a) h v' (flow_of f))) with h in I. change (fW (covering (numbers a) h v' (flow_of f))) with v' in J.
  split.
  - exact (cropped_entry w a B M Dx Dy (h_u f) (h_H f) (h_W f) h v' i j U R M40 C0 R1 R2 HC VC I J).
  - exact (cropped_entry w a B M Dx Dy (h_v f) (h_H f) (h_W f) h v' i j U R M40 C1 R1 R2 HC VC I J).
Qed.

(** * A uniform flow *)
Definition shownR (a : adapter64) (s : R) : R := if b_pixels a then s * Q2R (double (b_res a) * double (b_dt a)) else s.

Lemma uniform_chan : forall u0 H W at0, (1 <= H)%Z -> (1 <= W)%Z ->
  (forall r c, (0 <= r < H)%Z -> (0 <= c < W)%Z -> finite (at0 r c) /\ real (at0 r c) = real u0) -> chan_ok (Rabs (real u0)) 0 0 H W at0.
Proof.
  intros u0 H W at0 H1 W1 A. split; [exact H1|]. split; [exact W1|]. split; [apply Qle_refl|]. split; [apply Qle_refl|]. split.
  { intros r c R C. destruct (A r c R C) as [F E]. split; [exact F|]. rewrite E. apply Rle_refl. }
  assert (Z : forall r c r' c', (0 <= r < H)%Z -> (0 <= c < W)%Z -> (0 <= r' < H)%Z -> (0 <= c' < W)%Z -> (Qabs (value (at0 r c) - value (at0 r' c')) <= 0)%Q).
  { intros r c r' c' R C R' C'. apply Rle_Qle. rewrite Q2R_abs, Q2R_minus, Q2R_0. change (Q2R (value (at0 r c))) with (real (at0 r c)). change (Q2R (value (at0 r' c'))) with (real (at0 r' c')).
    rewrite (proj2 (A r c R C)), (proj2 (A r' c' R' C')), Rminus_diag_eq, Rabs_R0 by reflexivity. apply Rle_refl. }
  split; intros r c [R1 C1] [R2 C2]; cbn [rows cols at_] in *; apply Z; assumption.
Qed.

Lemma uniform_value : forall u0 H W at0 py px x y, (1 <= H)%Z -> (1 <= W)%Z -> (0 <= py)%Z -> (0 <= px)%Z ->
  (forall r c, (0 <= r < H)%Z -> (0 <= c < W)%Z -> finite (at0 r c) /\ real (at0 r c) = real u0) ->
  Q2R (bilinear (values (padded py px H W at0)) x y) = real u0.
Proof.
  intros u0 H W at0 py px x y H1 W1 Y X A.
  assert (B : real u0 <= Q2R (bilinear (values (padded py px H W at0)) x y) <= real u0); [|lra].
  apply exact_between; [split; cbn [values padded rows cols g_rows g_cols]; lia|].
  intros r c [R _] [C _]. cbn [values padded rows cols at_ g_rows g_cols g_at] in *. fold (real (at0 (Z.max 0 (r - py)) (Z.max 0 (c - px)))).
  rewrite (proj2 (A (Z.max 0 (r - py)) (Z.max 0 (c - px)) ltac:(lia) ltac:(lia))). lra.
Qed.

Lemma uniform_reported : forall w a B u0 at0 H W i j, usual a -> reach B a -> Rabs (real u0) <= bpow radix2 40 -> (1 <= H)%Z -> (1 <= W)%Z ->
  (forall r c, (0 <= r < H)%Z -> (0 <= c < W)%Z -> finite (at0 r c) /\ real (at0 r c) = real u0) ->
  (H + fst (b_pad a) < 2 ^ 24)%Z -> (W + snd (b_pad a) < 2 ^ 24)%Z -> (0 <= i < fst (b_new a))%Z -> (0 <= j < snd (b_new a))%Z ->
  let x := bilinear32 (padded (fst (b_pad a)) (snd (b_pad a)) H W at0) (rep_x32 w a j) (rep_y32 w a i) in
  let o := if b_pixels a then mult32 x (to_f32 (mul64 (b_res a) (b_dt a))) else x in
  finite o /\ Rabs (real o - shownR a (real u0)) <= bpow radix2 (-20) * (factor a * Rabs (real u0)) + bpow radix2 (-100).
Proof.
  intros w a B u0 at0 H W i j U R M40 H1 W1 A LH LW I J x o.
  pose proof (reported_entry w a B _ 0 0 at0 H W i j U R M40 (uniform_chan u0 H W at0 H1 W1 A) LH LW I J) as E. cbv zeta in E. fold x in E. fold o in E. destruct E as [F E]. split; [exact F|].
  destruct U as (_ & _ & _ & _ & _ & _ & _ & PY & PX).
  assert (V : forall q, Q2R (if b_pixels a then (q * (double (b_res a) * double (b_dt a)))%Q else q) = shownR a (Q2R q)) by (intros q; unfold shownR; destruct (b_pixels a); [apply Q2R_mult | reflexivity]).
  rewrite V, (uniform_value u0 H W at0 _ _ _ _ H1 W1 PY PX A) in E.
  eapply Rle_trans; [exact E|]. apply Req_le. unfold blur. rewrite Q2R_0. field.
Qed.

Lemma uniform_cropped : forall w a B u0 at0 H W h v i j, usual a -> reach B a -> Rabs (real u0) <= bpow radix2 40 -> (1 <= H)%Z -> (1 <= W)%Z ->
  (forall r c, (0 <= r < H)%Z -> (0 <= c < W)%Z -> finite (at0 r c) /\ real (at0 r c) = real u0) ->
  (H + fst (b_pad a) < 2 ^ 24)%Z -> (W + snd (b_pad a) < 2 ^ 24)%Z -> count_ok h -> count_ok v -> (0 <= i < h)%Z -> (0 <= j < v)%Z ->
  let o := bilinear32 (padded (fst (b_pad a)) (snd (b_pad a)) H W at0) (par32 w (snd (b_pbo a)) (b_res a) (b_rx a) (snd (b_pb a)) v j)
             (par32 w (fst (b_pbo a)) (b_res a) (b_ry a) (fst (b_pb a)) h i) in
  finite o /\ Rabs (real o - real u0) <= bpow radix2 (-20) * Rabs (real u0) + bpow radix2 (-100).
Proof.
  intros w a B u0 at0 H W h v' i j U R M40 H1 W1 A LH LW HC VC I J o.
  pose proof (cropped_entry w a B _ 0 0 at0 H W h v' i j U R M40 (uniform_chan u0 H W at0 H1 W1 A) LH LW HC VC I J) as E. cbv zeta in E. fold o in E. destruct E as [F E]. split; [exact F|].
  destruct U as (_ & _ & _ & _ & _ & _ & _ & PY & PX). rewrite (uniform_value u0 H W at0 _ _ _ _ H1 W1 PY PX A) in E.
  eapply Rle_trans; [exact E|]. apply Req_le. unfold blur. rewrite Q2R_0. field.
Qed.

(** * Sizes *)
Lemma size_facts : forall len res r, (1 <= len < 2 ^ 24)%Z -> ordinary res -> ordinary r -> spanR len res r <= 8388608 ->
  exists t, size64 len res r = Ok (Z.max 1 (Zfloor t)) /\ Rabs (t - spanR len res r) <= 3 * (v * spanR len res r) /\ 0 <= t /\
    (Zfloor (spanR len res r) - 1 <= Zfloor t <= Zfloor (spanR len res r) + 1)%Z /\
    (rn64 (IZR len / Q2R (double res)) = IZR len / Q2R (double res) -> t = rn64 (spanR len res r)).
Proof.
  intros len res r L O O' S. destruct (span_rel len res r ltac:(lia) O O') as (t & [F V] & E & T0 & X). destruct (span_range len res r ltac:(lia) O O') as [[S0 _] _].
  set (x := spanR len res r) in *. exists t. destruct (f_val_R _ F) as (q & EQ & VQ). rewrite V in VQ. split.
  { unfold size64. rewrite EQ. f_equal. f_equal. unfold Qtrunc. assert (Q0 : (0 <= q)%Q) by (apply Rle_Qle; rewrite Q2R_0, VQ; exact T0). apply Qle_bool_iff in Q0. rewrite Q0, <- floor_Q2R, VQ. reflexivity. }
  split; [exact E|]. split; [exact T0|]. split; [|exact X].
  assert (VX : v * x <= v * 8388608) by (apply Rmult_le_compat_l; [unfold v; lra | exact S]). assert (EB : Rabs (t - x) <= / 2) by (unfold v in *; lra). apply Rabs_le_inv in EB.
  pose proof (Zfloor_lb x). pose proof (Zfloor_ub x). pose proof (Zfloor_lb t). pose proof (Zfloor_ub t). split.
  - apply Zlt_succ_le, lt_IZR. unfold Z.succ. rewrite !plus_IZR, minus_IZR. lra.
  - apply Zlt_succ_le, lt_IZR. unfold Z.succ. rewrite !plus_IZR. lra.
Qed.

Lemma floor_split : forall t x, Zfloor t <> Zfloor x -> exists z, Rabs (x - IZR z) <= Rabs (t - x).
Proof.
  intros t x N. pose proof (Zfloor_lb x) as L. pose proof (Zfloor_ub x) as U. pose proof (Zfloor_lb t) as L'. pose proof (Zfloor_ub t) as U'.
  destruct (Z.lt_ge_cases (Zfloor t) (Zfloor x)) as [G|G].
  - exists (Zfloor x). assert (IZR (Zfloor t + 1) <= IZR (Zfloor x)) by (apply IZR_le; lia). rewrite plus_IZR in *. rewrite (Rabs_pos_eq (x - _)) by lra. rewrite Rabs_left1 by lra. lra.
  - exists (Zfloor x + 1)%Z. assert (IZR (Zfloor x + 1) <= IZR (Zfloor t)) by (apply IZR_le; lia). rewrite plus_IZR in *. rewrite (Rabs_left1 (x - _)) by lra. rewrite Rabs_pos_eq by lra. lra.
Qed.

Lemma size_near : forall len res r (x := (inject_Z len / double res * double r)%Q), (1 <= len < 2 ^ 24)%Z -> ordinary res -> ordinary r -> (x <= 8388608)%Q ->
  exists z, size64 len res r = Ok z /\ count_ok z /\ (Z.max 1 (Qtrunc x) - 1 <= z <= Z.max 1 (Qtrunc x) + 1)%Z /\
    (clear_of_integers x -> z = Z.max 1 (Qtrunc x)) /\
    (is_double (inject_Z len / double res) -> is_double x -> z = Z.max 1 (Qtrunc x)).
Proof.
  intros len res r x L O O' S. assert (ES : Q2R x = spanR len res r) by (apply span_Q; exact O).
  apply Qle_Rle in S. rewrite ES in S. assert (E8 : Q2R 8388608 = 8388608) by (unfold Q2R; cbn [Qnum Qden]; lra). rewrite E8 in S.
  destruct (size_facts len res r L O O' S) as (t & ET & EE & T0 & FL & EX). destruct (span_range len res r ltac:(lia) O O') as [[S0 _] _]. rewrite <- ES in *.
  assert (QT : Qtrunc x = Zfloor (Q2R x)).
  { unfold Qtrunc. assert (Q0 : (0 <= x)%Q) by (apply Rle_Qle; rewrite Q2R_0; exact S0). apply Qle_bool_iff in Q0. rewrite Q0. symmetry. apply floor_Q2R. }
  assert (FX : (0 <= Zfloor (Q2R x) <= 8388608)%Z).
  { split; [apply Zfloor_lub; exact S0|]. apply le_IZR. eapply Rle_trans; [apply Zfloor_lb | exact S]. }
  exists (Z.max 1 (Zfloor t)). rewrite QT. split; [exact ET|]. split; [unfold count_ok; lia|]. split; [lia|]. split.
  - intros C. f_equal. destruct (Z.eq_dec (Zfloor t) (Zfloor (Q2R x))) as [Z|Z]; [exact Z|]. exfalso. destruct (floor_split t (Q2R x) Z) as [z HZ].
    pose proof (C z) as Y. apply Qlt_Rlt in Y. rewrite Q2R_mult, Q2R_abs, Q2R_minus, Q2R_Z in Y.
    assert (EP : Q2R (1 # 1125899906842624) = 8 * v) by (unfold Q2R, v; cbn [Qnum Qden]; lra). rewrite EP in Y.
    assert (0 <= v * Q2R x) by (apply Rmult_le_pos; [unfold v; lra | exact S0]). lra.
  - intros D1 D2. f_equal. f_equal. rewrite EX.
    + unfold rn64. apply round_generic; [apply valid_rnd_round_mode | exact D2].
    + unfold is_double in D1. destruct (ordinary_R _ O) as [_ [O1 _]]. pose proof (bpow_gt_0 radix2 (-20)).
      rewrite Q2R_div', Q2R_Z in D1 by (intros E; rewrite (Qeq_eqR _ _ E), Q2R_0 in O1; lra). unfold rn64. apply round_generic; [apply valid_rnd_round_mode | exact D1].
Qed.

(** * The lists *)
Lemma tiled_nth : forall (A : Type) b (l : list A) j, l <> nil -> (j < b)%nat ->
  nth_error (firstn b (List.concat (repeat l ((b + List.length l - 1) / List.length l)%nat))) j = nth_error l (j mod List.length l)%nat.
Proof.
  intros A b l j NE H. assert (L : (List.length l <> 0)%nat) by (destruct l; [contradiction | discriminate]).
  pose proof (repeats_enough b (List.length l) L). rewrite nth_error_firstn_lt by assumption. apply nth_error_concat_repeat; [exact NE | lia].
Qed.

Lemma tiled_length : forall (A : Type) b (l : list A), l <> nil -> List.length (firstn b (List.concat (repeat l ((b + List.length l - 1) / List.length l)%nat))) = b.
Proof.
  intros A b l NE. assert (L : (List.length l <> 0)%nat) by (destruct l; [contradiction | discriminate]).
  pose proof (repeats_enough b (List.length l) L). rewrite firstn_length, concat_repeat_length. lia.
Qed.

Lemma adapter_lists : forall w a fs, usual a -> (fst (covered a) <= 8388608)%Q -> (snd (covered a) <= 8388608)%Q -> fs <> nil ->
  exists h v reps crops, adapter32 w a fs = Ok (reps, crops) /\
    size64 (fst (b_pb a)) (b_res a) (b_ry a) = Ok h /\ size64 (snd (b_pb a)) (b_res a) (b_rx a) = Ok v /\ count_ok h /\ count_ok v /\
    List.length reps = b_batch a /\ List.length crops = List.length fs /\
    (forall i, (i < b_batch a)%nat -> nth_error reps i = option_map (reported32 w a) (nth_error fs (i mod List.length fs)%nat)) /\
    (forall i, nth_error crops i = option_map (cropped32 w a h v) (nth_error fs i)).
Proof.
  intros w a fs ((O & OX & OY) & _ & _ & _ & (BY & BX) & _) C1 C2 NE.
  destruct (size_near _ _ _ BY O OY C1) as (h & E1 & H1 & _). destruct (size_near _ _ _ BX O OX C2) as (v' & E2 & H2 & _).
  assert (NM : map (reported32 w a) fs <> nil) by (destruct fs; [contradiction | discriminate]).
  exists h, v', (firstn (b_batch a) (List.concat (repeat (map (reported32 w a) fs) ((b_batch a + List.length (map (reported32 w a) fs) - 1) / List.length (map (reported32 w a) fs))%nat))), (map (cropped32 w a h v') fs).
  split; [unfold adapter32; rewrite E1, E2; reflexivity|]. split; [exact E1|]. split; [exact E2|]. split; [exact H1|]. split; [exact H2|].
  split; [apply tiled_length; exact NM|]. split; [apply map_length|]. split.
  - intros i I. rewrite tiled_nth by assumption. rewrite map_length. apply nth_error_map.
  - intros i. apply nth_error_map.
Qed.
