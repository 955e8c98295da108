(** The geometry of the synthetic sampler in float arithmetic. *)
From Coq Require Import List Arith ZArith QArith Qround Qreals Qabs Qminmax Bool Reals Lia Lqa Lra.
From Flocq Require Import Core IEEE754.BinarySingleNaN.
From Verif Require Import Prelude Model.Interp Model.Geometry Model.InterpFloat Model.MoveFloat Model.AdaptFloat.
From Verif Require Import Spec.GeometrySpec Spec.InterpFloatSpec Spec.MoveFloatSpec Spec.AdaptFloatSpec Spec.GeomFloatSpec.
From Verif Require Import Proofs.FloatProofs Proofs.FloatGeometry Proofs.InterpFloatProofs Proofs.InterpBinary Proofs.KernelError Proofs.AdaptFloatProofs.
Import ListNotations.
Local Open Scope R_scope.

(** * Comparisons, truncation and rounding up *)
Lemma ltb_R : forall x y a b, rep64 x a -> rep64 y b -> f64_ltb x y = true <-> a < b.
Proof.
  intros x y a b [Fx <-] [Fy <-]. unfold f64_ltb. rewrite Bcompare_correct by assumption. destruct (Rcompare_spec (B2R x) (B2R y)); split; intros L; try discriminate; try reflexivity; lra.
Qed.

Lemma rep64_0 : rep64 (f64_ofZ 0) 0.
Proof. exact (rep64_ofZ 0 ltac:(lia)). Qed.

Lemma rep64_max0 : forall x a, rep64 x a -> rep64 (max0 float64 x) (Rmax 0 a).
Proof.
  intros x a R. unfold max0. change (n_ltb float64 (n_ofZ float64 0) x) with (f64_ltb (f64_ofZ 0) x). pose proof (ltb_R _ _ _ _ rep64_0 R) as L.
  destruct (f64_ltb (f64_ofZ 0) x); [rewrite Rmax_right by (apply Rlt_le, L; reflexivity); exact R|].
  rewrite Rmax_left; [exact rep64_0|]. apply Rnot_lt_le. intros H. apply L in H. discriminate.
Qed.
Lemma rep64_min0 : forall x a, rep64 x a -> rep64 (min0 float64 x) (- Rmax 0 (- a)).
Proof.
  intros x a R. unfold min0. change (n_ltb float64 x (n_ofZ float64 0)) with (f64_ltb x (f64_ofZ 0)). pose proof (ltb_R _ _ _ _ R rep64_0) as L.
  destruct (f64_ltb x (f64_ofZ 0)).
  - rewrite Rmax_right, Ropp_involutive by (apply Rlt_le; assert (a < 0) by (apply L; reflexivity); lra). exact R.
  - rewrite Rmax_left, Ropp_0; [exact rep64_0|]. assert (0 <= a); [|lra]. apply Rnot_lt_le. intros H. apply L in H. discriminate.
Qed.
Lemma rep64_neg : forall x a, rep64 x a -> rep64 (n_neg float64 x) (- a).
Proof. intros x a [F <-]. split; [cbn; rewrite is_finite_Bopp; exact F | cbn; apply B2R_Bopp]. Qed.

Lemma Rmax0_lip : forall a b d, Rabs (a - b) <= d -> Rabs (Rmax 0 a - Rmax 0 b) <= d.
Proof. intros a b d H. apply Rabs_le_inv in H. apply Rabs_le. unfold Rmax. destruct (Rle_dec 0 a), (Rle_dec 0 b); lra. Qed.
Lemma near64_max0 : forall x t d, near64 x t d -> near64 (max0 float64 x) (Rmax 0 t) d.
Proof. intros x t d (a & R & E). exists (Rmax 0 a). split; [apply rep64_max0; exact R | apply Rmax0_lip; exact E]. Qed.
Lemma near64_neg : forall x t d, near64 x t d -> near64 (n_neg float64 x) (- t) d.
Proof. intros x t d (a & R & E). exists (- a). split; [apply rep64_neg; exact R|]. replace (- a - - t) with (- (a - t)) by ring. rewrite Rabs_Ropp. exact E. Qed.
Lemma near64_div : forall B x y a b, 1 <= B <= bpow radix2 70 -> rep64 x a -> rep64 y b -> b <> 0 -> Rabs (a / b) <= B ->
  near64 (div64 x y) (a / b) (2 * (v * B)).
Proof.
  intros B x y a b HB RX RY NZ AB. destruct (round_near B (a / b) (a / b) 0 HB AB) as [F E]; [rewrite Rminus_diag_eq, Rabs_R0 by reflexivity; lra | lra|].
  exists (rn64 (a / b)). split; [apply rep64_div; assumption | lra].
Qed.
(** A product with an exact factor. *)
Lemma near64_times : forall P x y t d b, 1 <= P <= bpow radix2 70 -> near64 x t d -> rep64 y b -> 0 <= b -> Rabs (t * b) <= P -> d * b <= P / 2 ->
  near64 (mul64 x y) (t * b) (d * b + 2 * (v * P)).
Proof.
  intros P x y t d b HP (a & R & E) RY B0 T D. assert (D' : Rabs (a * b - t * b) <= d * b).
  { rewrite <- Rmult_minus_distr_r, Rabs_mult, (Rabs_pos_eq b) by exact B0. apply Rmult_le_compat_r; assumption. }
  destruct (round_near P _ _ _ HP T D' D) as [F E']. exists (rn64 (a * b)). split; [apply rep64_mul; assumption | exact E'].
Qed.

Lemma int_R : forall x a z, rep64 x a -> -1 < a -> int float64 x = Ok z -> (0 <= z)%Z /\ IZR z <= Rmax 0 a /\ a < IZR z + 1.
Proof.
  intros x a z [F E] A I. unfold int in I. cbn [float64 n_trunc] in I. destruct (f_val_R x F) as (q & V & Q). rewrite V in I. cbn [option_map] in I. injection I as <-. rewrite E in Q.
  unfold Qtrunc. destruct (Qle_bool 0 q) eqn:S.
  - apply Qle_bool_iff in S. apply Qle_Rle in S. rewrite Q2R_0, Q in S. rewrite <- floor_Q2R, Q. pose proof (Zfloor_lb a). pose proof (Zfloor_ub a).
    rewrite Rmax_right by exact S. split; [apply Zfloor_lub; exact S | split; lra].
  - assert (N : (q < 0)%Q) by (apply Qnot_le_lt; intros H; apply Qle_bool_iff in H; rewrite H in S; discriminate). apply Qlt_Rlt in N. rewrite Q2R_0, Q in N.
    assert (C : Qceiling q = 0%Z).
    { unfold Qceiling. rewrite <- floor_Q2R, Q2R_opp, Q. assert (Zfloor (- a) = 0%Z); [|lia]. apply Zfloor_imp. cbn. lra. }
    rewrite C, Rmax_left by lra. split; [lia | split; lra].
Qed.

(** * One axis *)
Section Axis.
Variables (res dt off mx mn psz : f64) (N : Z) (more : bool).
Variables (rho S DT OFF MX MN PS : R).
Hypothesis RES : rep64 res rho.
Hypothesis RHO : bpow radix2 (-20) <= rho <= bpow radix2 20.
Hypothesis RDT : rep64 dt DT.
Hypothesis ROFF : rep64 off OFF.
Hypothesis RMX : rep64 mx MX.
Hypothesis RMN : rep64 mn (- MN).
Hypothesis MX0 : 0 <= MX.
Hypothesis MN0 : 0 <= MN.
Hypothesis DT0 : 0 <= DT.
Hypothesis SS : 0 < S <= 524288.
Hypothesis OS : 0 <= OFF <= S.
Hypothesis XS : MX * DT <= S.
Hypothesis NS : MN * DT <= S.
Hypothesis ZN : (0 <= N < 2 ^ 53)%Z.
Hypothesis IS : IZR N / rho <= S.
Let B : R := 4 * S + 1.
Hypothesis NPS : near64 psz PS (2 * (v * B)).
Hypothesis PSS : 0 <= PS <= S.

Let A := mul64 mx dt.
Let D := mul64 mn dt.
Let pbo := sub64 off A.
Let pb := sub64 (add64 (div64 (f64_ofZ N) res) A) D.
Let ext := max0 float64 (sub64 psz A).
Let pbo' := if more then sub64 pbo ext else pbo.
Let pb' := if more then add64 pb ext else pb.
Let E : R := if more then Rmax 0 (PS - MX * DT) else 0.
Let P : R := B * rho + 1.

Lemma B_range : 1 <= B <= bpow radix2 70.
Proof.
  unfold B. split; [lra|]. apply Rle_trans with (bpow radix2 22); [change (bpow radix2 22) with 4194304; lra | apply bpow_le; lia].
Qed.
Lemma vB_small : 0 < v * B <= / 1000000 * B.
Proof. assert (0 < B) by (unfold B; lra). split; [apply Rmult_lt_0_compat; [unfold v; lra | assumption] | apply Rmult_le_compat_r; [lra | unfold v; lra]]. Qed.
Lemma rho_pos : 0 < rho.
Proof. pose proof (bpow_gt_0 radix2 (-20)). lra. Qed.
Lemma E_range : 0 <= E <= S.
Proof.
  unfold E. destruct more; [|lra]. assert (0 <= MX * DT) by (apply Rmult_le_pos; assumption). unfold Rmax. destruct (Rle_dec 0 (PS - MX * DT)); lra.
Qed.

Lemma quotient_pos : 0 <= IZR N / rho.
Proof. pose proof rho_pos. apply Rmult_le_pos; [apply (IZR_le 0); lia | apply Rlt_le, Rinv_0_lt_compat; assumption]. Qed.

Lemma axis_lengths : near64 pbo (OFF - MX * DT) (4 * (v * B)) /\ near64 pb (IZR N / rho + MX * DT + MN * DT) (10 * (v * B)) /\
  near64 pbo' (OFF - MX * DT - E) (12 * (v * B)) /\ near64 pb' (IZR N / rho + MX * DT + MN * DT + E) (18 * (v * B)).
Proof.
  pose proof B_range as HB. pose proof vB_small as VB. pose proof rho_pos as RP. pose proof quotient_pos as QP.
  assert (XP : 0 <= MX * DT) by (apply Rmult_le_pos; assumption). assert (NP : 0 <= MN * DT) by (apply Rmult_le_pos; assumption).
  assert (AB : forall t k, - k <= t <= k -> k <= B -> Rabs t <= B) by (intros t k H1 H2; apply Rabs_le; lra).
  assert (NA : near64 A (MX * DT) (2 * (v * B))) by (apply near64_mul; try assumption; apply (AB _ S); unfold B; lra).
  assert (ND : near64 D (- (MN * DT)) (2 * (v * B))) by (replace (- (MN * DT)) with (- MN * DT) by ring; apply near64_mul; try assumption; apply (AB _ S); unfold B; lra).
  assert (NB : near64 pbo (OFF - MX * DT) (4 * (v * B))).
  { eapply near64_weak; [apply (near64_sub B off A OFF (MX * DT) 0 (2 * (v * B)) HB); [exists OFF; split; [exact ROFF | rewrite Rminus_diag_eq, Rabs_R0 by reflexivity; lra] | exact NA | apply (AB _ S); unfold B; lra | lra] | lra]. }
  assert (NQ : near64 (div64 (f64_ofZ N) res) (IZR N / rho) (2 * (v * B))) by (apply near64_div; [exact HB | apply rep64_ofZ; lia | exact RES | lra | apply (AB _ S); unfold B; lra]).
  assert (NP1 : near64 (add64 (div64 (f64_ofZ N) res) A) (IZR N / rho + MX * DT) (6 * (v * B))).
  { eapply near64_weak; [apply (near64_add B _ _ _ _ _ _ HB NQ NA); [apply (AB _ (2 * S)); unfold B; lra | lra] | lra]. }
  assert (NP2 : near64 pb (IZR N / rho + MX * DT + MN * DT) (10 * (v * B))).
  { replace (IZR N / rho + MX * DT + MN * DT) with (IZR N / rho + MX * DT - - (MN * DT)) by ring.
    eapply near64_weak; [apply (near64_sub B _ _ _ _ _ _ HB NP1 ND); [apply (AB _ (3 * S)); unfold B; lra | lra] | lra]. }
  split; [exact NB|]. split; [exact NP2|].
  assert (NE : near64 ext (Rmax 0 (PS - MX * DT)) (6 * (v * B))).
  { apply near64_max0. eapply near64_weak; [apply (near64_sub B _ _ _ _ _ _ HB NPS NA); [apply (AB _ S); unfold B; lra | lra] | lra]. }
  pose proof E_range as ER. unfold pbo', pb', E in *. destruct more.
  - split.
    + eapply near64_weak; [apply (near64_sub B _ _ _ _ _ _ HB NB NE); [apply (AB _ (2 * S)); unfold B; lra | lra] | lra].
    + eapply near64_weak; [apply (near64_add B _ _ _ _ _ _ HB NP2 NE); [apply (AB _ (4 * S)); unfold B; lra | lra] | lra].
  - rewrite Rminus_0_r, Rplus_0_r. split; (eapply near64_weak; [eassumption | lra]).
Qed.

Lemma P_range : 1 <= P <= bpow radix2 70.
Proof.
  pose proof rho_pos as RP. unfold P, B. assert (0 <= (4 * S + 1) * rho) by (apply Rmult_le_pos; lra). split; [lra|].
  apply Rle_trans with ((4 * 524288 + 1) * bpow radix2 20 + 1); [apply Rplus_le_compat_r; apply Rmult_le_compat; lra|].
  apply Rle_trans with (bpow radix2 42); [rewrite p20; change (bpow radix2 42) with 4398046511104; lra | apply bpow_le; lia].
Qed.

Lemma axis_pixels : near64 (mul64 (sub64 off pbo') res) ((MX * DT + E) * rho) (16 * (v * P)) /\
  near64 (mul64 pb' res) ((IZR N / rho + MX * DT + MN * DT + E) * rho) (20 * (v * P)).
Proof.
  pose proof B_range as HB. pose proof vB_small as VB. pose proof rho_pos as RP. pose proof quotient_pos as QP. pose proof P_range as HP. pose proof E_range as ER.
  assert (XP : 0 <= MX * DT) by (apply Rmult_le_pos; assumption). assert (NP : 0 <= MN * DT) by (apply Rmult_le_pos; assumption).
  destruct axis_lengths as (_ & _ & L1 & L2).
  assert (VP : v * B * rho <= v * P) by (rewrite Rmult_assoc; apply Rmult_le_compat_l; [unfold v; lra | unfold P; lra]).
  assert (VS : v * P <= / 1000 * P) by (apply Rmult_le_compat_r; [lra | unfold v; lra]).
  assert (AB : forall t, 0 <= t <= B -> Rabs (t * rho) <= P).
  { intros t [T0 T1]. rewrite Rabs_pos_eq by (apply Rmult_le_pos; lra). assert (t * rho <= B * rho) by (apply Rmult_le_compat_r; lra). unfold P. lra. }
  assert (LO : near64 (sub64 off pbo') (MX * DT + E) (14 * (v * B))).
  { replace (MX * DT + E) with (OFF - (OFF - MX * DT - E)) by ring.
    eapply near64_weak; [apply (near64_sub B off pbo' OFF (OFF - MX * DT - E) 0 (12 * (v * B)) HB); [exists OFF; split; [exact ROFF | rewrite Rminus_diag_eq, Rabs_R0 by reflexivity; lra] | exact L1 | apply Rabs_le; unfold B; lra | lra] | lra]. }
  split.
  - eapply near64_weak; [apply (near64_times P _ _ _ _ _ HP LO RES); [lra | apply AB; unfold B; lra | lra] | lra].
  - eapply near64_weak; [apply (near64_times P _ _ _ _ _ HP L2 RES); [lra | apply AB; unfold B; lra | lra] | lra].
Qed.
End Axis.

(** * The constructor *)
Definition ax_pbo (c : gcfg float64) (y : bool) : f64 := sub64 (sel y (g_off c)) (mul64 (max0 float64 (sel y (g_max c))) (g_dt c)).
Definition ax_pb (c : gcfg float64) (y : bool) : f64 :=
  sub64 (add64 (div64 (f64_ofZ (sel y (g_image c))) (g_res c)) (mul64 (max0 float64 (sel y (g_max c))) (g_dt c))) (mul64 (min0 float64 (sel y (g_min c))) (g_dt c)).
Definition ax_ext (c : gcfg float64) (radius : Z) (y : bool) : f64 :=
  max0 float64 (sub64 (div64 (f64_ofZ (2 * radius + 1)) (g_res c)) (mul64 (max0 float64 (sel y (g_max c))) (g_dt c))).

Lemma construct_axes : forall c g, construct float64 c = Ok g -> exists radius more,
  int float64 (div64 (mul64 (f64_ofZ 3) (g_maxd c)) (f64_ofZ 2)) = Ok radius /\
  forall y,
    let pbo' := if more : bool then sub64 (ax_pbo c y) (ax_ext c radius y) else ax_pbo c y in
    let pb' := if more then add64 (ax_pb c y) (ax_ext c radius y) else ax_pb c y in
    sel y (o_res g) = div64 (f64_ofZ (sel y (g_ffshape c))) (sel y (g_ffsize c)) /\
    int float64 (mul64 (f64_ofZ (sel y (g_image c))) (g_vpp c)) = Ok (sel y (o_out g)) /\
    sel y (o_pbo g) = max0 float64 pbo' /\
    int float64 (mul64 (sub64 (sel y (g_off c)) pbo') (g_res c)) = Ok (sel y (o_off g)) /\
    int float64 (mul64 pb' (g_res c)) = Ok (sel y (o_pb g)) /\
    ceil float64 (mul64 (max0 float64 (n_neg float64 pbo')) (sel y (o_res g))) = Ok (sel y (o_pad g)).
Proof.
  intros c g H. unfold construct in H.
  destruct (negb _) in H; [discriminate|]. destruct (negb _) in H; [discriminate|].
  destruct (negb _) in H; [discriminate|]. destruct (negb _) in H; [discriminate|].
  apply bind_ok in H. destruct H as (out_y & Hy & H). apply bind_ok in H. destruct H as (out_x & Hx & H).
  destruct (n_ltb float64 (snd (g_max c)) (snd (g_min c))) in H; [discriminate|].
  destruct (n_ltb float64 (fst (g_max c)) (fst (g_min c))) in H; [discriminate|].
  cbv zeta in H.
  destruct (orb _ _) in H; [discriminate|]. destruct (orb _ _) in H; [discriminate|].
  apply bind_ok in H. destruct H as (radius & Hr & H). set (more := (g_hide c && _)%bool) in H.
  apply bind_ok in H. destruct H as (pad_y & Hdy & H). apply bind_ok in H. destruct H as (pad_x & Hdx & H).
  apply bind_ok in H. destruct H as (off_y & Hoy & H). apply bind_ok in H. destruct H as (off_x & Hox & H).
  apply bind_ok in H. destruct H as (pb_y & Hpy & H). apply bind_ok in H. destruct H as (pb_x & Hpx & H).
  injection H as <-. clearbody more. exists radius, more. split; [exact Hr|].
  intros [|]; cbn [sel fst snd o_res o_out o_pbo o_off o_pb o_pad]; cbv zeta.
  - split; [reflexivity|]. split; [exact Hy|]. split; [destruct more; reflexivity|]. split; [destruct more; exact Hoy|]. split; [destruct more; exact Hpy | destruct more; exact Hdy].
  - split; [reflexivity|]. split; [exact Hx|]. split; [destruct more; reflexivity|]. split; [destruct more; exact Hox|]. split; [destruct more; exact Hpx | destruct more; exact Hdx].
Qed.

Lemma ceil_R : forall x t d z, near32 (to_f32 x) t d -> ceil float64 x = Ok z -> IZR z - 1 - d < t <= IZR z + d.
Proof.
  intros x t d z (a & [F V] & E) C. unfold ceil in C. cbn [float64 n_ceil] in C.
  destruct (f_val (to_f32 x)) as [q|] eqn:EQ; [|discriminate]. cbn [option_map] in C. injection C as <-.
  assert (QA : Q2R q = a). { pose proof (value_R (to_f32 x) F) as VR. unfold value in VR. rewrite EQ in VR. rewrite VR. exact V. }
  pose proof (Zfloor_lb (Q2R (- q))) as L. pose proof (Zfloor_ub (Q2R (- q))) as U. rewrite floor_Q2R in L, U. rewrite Q2R_opp, QA in L, U.
  unfold Qceiling. rewrite opp_IZR. apply Rabs_le_inv in E. lra.
Qed.

Lemma Q2R_max0 : forall q, Q2R (Qmax 0 q) = Rmax 0 (Q2R q).
Proof.
  intros q. destruct (Q.max_spec 0 q) as [[L E]|[L E]]; rewrite (Qeq_eqR _ _ E).
  - rewrite Rmax_right; [reflexivity|]. apply Qlt_Rlt in L. rewrite Q2R_0 in L. lra.
  - rewrite Rmax_left; [apply Q2R_0|]. apply Qle_Rle in L. rewrite Q2R_0 in L. exact L.
Qed.

Section Geometry.
Variables (c : gcfg float64) (g : geom float64).
Hypothesis PL : plausible c.
Hypothesis CO : construct float64 c = Ok g.

Let rho : R := Q2R (double (g_res c)).
Let S (y : bool) : R := Q2R (double (sel y (g_ffsize c))).
Let r (y : bool) : R := Q2R (double (sel y (o_res g))).
Let U (y : bool) : R := Q2R (upstream y c).
Let D (y : bool) : R := Q2R (downstream y c).
Let OFF (y : bool) : R := Q2R (double (sel y (g_off c))).
Let N (y : bool) : R := IZR (sel y (g_image c)).
Let SH (y : bool) : R := IZR (sel y (g_ffshape c)).

Lemma res_R : rep64 (g_res c) rho /\ bpow radix2 (-20) <= rho <= bpow radix2 20.
Proof. destruct PL as (O & _). exact (ordinary_R _ O). Qed.

Lemma axis_reals : forall y, 0 < S y <= 524288 /\ S y * rho <= 2097152 /\ / 1048576 <= SH y / S y <= 1048576 /\ 1 <= SH y <= 1048576 /\ 2 <= N y /\
  0 <= OFF y <= S y /\ 0 <= U y <= S y /\ 0 <= D y <= S y /\ 0 < N y / rho <= S y /\ (3 * Q2R (double (g_maxd c)) + 2) / rho <= S y /\
  1 <= N y * Q2R (double (g_vpp c)) <= 8388608.
Proof.
  intros y. destruct res_R as [_ [R0 _]]. assert (RP : 0 < rho) by (pose proof (bpow_gt_0 radix2 (-20)); lra).
  destruct PL as (O & (_ & T0 & _) & _ & _ & AX). destruct (AX y) as (_ & I2 & (H1 & H2) & ((S0 & S1) & S2 & S3 & S4) & (O0 & O1) & UP & DN & IS & PS & V1 & V2).
  assert (NZ : forall q : Q, 0 < Q2R q -> ~ (q == 0)%Q) by (intros q H E; rewrite (Qeq_eqR _ _ E), Q2R_0 in H; lra).
  assert (RN : ~ (double (g_res c) == 0)%Q) by (apply NZ; exact RP).
  apply Qlt_Rlt in S0. rewrite Q2R_0 in S0. fold (S y) in S0. assert (SN : ~ (double (sel y (g_ffsize c)) == 0)%Q) by (apply NZ; exact S0).
  apply Qle_Rle in S1, S2, S3, S4, O0, O1, UP, DN, IS, PS, V1, V2, T0. rewrite Q2R_0 in O0, T0.
  change 524288%Q with (inject_Z 524288) in S1. change 2097152%Q with (inject_Z 2097152) in S2. change 1048576%Q with (inject_Z 1048576) in S4. change 8388608%Q with (inject_Z 8388608) in V2. change 1%Q with (inject_Z 1) in V1.
  assert (TW : Q2R (1 # 1048576) = / 1048576) by (unfold Q2R; cbn [Qnum Qden]; lra). rewrite TW in S3.
  rewrite Q2R_mult in S2, V1, V2. rewrite Q2R_div in S3, S4 by exact SN. rewrite Q2R_div in IS, PS by exact RN. rewrite Q2R_plus, Q2R_mult in PS.
  assert (E3 : Q2R 3 = 3) by exact (Q2R_Z 3). assert (E2 : Q2R 2 = 2) by exact (Q2R_Z 2). rewrite E3, E2 in PS. rewrite !Q2R_Z in *.
  fold rho in S2, IS, PS. fold (S y) in S1, S2, S3, S4, O1, UP, DN, IS, PS. fold (OFF y) in O0, O1. fold (U y) in UP. fold (D y) in DN. fold (N y) in IS, V1, V2. fold (SH y) in S3, S4.
  assert (N2 : 2 <= N y) by (apply (IZR_le 2); exact I2).
  assert (U0 : 0 <= U y) by (unfold U, upstream; rewrite Q2R_mult, Q2R_max0; apply Rmult_le_pos; [apply Rmax_l | exact T0]).
  assert (D0 : 0 <= D y) by (unfold D, downstream; rewrite Q2R_mult, Q2R_max0; apply Rmult_le_pos; [apply Rmax_l | exact T0]).
  assert (NR : 0 < N y / rho) by (apply Rdiv_lt_0_compat; lra).
  assert (H1' : 1 <= SH y) by (apply (IZR_le 1); exact H1). assert (H2' : SH y <= 1048576) by (apply (IZR_le _ 1048576); exact H2).
  repeat split; assumption.
Qed.

Lemma steps_R : forall y, rep64 (sel y (o_res g)) (r y) /\ / 1048576 <= r y <= 1048576 /\ SH y - / 1073741824 <= S y * r y <= SH y + / 1073741824.
Proof.
  intros y. destruct (axis_reals y) as (S0 & _ & QR & H1 & _). destruct PL as (_ & _ & _ & _ & AX). destruct (AX y) as ((_ & FS & _) & _ & (H1' & H2') & _).
  destruct (construct_axes c g CO) as (radius & more & _ & CA). destruct (CA y) as (ER & _).
  pose proof (rep64_double _ FS) as RS. fold (S y) in RS.
  assert (IN : bpow radix2 (-20) <= rn64 (SH y / S y) <= bpow radix2 20).
  { split.
    - apply round_ge_generic; [apply fexp_correct; reflexivity | apply valid_rnd_round_mode | apply (generic_format_bpow radix2 (FLT_exp (-1074) 53)); unfold FLT_exp; lia | rewrite m20; apply QR].
    - apply round_le_generic; [apply fexp_correct; reflexivity | apply valid_rnd_round_mode | apply (generic_format_bpow radix2 (FLT_exp (-1074) 53)); unfold FLT_exp; lia | rewrite p20; apply QR]. }
  assert (RR : rep64 (sel y (o_res g)) (rn64 (SH y / S y))).
  { rewrite ER. apply rep64_div; [apply rep64_ofZ; lia | exact RS | lra|]. apply big_fits. rewrite p20, m20 in IN. rewrite Rabs_pos_eq by lra. apply Rle_trans with (bpow radix2 20); [rewrite p20; lra | apply bpow_le; lia]. }
  assert (EQ : r y = rn64 (SH y / S y)). { unfold r. rewrite double_R by apply RR. apply RR. }
  rewrite EQ. split; [exact RR|]. rewrite p20, m20 in IN. split; [exact IN|].
  pose proof (rn64_pos (SH y / S y)) as E. assert (T : SH y / S y = 0 \/ bpow radix2 (-1000) <= SH y / S y).
  { right. apply Rle_trans with (bpow radix2 (-20)); [apply bpow_le; lia | rewrite m20; lra]. }
  specialize (E T). apply Rabs_le_inv in E. set (t := SH y / S y) in *. assert (ST : S y * t = SH y) by (unfold t; field; lra).
  assert (E1 : S y * (rn64 t - t) <= S y * (v * t)) by (apply Rmult_le_compat_l; lra). assert (E2 : S y * (- (v * t)) <= S y * (rn64 t - t)) by (apply Rmult_le_compat_l; lra).
  assert (VS : S y * (v * t) = v * SH y) by (rewrite <- ST; ring). assert (v * SH y <= / 1073741824) by (apply Rle_trans with (v * 1048576); [apply Rmult_le_compat_l; [unfold v; lra | lra] | unfold v; lra]).
  lra.
Qed.

(** Everything about one axis, up to rounding. *)
Lemma axis_facts : forall y, exists E, 0 <= E <= S y /\ E * rho <= 3 * Q2R (double (g_maxd c)) + 2 /\
  (0 <= sel y (o_off g))%Z /\ (U y + E) * rho - 1 - bpow radix2 (-24) < IZR (sel y (o_off g)) <= (U y + E) * rho + bpow radix2 (-24) /\
  N y + (U y + D y + E) * rho - 1 - bpow radix2 (-24) < IZR (sel y (o_pb g)) <= N y + (U y + D y + E) * rho + bpow radix2 (-24) /\
  is_finite (sel y (o_pbo g)) = true /\ 0 <= Q2R (double (sel y (o_pbo g))) /\
  Rabs (Q2R (double (sel y (o_pbo g))) - Rmax 0 (OFF y - U y - E)) <= 12 * (v * (4 * S y + 1)) /\
  (0 <= sel y (o_pad g))%Z /\ IZR (sel y (o_pad g)) - 1 - / 3 < Rmax 0 (- (OFF y - U y - E)) * r y <= IZR (sel y (o_pad g)) + / 3.
Proof.
  intros y. destruct res_R as [RES RHO]. assert (RP : 0 < rho) by (pose proof (bpow_gt_0 radix2 (-20)); lra).
  destruct (axis_reals y) as (S0 & S2 & QR & HS & N2 & OS & US & DS & NR & PS & V12). destruct (steps_R y) as (RR & R2 & SR).
  destruct PL as (O & (FT & T0 & T1) & (FD & MD) & FV & AX). destruct (AX y) as ((FO & FS & FM & FN) & _).
  destruct (construct_axes c g CO) as (radius & more & HR & CA). destruct (CA y) as (_ & _ & EB & EO & EP & ED).
  assert (VV : 0 < v <= / 1000000) by (unfold v; lra).
  (* the patch *)
  assert (PR : (0 <= radius)%Z /\ IZR (2 * radius + 1) <= 3 * Q2R (double (g_maxd c)) + 2).
  { destruct MD as [M0 M1]. apply Qle_Rle in M0, M1. change 65536%Q with (inject_Z 65536) in M1. rewrite Q2R_0 in M0. rewrite Q2R_Z in M1. set (m := Q2R (double (g_maxd c))) in *.
    assert (B18 : 1 <= 262144 <= bpow radix2 70) by (split; [lra|]; apply Rle_trans with (bpow radix2 18); [change (bpow radix2 18) with 262144; lra | apply bpow_le; lia]).
    destruct (near64_mul 262144 (f64_ofZ 3) (g_maxd c) 3 m B18 (rep64_ofZ 3 ltac:(lia)) (rep64_double _ FD)) as (a & RA & EA); [rewrite Rabs_pos_eq; lra|].
    apply Rabs_le_inv in EA. unfold v in EA.
    destruct (near64_div 262144 _ (f64_ofZ 2) a 2 B18 RA (rep64_ofZ 2 ltac:(lia)) ltac:(lra)) as (b & RB & EB'); [apply Rabs_le; lra|].
    apply Rabs_le_inv in EB'. unfold v in EB'. destruct (int_R _ b radius RB ltac:(lra) HR) as (Z0 & ZB & _). split; [exact Z0|].
    rewrite plus_IZR, mult_IZR. assert (Rmax 0 b <= 3 * m / 2 + / 10) by (apply Rmax_lub; lra). lra. }
  destruct PR as [PR0 PR1].
  assert (PSR : 0 <= IZR (2 * radius + 1) / rho <= S y).
  { split; [apply Rmult_le_pos; [apply (IZR_le 0); lia | apply Rlt_le, Rinv_0_lt_compat; exact RP]|].
    eapply Rle_trans; [|exact PS]. apply Rmult_le_compat_r; [apply Rlt_le, Rinv_0_lt_compat; exact RP | exact PR1]. }
  assert (HB : 1 <= 4 * S y + 1 <= bpow radix2 70) by (apply B_range; exact S0).
  assert (NPS : near64 (div64 (f64_ofZ (2 * radius + 1)) (g_res c)) (IZR (2 * radius + 1) / rho) (2 * (v * (4 * S y + 1)))).
  { apply near64_div; [exact HB | apply rep64_ofZ | exact RES | lra | rewrite Rabs_pos_eq; lra].
    assert (K : IZR (2 * radius + 1) <= 2097152). { apply Rle_trans with (S y * rho); [|lra]. apply (Rmult_le_reg_r (/ rho)); [apply Rinv_0_lt_compat; exact RP|]. unfold Rdiv in PSR. rewrite (Rmult_assoc (S y)), Rinv_r, Rmult_1_r by lra. apply PSR. }
    apply (le_IZR _ 2097152) in K. lia. }
  set (MX := Rmax 0 (Q2R (double (sel y (g_max c))))). set (MN := Rmax 0 (- Q2R (double (sel y (g_min c))))). set (DT := Q2R (double (g_dt c))).
  assert (EU : U y = MX * DT) by (unfold U, upstream; rewrite Q2R_mult, Q2R_max0; reflexivity).
  assert (EDn : D y = MN * DT) by (unfold D, downstream; rewrite Q2R_mult, Q2R_max0, Q2R_opp; reflexivity).
  apply Qle_Rle in T0. rewrite Q2R_0 in T0.
  assert (ZN : (0 <= sel y (g_image c) < 2 ^ 53)%Z).
  { split; [apply le_IZR; fold (N y); lra|]. assert (K : N y <= 2097152). { apply Rle_trans with (S y * rho); [|lra]. apply (Rmult_le_reg_r (/ rho)); [apply Rinv_0_lt_compat; exact RP|]. unfold Rdiv in NR. rewrite (Rmult_assoc (S y)), Rinv_r, Rmult_1_r by lra. apply NR. }
    apply (le_IZR _ 2097152) in K. lia. }
  pose proof (axis_lengths (g_res c) (g_dt c) (sel y (g_off c)) (max0 float64 (sel y (g_max c))) (min0 float64 (sel y (g_min c))) (div64 (f64_ofZ (2 * radius + 1)) (g_res c)) (sel y (g_image c)) more
    rho (S y) DT (OFF y) MX MN (IZR (2 * radius + 1) / rho) RES RHO (rep64_double _ FT) (rep64_double _ FO) (rep64_max0 _ _ (rep64_double _ FM)) (rep64_min0 _ _ (rep64_double _ FN)) (Rmax_l _ _) (Rmax_l _ _) T0 S0 OS
    ltac:(lra) ltac:(lra) ZN (proj2 NR) NPS PSR) as (_ & _ & L1 & _).
  pose proof (axis_pixels (g_res c) (g_dt c) (sel y (g_off c)) (max0 float64 (sel y (g_max c))) (min0 float64 (sel y (g_min c))) (div64 (f64_ofZ (2 * radius + 1)) (g_res c)) (sel y (g_image c)) more
    rho (S y) DT (OFF y) MX MN (IZR (2 * radius + 1) / rho) RES RHO (rep64_double _ FT) (rep64_double _ FO) (rep64_max0 _ _ (rep64_double _ FM)) (rep64_min0 _ _ (rep64_double _ FN)) (Rmax_l _ _) (Rmax_l _ _) T0 S0 OS
    ltac:(lra) ltac:(lra) ZN (proj2 NR) NPS PSR) as [(ao & RO & AO) (ap & RAP & AP)].
  pose proof (E_range (g_res c) (g_res c) (g_res c) (g_res c) (g_res c) (g_res c) 0 more (S y) DT MX (IZR (2 * radius + 1) / rho) (Rmax_l _ _) T0 S0 PSR) as ER.
  set (E := if more then Rmax 0 (IZR (2 * radius + 1) / rho - MX * DT) else 0) in *.
  assert (ERM : E * rho <= 3 * Q2R (double (g_maxd c)) + 2).
  { apply Rle_trans with (IZR (2 * radius + 1) / rho * rho); [apply Rmult_le_compat_r; [lra|] | replace (IZR (2 * radius + 1) / rho * rho) with (IZR (2 * radius + 1)) by (field; lra); exact PR1].
    unfold E. destruct more; [apply Rmax_lub; lra | lra]. }
  rewrite <- EU, <- ?EDn in *. clearbody E. exists E. split; [exact ER|]. split; [exact ERM|].
  assert (PB : v * ((4 * S y + 1) * rho + 1) <= / 536870912).
  { apply Rle_trans with (v * (4 * 2097152 + 1048576 + 1)); [|unfold v; lra]. apply Rmult_le_compat_l; [lra|]. rewrite p20 in RHO. rewrite Rmult_plus_distr_r, Rmult_assoc. lra. }
  assert (M24 : bpow radix2 (-24) = / 16777216) by reflexivity. rewrite M24.
  apply Rabs_le_inv in AO, AP.
  assert (UE : 0 <= (U y + E) * rho) by (apply Rmult_le_pos; lra). assert (UDE : 0 <= (U y + D y + E) * rho) by (apply Rmult_le_pos; lra).
  assert (NE : (IZR (sel y (g_image c)) / rho + U y + D y + E) * rho = N y + (U y + D y + E) * rho) by (unfold N; field; lra). rewrite NE in AP.
  destruct (int_R _ ao _ RO ltac:(lra) EO) as (Z0 & ZL & ZU). split; [exact Z0|].
  split. { split; [lra|]. eapply Rle_trans; [exact ZL|]. apply Rmax_lub; lra. }
  destruct (int_R _ ap _ RAP ltac:(lra) EP) as (Z0' & ZL' & ZU').
  split. { split; [lra|]. eapply Rle_trans; [exact ZL'|]. apply Rmax_lub; lra. }
  destruct L1 as (al & RL & AL). pose proof (rep64_max0 _ _ RL) as RAB. unfold ax_pbo, ax_ext in EB, ED. rewrite EB. split; [apply RAB|]. rewrite double_R by apply RAB.
  rewrite (proj2 RAB). split; [apply Rmax_l|]. split; [apply Rmax0_lip; exact AL|].
  set (T := OFF y - U y - E) in *. assert (TA : Rmax 0 (- T) <= 2 * S y) by (unfold T, Rmax; destruct (Rle_dec 0 _); lra). pose proof (Rmax_l 0 (- T)) as T0'.
  set (P2 := (4 * S y + 1) * r y + 1). assert (SR0 : 0 <= S y * r y) by (apply Rmult_le_pos; lra).
  assert (EP2 : P2 = 4 * (S y * r y) + r y + 1) by (unfold P2; ring).
  assert (HP2 : 1 <= P2 <= 5242890) by (rewrite EP2; lra).
  assert (HP2' : 1 <= P2 <= bpow radix2 70). { split; [lra|]. apply Rle_trans with (bpow radix2 23); [change (bpow radix2 23) with 8388608; lra | apply bpow_le; lia]. }
  assert (TR : 0 <= Rmax 0 (- T) * r y <= P2). { split; [apply Rmult_le_pos; lra|]. apply Rle_trans with (2 * S y * r y); [apply Rmult_le_compat_r; lra | rewrite EP2; lra]. }
  assert (VR : 12 * (v * (4 * S y + 1)) * r y <= 12 * (v * P2)).
  { replace (12 * (v * (4 * S y + 1)) * r y) with (12 * (v * ((4 * S y + 1) * r y))) by ring. apply Rmult_le_compat_l; [lra|]. apply Rmult_le_compat_l; [lra|]. unfold P2. lra. }
  assert (VP : 0 < v * P2 <= / 1000000 * P2) by (split; [apply Rmult_lt_0_compat; lra | apply Rmult_le_compat_r; lra]).
  assert (NZ : near64 (mul64 (max0 float64 (n_neg float64 (if more then sub64 (sub64 (sel y (g_off c)) (mul64 (max0 float64 (sel y (g_max c))) (g_dt c)))
     (max0 float64 (sub64 (div64 (f64_ofZ (2 * radius + 1)) (g_res c)) (mul64 (max0 float64 (sel y (g_max c))) (g_dt c))))
     else sub64 (sel y (g_off c)) (mul64 (max0 float64 (sel y (g_max c))) (g_dt c))))) (sel y (o_res g))) (Rmax 0 (- T) * r y) (16 * (v * P2))).
  { eapply near64_weak; [apply (near64_times P2 _ _ _ (12 * (v * (4 * S y + 1))) _ HP2' (near64_max0 _ _ _ (near64_neg _ _ _ (ex_intro _ al (conj RL AL)))) RR); [lra | rewrite Rabs_pos_eq; apply TR | lra] | lra]. }
  pose proof (narrow_near P2 _ _ HP2' NZ) as NN. rewrite Rabs_pos_eq in NN by apply TR. specialize (NN (proj2 TR)).
  pose proof (ceil_R _ _ _ _ NN ED) as CR. assert (UP : 101 / 100 * (u * P2) <= / 3) by (unfold u; lra). split; [|lra].
  assert (K : -1 < IZR (sel y (o_pad g))) by lra. apply (lt_IZR (-1)) in K. lia.
Qed.

(** The area and the place of the image in it. *)
Lemma geom_margins : forall y,
  (0 <= sel y (o_off g))%Z /\ (sel y (o_off g) + sel y (g_image c) <= sel y (o_pb g) + 1)%Z /\
  U y * rho - (1 + / 1048576) < IZR (sel y (o_off g)) /\ D y * rho - (1 + / 1048576) < IZR (sel y (o_pb g) - sel y (o_off g) - sel y (g_image c)) /\
  IZR (sel y (o_pb g)) <= N y + (U y + D y) * rho + 3 * Q2R (double (g_maxd c)) + 3.
Proof.
  intros y. destruct (axis_facts y) as (E & ES & ERM & O0 & [OL OU] & [PL1 PU] & _). destruct (axis_reals y) as (_ & _ & _ & _ & _ & _ & US & DS & _).
  destruct res_R as [_ RHO]. assert (RP : 0 < rho) by (pose proof (bpow_gt_0 radix2 (-20)); lra).
  assert (M24 : bpow radix2 (-24) = / 16777216) by reflexivity. rewrite M24 in *.
  assert (E0 : 0 <= E * rho) by (apply Rmult_le_pos; lra). assert (D0 : 0 <= D y * rho) by (apply Rmult_le_pos; lra).
  rewrite !Rmult_plus_distr_r in *.
  assert (K : IZR (sel y (o_off g) + sel y (g_image c)) < IZR (sel y (o_pb g) + 2)) by (rewrite !plus_IZR; fold (N y); lra).
  apply lt_IZR in K. split; [exact O0|]. split; [lia|]. split; [lra|]. rewrite !minus_IZR. fold (N y). split; lra.
Qed.

(** Where the image starts on the grid of the given flow field. *)
Lemma geom_place : forall y, let x := Q2R (image_start y c g) in Rabs (x - OFF y * r y) <= 3 / 2 + r y / rho.
Proof.
  intros y. cbv zeta. destruct (axis_facts y) as (E & ES & ERM & O0 & [OL OU] & [PL1 PU] & FB & B0 & BE & P0 & [DL DU]).
  destruct (axis_reals y) as (S0 & S2 & QR & HS & N2 & OS & US & DS & NR & _). destruct (steps_R y) as (RR & R2 & SR).
  destruct res_R as [_ RHO]. assert (RP : 0 < rho) by (pose proof (bpow_gt_0 radix2 (-20)); lra).
  assert (RN : ~ (double (g_res c) == 0)%Q) by (intros H; apply Qeq_eqR in H; fold rho in H; rewrite Q2R_0 in H; lra).
  assert (EX : Q2R (image_start y c g) = Q2R (double (sel y (o_pbo g))) * r y + IZR (sel y (o_off g)) * (r y / rho) - IZR (sel y (o_pad g))).
  { unfold image_start. rewrite Q2R_minus, Q2R_plus, !Q2R_mult, Q2R_div, !Q2R_Z by exact RN. fold (r y). fold rho. unfold Rdiv. ring. }
  rewrite EX. set (p := Q2R (double (sel y (o_pbo g)))) in *. set (T := OFF y - U y - E) in *. set (k := r y / rho).
  assert (K0 : 0 < k) by (apply Rdiv_lt_0_compat; lra).
  assert (K1 : k <= 600000).
  { assert (2 * k <= S y * r y). { unfold k. replace (2 * (r y / rho)) with (2 / rho * r y) by (field; lra). apply Rmult_le_compat_r; [lra|]. apply Rle_trans with (N y / rho); [|apply NR]. apply Rmult_le_compat_r; [apply Rlt_le, Rinv_0_lt_compat; exact RP | exact N2]. } lra. }
  assert (M24 : bpow radix2 (-24) = / 16777216) by reflexivity. rewrite M24 in *.
  assert (KR : k * rho = r y) by (unfold k; field; lra).
  assert (A1 : ((U y + E) * rho - 1 - / 16777216) * k <= IZR (sel y (o_off g)) * k) by (apply Rmult_le_compat_r; lra).
  assert (A2 : IZR (sel y (o_off g)) * k <= ((U y + E) * rho + / 16777216) * k) by (apply Rmult_le_compat_r; lra).
  replace (((U y + E) * rho - 1 - / 16777216) * k) with ((U y + E) * r y - (1 + / 16777216) * k) in A1 by (rewrite <- KR; ring).
  replace (((U y + E) * rho + / 16777216) * k) with ((U y + E) * r y + / 16777216 * k) in A2 by (rewrite <- KR; ring).
  apply Rabs_le_inv in BE. set (e := 12 * (v * (4 * S y + 1))) in *.
  assert (ER : 0 <= e * r y <= / 1000).
  { assert (EE : e * r y = 12 * (v * (4 * (S y * r y) + r y))) by (unfold e; ring). rewrite EE. unfold v. assert (0 <= S y * r y) by (apply Rmult_le_pos; lra). lra. }
  assert (A3 : (p - Rmax 0 T) * r y <= e * r y) by (apply Rmult_le_compat_r; lra). assert (A4 : - e * r y <= (p - Rmax 0 T) * r y) by (apply Rmult_le_compat_r; lra).
  assert (MM : Rmax 0 T * r y - Rmax 0 (- T) * r y = T * r y) by (rewrite <- Rmult_minus_distr_r; f_equal; unfold Rmax; destruct (Rle_dec 0 T), (Rle_dec 0 (- T)); lra).
  assert (TT : T * r y + (U y + E) * r y = OFF y * r y) by (unfold T; ring).
  apply Rabs_le. lra.
Qed.

(** Lengths on the grid. *)
Lemma geom_sizes : forall y,
  ordinary (sel y (o_res g)) /\ shift_ok (sel y (o_pbo g)) /\ (0 <= sel y (o_off g) < 2 ^ 24)%Z /\ count_ok (sel y (g_image c)) /\ count_ok (sel y (o_pb g)) /\ count_ok (sel y (o_out g)) /\
  (0 <= sel y (o_pad g))%Z /\ (sel y (g_ffshape c) + sel y (o_pad g) < 2 ^ 24)%Z /\
  Q2R (double (sel y (o_pbo g))) * r y + IZR (sel y (o_off g) + sel y (g_image c)) / rho * r y + 1 <= 4 * SH y + 2 /\
  Q2R (double (sel y (o_pbo g))) * r y + IZR (sel y (o_pb g)) / rho * r y + 1 <= 4 * SH y + 2 /\
  (N y - 1 - / 1000) / rho * r y <= IZR (sel y (o_pb g)) / rho * r y <= 8388608.
Proof.
  intros y. destruct (axis_facts y) as (E & ES & ERM & O0 & [OL OU] & [PL1 PU] & FB & B0 & BE & P0 & [DL DU]).
  destruct (axis_reals y) as (S0 & S2 & QR & HS & N2 & OS & US & DS & NR & _ & V1 & V2). destruct (steps_R y) as (RR & R2 & SR).
  destruct res_R as [_ RHO]. assert (RP : 0 < rho) by (pose proof (bpow_gt_0 radix2 (-20)); lra).
  assert (M24 : bpow radix2 (-24) = / 16777216) by reflexivity. rewrite M24 in *.
  assert (XR : forall x, 0 <= x <= S y -> 0 <= x * rho <= 2097152) by (intros x X; split; [apply Rmult_le_pos; lra | apply Rle_trans with (S y * rho); [apply Rmult_le_compat_r; lra | exact S2]]).
  pose proof (XR _ US) as X1. pose proof (XR _ DS) as X2. pose proof (XR _ ES) as X3.
  assert (X4 : N y <= 2097152). { destruct (XR (N y / rho) ltac:(lra)) as [_ X]. replace (N y / rho * rho) with (N y) in X by (field; lra). exact X. }
  rewrite !Rmult_plus_distr_r in *.
  assert (LT : forall z, IZR z <= 9000000 -> (z < 2 ^ 24)%Z). { intros z H. apply lt_IZR. change (2 ^ 24)%Z with 16777216%Z. lra. }
  set (k := r y / rho). assert (K0 : 0 < k) by (apply Rdiv_lt_0_compat; lra). assert (KR : k * rho = r y) by (unfold k; field; lra).
  assert (KK : forall x, x / rho * r y = x * k) by (intros x; unfold k; field; lra). rewrite !KK.
  set (e := 12 * (v * (4 * S y + 1))) in *.
  assert (K1 : k <= 600000).
  { assert (2 * k <= S y * r y). { unfold k. replace (2 * (r y / rho)) with (2 / rho * r y) by (field; lra). apply Rmult_le_compat_r; [lra|]. apply Rle_trans with (N y / rho); [|apply NR]. apply Rmult_le_compat_r; [apply Rlt_le, Rinv_0_lt_compat; exact RP | exact N2]. } lra. }
  assert (ER : 0 <= e * r y <= / 1000).
  { assert (EE : e * r y = 12 * (v * (4 * (S y * r y) + r y))) by (unfold e; ring). rewrite EE. unfold v. assert (0 <= S y * r y) by (apply Rmult_le_pos; lra). lra. }
  assert (E5 : e <= / 1000) by (unfold e, v; lra).
  assert (XQ : forall x, 0 <= x <= S y -> 0 <= x * r y <= SH y + / 1000) by (intros x X; split; [apply Rmult_le_pos; lra | apply Rle_trans with (S y * r y); [apply Rmult_le_compat_r; lra | lra]]).
  pose proof (XQ _ US) as Y1. pose proof (XQ _ DS) as Y2. pose proof (XQ _ ES) as Y3. pose proof (XQ _ OS) as Y4.
  assert (Y5 : 0 <= N y * k <= SH y + / 1000). { pose proof (XQ (N y / rho) ltac:(lra)) as X. rewrite KK in X. exact X. }
  apply Rabs_le_inv in BE. set (p := Q2R (double (sel y (o_pbo g)))) in *.
  assert (PT : p * r y + (U y + E) * r y <= 2 * SH y + / 100).
  { assert (A : p * r y <= (Rmax 0 (OFF y - U y - E) + e) * r y) by (apply Rmult_le_compat_r; lra).
    unfold Rmax in A. destruct (Rle_dec 0 (OFF y - U y - E)); [replace ((OFF y - U y - E + e) * r y) with (OFF y * r y - (U y + E) * r y + e * r y) in A by ring; lra|].
    replace ((0 + e) * r y) with (e * r y) in A by ring. rewrite Rmult_plus_distr_r. lra. }
  assert (PS : p <= S y + / 1000) by (assert (Rmax 0 (OFF y - U y - E) <= S y) by (apply Rmax_lub; lra); lra).
  assert (O1 : IZR (sel y (o_off g)) * k <= (U y * rho + E * rho + / 16777216) * k) by (apply Rmult_le_compat_r; lra).
  replace ((U y * rho + E * rho + / 16777216) * k) with ((U y + E) * r y + / 16777216 * k) in O1 by (rewrite <- KR; ring).
  assert (B1 : IZR (sel y (o_pb g)) * k <= (N y + (U y * rho + D y * rho + E * rho) + / 16777216) * k) by (apply Rmult_le_compat_r; lra).
  replace ((N y + (U y * rho + D y * rho + E * rho) + / 16777216) * k) with (N y * k + (U y + E) * r y + D y * r y + / 16777216 * k) in B1 by (rewrite <- KR; ring).
  assert (DR : Rmax 0 (- (OFF y - U y - E)) * r y <= 2 * SH y + / 100).
  { apply Rle_trans with (2 * S y * r y); [apply Rmult_le_compat_r; [lra | apply Rmax_lub; lra] | lra]. }
  assert (TW : Q2R (1 # 1048576) = / 1048576) by (unfold Q2R; cbn [Qnum Qden]; lra).
  split. { split; [apply RR|]. split; apply Rle_Qle; fold (r y); [rewrite TW; lra | change 1048576%Q with (inject_Z 1048576); rewrite Q2R_Z; lra]. }
  split. { split; [exact FB|]. split; apply Rle_Qle; fold p; [rewrite Q2R_0; exact B0 | change 1048576%Q with (inject_Z 1048576); rewrite Q2R_Z; lra]. }
  split; [split; [exact O0 | apply LT; lra]|].
  split; [split; [apply le_IZR; fold (N y); lra | apply LT; fold (N y); lra]|].
  split. { split; [|apply LT; lra]. assert (K : 0 < IZR (sel y (o_pb g))) by lra. apply (lt_IZR 0) in K. lia. }
  split.
  { destruct (construct_axes c g CO) as (radius & more & _ & CA). destruct (CA y) as (_ & IO & _). destruct PL as (_ & _ & _ & FV & _).
    assert (ZN : (Z.abs (sel y (g_image c)) < 2 ^ 53)%Z). { apply (le_IZR _ 2097152) in X4. apply (le_IZR 2) in N2. lia. }
    pose proof (rep64_ofZ _ ZN) as RN. fold (N y) in RN. set (w := Q2R (double (g_vpp c))) in *.
    assert (GE : 1 <= rn64 (N y * w)). { apply round_ge_generic; [apply fexp_correct; reflexivity | apply valid_rnd_round_mode | change 1 with (bpow radix2 0); apply (generic_format_bpow radix2 (FLT_exp (-1074) 53)); unfold FLT_exp; lia | exact V1]. }
    assert (LE : rn64 (N y * w) <= bpow radix2 23). { apply round_le_generic; [apply fexp_correct; reflexivity | apply valid_rnd_round_mode | apply (generic_format_bpow radix2 (FLT_exp (-1074) 53)); unfold FLT_exp; lia | exact V2]. }
    change (bpow radix2 23) with 8388608 in LE.
    assert (RM : rep64 (mul64 (f64_ofZ (sel y (g_image c))) (g_vpp c)) (rn64 (N y * w))).
    { apply rep64_mul; [exact RN | apply rep64_double; exact FV|]. apply big_fits. rewrite Rabs_pos_eq by lra. apply Rle_trans with (bpow radix2 23); [exact LE | apply bpow_le; lia]. }
    destruct (int_R _ _ _ RM ltac:(lra) IO) as (Z0 & ZL & ZU). rewrite Rmax_right in ZL by lra. split; [|apply LT; lra].
    assert (K : 0 < IZR (sel y (o_out g))) by lra. apply (lt_IZR 0) in K. lia. }
  split; [exact P0|].
  split. { apply LT. rewrite plus_IZR. fold (SH y). lra. }
  rewrite plus_IZR. fold (N y).
  split; [rewrite Rmult_plus_distr_r; lra|]. split; [lra|]. split; [|lra].
  apply Rmult_le_compat_r; lra.
Qed.
End Geometry.
