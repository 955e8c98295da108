(** Whole batches in float arithmetic: adapter and movement together. *)
From Coq Require Import List Arith ZArith QArith Qround Qreals Qabs Qminmax Bool Reals Lia Lqa Lra Psatz.
From Flocq Require Import Core Relative IEEE754.BinarySingleNaN.
From Verif Require Import Prelude Model.Interp Model.Apply Model.Geometry Model.DataGen Model.Render Model.InterpFloat Model.HistFloat Model.DrawFloat Model.MoveFloat Model.SampleFloat Model.FinishFloat Model.AdaptFloat Model.SceneFloat.
From Verif Require Import Spec.InterpSpec Spec.RenderSpec Spec.InterpFloatSpec Spec.LipschitzSpec Spec.DrawFloatSpec Spec.MoveFloatSpec Spec.SampleFloatSpec Spec.AdaptFloatSpec Spec.SceneFloatSpec.
From Verif Require Import Proofs.InterpProofs Proofs.AdapterProofs Proofs.RenderProofs Proofs.FloatProofs Proofs.RoundProofs Proofs.InterpFloatProofs Proofs.InterpBinary Proofs.LipschitzProofs.
From Verif Require Import Proofs.DrawFloatProofs Proofs.PlaceFloatProofs Proofs.DrawnPixel Proofs.KernelError Proofs.KernelFloatProofs Proofs.KernelImage Proofs.HistFloatProofs Proofs.MoveFloatProofs Proofs.SampleFloatProofs Proofs.AdaptFloatProofs.
Local Open Scope R_scope.

(** * Doubles that become singles *)
Lemma narrowed : forall x, is_finite x = true -> Rabs (Q2R (double x)) <= bpow radix2 20 ->
  within (bpow radix2 20) (to_f32 x) /\ Rabs (real (to_f32 x) - Q2R (double x)) <= u * Rabs (Q2R (double x)) + e32.
Proof.
  intros x F B. rewrite (double_R x F) in *. destruct (rn_bound _ 20 ltac:(lia) B) as [N1 N2].
  destruct (rep_real _ _ (to_f32_rep x F N2)) as [G V]. split; [split; [exact G | rewrite V; exact N1]|]. rewrite V. apply rn32_err.
Qed.

Lemma ordinary_narrow : forall x, ordinary x ->
  within (bpow radix2 20) (to_f32 x) /\ Rabs (real (to_f32 x) - Q2R (double x)) <= 1001 / 1000 * (u * Q2R (double x)).
Proof.
  intros x O. destruct (ordinary_R x O) as [[F _] [L H]]. pose proof (bpow_gt_0 radix2 (-20)) as P.
  destruct (narrowed x F) as [N1 N2]; [rewrite Rabs_pos_eq by lra; exact H|]. split; [exact N1|]. rewrite (Rabs_pos_eq (Q2R _)) in N2 by lra.
  assert (E : e32 <= / 1000 * (u * bpow radix2 (-20))).
  { unfold e32. rewrite <- u_u32. unfold u32. rewrite <- bpow_plus. apply Rle_trans with (bpow radix2 (-10) * bpow radix2 (-24 + -20)); [rewrite <- bpow_plus; apply bpow_le; lia|].
    apply Rmult_le_compat_r; [apply bpow_ge_0|]. change (bpow radix2 (-10)) with (/ 1024). lra. }
  assert (u * bpow radix2 (-20) <= u * Q2R (double x)) by (apply Rmult_le_compat_l; [unfold u; lra | exact L]). lra.
Qed.

(** * One coordinate *)
Lemma travel : forall p z U' U r32 d32 r d c M' delta,
  0 < r <= bpow radix2 20 -> bpow radix2 (-24) <= c -> Rabs (r32 - r) <= 1001 / 1000 * (u * r) -> Rabs (d32 - d) <= u * Rabs d + e32 ->
  Rabs U' <= M' -> M' <= bpow radix2 20 -> Rabs (U' - U) <= delta ->
  Rabs (p - (z + U' * r32 * d32 / c)) <= 5 / 16777216 * Rabs z + 1 / 1048576 * (M' * Rabs r32 * Rabs d32 / c) + bpow radix2 (-70) ->
  Rabs (p - (z + U * r * d / c)) <= 5 / 16777216 * Rabs z + (19 * (u * M') + delta) * (r * Rabs d / c) + bpow radix2 (-68).
Proof.
  intros p z U' U r32 d32 r d c M' delta [R0 R1] C RE DE UM M20 UD E. pose proof (bpow_gt_0 radix2 (-24)) as P24. assert (C0 : 0 < c) by lra.
  assert (U0 : 0 < u <= / 100000) by (unfold u; lra). pose proof (Rabs_pos d) as D0. assert (e0 : 0 <= e32) by apply bpow_ge_0.
  assert (M0 : 0 <= M') by (eapply Rle_trans; [apply Rabs_pos | exact UM]).
  set (W := r * Rabs d / c). assert (W0 : 0 <= W) by (unfold W, Rdiv; apply Rmult_le_pos; [apply Rmult_le_pos; lra | left; apply Rinv_0_lt_compat; exact C0]).
  set (D := r32 * d32 / c - r * d / c).
  assert (P1 : Rabs (r32 * d32 - r * d) <= 201 / 100 * u * (r * Rabs d) + 2 * (r * e32)).
  { replace (r32 * d32 - r * d) with (r32 * (d32 - d) + (r32 - r) * d) by ring. eapply Rle_trans; [apply Rabs_triang|]. rewrite !Rabs_mult.
    assert (A32 : Rabs r32 <= 1001 / 1000 * r).
    { replace r32 with ((r32 - r) + r) by ring. eapply Rle_trans; [apply Rabs_triang|]. rewrite (Rabs_pos_eq r) by lra. assert (u * r <= / 100000 * r) by (apply Rmult_le_compat_r; lra). lra. }
    assert (T1 : Rabs r32 * Rabs (d32 - d) <= 1001 / 1000 * r * (u * Rabs d + e32)) by (apply Rmult_le_compat; (apply Rabs_pos || assumption)).
    assert (T2 : Rabs (r32 - r) * Rabs d <= 1001 / 1000 * (u * r) * Rabs d) by (apply Rmult_le_compat_r; assumption).
    assert (0 <= u * (r * Rabs d)) by (repeat apply Rmult_le_pos; lra). assert (0 <= r * e32) by (apply Rmult_le_pos; lra). lra. }
  assert (IC : / c <= bpow radix2 24) by (replace (bpow radix2 24) with (/ bpow radix2 (-24)) by (rewrite <- bpow_opp; reflexivity); apply Rinv_le_contravar; assumption).
  assert (IC0 : 0 < / c) by (apply Rinv_0_lt_compat; exact C0).
  assert (P2 : Rabs D <= 201 / 100 * (u * W) + bpow radix2 (-105)).
  { unfold D. replace (r32 * d32 / c - r * d / c) with ((r32 * d32 - r * d) * / c) by (unfold Rdiv; ring). rewrite Rabs_mult, (Rabs_pos_eq (/ c)) by lra.
    apply Rle_trans with ((201 / 100 * u * (r * Rabs d) + 2 * (r * e32)) * / c); [apply Rmult_le_compat_r; lra|].
    assert (T : 2 * (r * e32) * / c <= bpow radix2 (-105)).
    { apply Rle_trans with (2 * (bpow radix2 20 * e32) * bpow radix2 24).
      - apply Rmult_le_compat; [apply Rmult_le_pos; [lra | apply Rmult_le_pos; lra] | lra | | exact IC]. apply Rmult_le_compat_l; [lra|]. apply Rmult_le_compat_r; lra.
      - unfold e32. change 2 with (bpow radix2 1). rewrite <- !bpow_plus. apply bpow_le. lia. }
    unfold W, Rdiv. lra. }
  assert (P3 : Rabs (U' * D) <= 201 / 100 * (u * M') * W + bpow radix2 (-85)).
  { rewrite Rabs_mult. apply Rle_trans with (M' * (201 / 100 * (u * W) + bpow radix2 (-105))); [apply Rmult_le_compat; (apply Rabs_pos || assumption)|].
    assert (M' * bpow radix2 (-105) <= bpow radix2 (-85)) by (change (-85)%Z with (20 + -105)%Z; rewrite bpow_plus; apply Rmult_le_compat_r; [apply bpow_ge_0 | exact M20]). lra. }
  assert (P4 : Rabs ((U' - U) * (r * d / c)) <= delta * W).
  { rewrite Rabs_mult. replace (Rabs (r * d / c)) with W; [apply Rmult_le_compat_r; assumption|]. unfold W, Rdiv. rewrite !Rabs_mult, (Rabs_pos_eq r), (Rabs_pos_eq (/ c)) by lra. reflexivity. }
  assert (P5 : M' * Rabs r32 * Rabs d32 / c <= M' * W + (201 / 100 * (u * M') * W + bpow radix2 (-85))).
  { replace (M' * Rabs r32 * Rabs d32 / c) with (M' * Rabs (r * d / c + D)).
    - apply Rle_trans with (M' * (W + (201 / 100 * (u * W) + bpow radix2 (-105)))).
      + apply Rmult_le_compat_l; [exact M0|]. eapply Rle_trans; [apply Rabs_triang|]. apply Rplus_le_compat; [|exact P2].
        unfold W, Rdiv. rewrite !Rabs_mult, (Rabs_pos_eq r), (Rabs_pos_eq (/ c)) by lra. apply Rle_refl.
      + assert (M' * bpow radix2 (-105) <= bpow radix2 (-85)) by (change (-85)%Z with (20 + -105)%Z; rewrite bpow_plus; apply Rmult_le_compat_r; [apply bpow_ge_0 | exact M20]). lra.
    - unfold D. replace (r * d / c + (r32 * d32 / c - r * d / c)) with (r32 * d32 * / c) by (unfold Rdiv; ring). rewrite (Rabs_mult _ (/ c)), (Rabs_mult r32 d32), (Rabs_pos_eq (/ c)) by lra. unfold Rdiv. ring. }
  replace (p - (z + U * r * d / c)) with ((p - (z + U' * r32 * d32 / c)) + (U' * D + (U' - U) * (r * d / c))) by (unfold D; unfold Rdiv; ring).
  eapply Rle_trans; [apply Rabs_triang|]. assert (Q1 := Rabs_triang (U' * D) ((U' - U) * (r * d / c))).
  assert (T : bpow radix2 (-70) = / 4 * bpow radix2 (-68)) by (change (/ 4) with (bpow radix2 (-2)); rewrite <- bpow_plus; reflexivity).
  assert (T' : bpow radix2 (-85) <= / 4 * bpow radix2 (-68)) by (rewrite <- T; apply bpow_le; lia).
  assert (UMW : 0 <= u * M' * W) by (apply Rmult_le_pos; [apply Rmult_le_pos; lra | exact W0]).
  assert (Z16 : 1 / 1048576 * (M' * W) = 16 * (u * M' * W)) by (unfold u; field).
  assert (SM : 1 / 1048576 * (201 / 100 * (u * M') * W) <= / 1000 * (u * M' * W)) by (clear - UMW; set (k := u * M' * W) in *; replace (201 / 100 * (u * M') * W) with (201 / 100 * k) by (unfold k; ring); lra).
  assert (X1 : 201 / 100 * (u * M') * W = 201 / 100 * (u * M' * W)) by ring. rewrite X1 in *. assert (X2 : (19 * (u * M') + delta) * W = 19 * (u * M' * W) + delta * W) by ring. fold W. rewrite X2. pose proof (bpow_gt_0 radix2 (-68)). lra.
Qed.

(** The movement of one coordinate in one channel of a flow. *)
Lemma channel_moved : forall recip pb H W (at0 : Z -> Z -> f32) y x n b z r32 d32 M, count_ok H -> count_ok W -> bounds_ok pb ->
  within (bpow radix2 24) y -> within (bpow radix2 24) x -> (1 <= n < 2 ^ 24)%Z -> (1 <= b < 2 ^ 24)%Z -> within (bpow radix2 24) z ->
  within (bpow radix2 20) r32 -> within (bpow radix2 20) d32 -> M <= bpow radix2 20 ->
  (forall i j, (0 <= i < H)%Z -> (0 <= j < W)%Z -> finite (at0 i j) /\ Rabs (real (at0 i j)) <= M) ->
  let ch := @mkGimage binary32 H W at0 in
  let sy := mult32 y (scale32 H (fst pb)) in let sx := mult32 x (scale32 W (snd pb)) in
  let p := unscale32 recip (plus32 (mult32 z (scale32 n b)) (mult32 (mult32 (bilinear32 ch sx sy) r32) d32)) (scale32 n b) in
  let s := Q2R (bilinear (values ch) (value sx) (value sy)) in
  sampled_at (steps H (fst pb)) y (value sy) /\ sampled_at (steps W (snd pb)) x (value sx) /\ Rabs s <= M /\
  finite p /\ Rabs (real p - (real z + s * real r32 * real d32 / Q2R (steps n b))) <=
    5 / 16777216 * Rabs (real z) + 1 / 1048576 * (M * Rabs (real r32) * Rabs (real d32) / Q2R (steps n b)) + bpow radix2 (-70).
Proof.
  intros recip pb H W at0 y x n b z r32 d32 M HH HW PB WY WX N B WZ WR WD BM A ch sy sx p s.
  set (f := mkFlow32 H W at0 at0).
  assert (FW : flow_within M f) by (split; [exact HH|]; split; [exact HW|]; intros i j I J; split; apply A; assumption).
  destruct (samples pb f y x M FW PB WY WX) as [[_ S1] [_ S2]].
  destruct (speed_ok pb f y x M FW BM PB WY WX ch eq_refl eq_refl A) as (V1 & V2 & V3).
  assert (M0 : 0 <= M) by (eapply Rle_trans; [apply Rabs_pos | exact V3]).
  destruct (coord_ok recip n b z r32 d32 (bilinear32 ch sx sy) s M N B WZ WR WD (conj M0 BM) V1 V2 V3) as [X1 X2].
  split; [exact S1|]. split; [exact S2|]. split; [exact V3|]. split; [exact X1 | exact X2].
Qed.

(** * The size of the flow for the particles *)
Lemma size_bounds : forall len res r n, (1 <= len < 2 ^ 24)%Z -> ordinary res -> ordinary r -> spanR len res r <= 8388608 -> size64 len res r = Ok n ->
  count_ok n /\ IZR n <= spanR len res r + 1 /\ ((2 <= n)%Z -> Rabs (spanR len res r - 1) <= 3 * (IZR n - 1)) /\
  (1 <= spanR len res r ->
   (1 - bpow radix2 (-50)) * IZR n <= spanR len res r <= (2 + bpow radix2 (-20)) * IZR n /\
   (spanR len res r - IZR n) * (spanR len res r - 1) <= (1 + bpow radix2 (-20)) * IZR n).
Proof.
  intros len res r n L O O' S E. destruct (size_facts len res r L O O' S) as (t & ET & EE & T0 & _ & _). destruct (span_range len res r ltac:(lia) O O') as [[S0 _] _].
  set (x := spanR len res r) in *. rewrite E in ET. injection ET as ->.
  assert (B50 : bpow radix2 (-50) = 8 * v) by (rewrite <- v53; change 8 with (bpow radix2 3); rewrite <- bpow_plus; reflexivity).
  assert (B20 : bpow radix2 (-20) = / 1048576) by apply m20.
  assert (V0 : 0 < v <= / 9007199254740992) by (unfold v; lra). assert (VX : v * x <= / 1073741824) by (apply Rle_trans with (v * 8388608); [apply Rmult_le_compat_l; lra | unfold v; lra]).
  assert (VX0 : 0 <= v * x) by (apply Rmult_le_pos; lra). apply Rabs_le_inv in EE. pose proof (Zfloor_lb t) as F1. pose proof (Zfloor_ub t) as F2.
  assert (T8 : (Zfloor t <= 8388608)%Z) by (apply Zlt_succ_le, lt_IZR; unfold Z.succ; rewrite plus_IZR; lra).
  assert (G : IZR (Z.max 1 (Zfloor t)) = IZR (Zfloor t) /\ 1 <= IZR (Zfloor t) \/ IZR (Z.max 1 (Zfloor t)) = 1 /\ t < 1).
  { destruct (Z.le_gt_cases 1 (Zfloor t)) as [G|G].
    - left. rewrite Z.max_r by exact G. split; [reflexivity | apply (IZR_le 1); exact G].
    - right. rewrite Z.max_l by lia. split; [reflexivity|]. assert (IZR (Zfloor t + 1) <= 1) by (apply IZR_le; lia). rewrite plus_IZR in *. lra. }
  split; [unfold count_ok; lia|]. split; [destruct G as [[-> _] | [-> _]]; lra|]. split.
  - intros N2. assert (2 <= IZR (Z.max 1 (Zfloor t))) by (apply (IZR_le 2); exact N2). destruct G as [[G1 G2] | [G1 _]]; [|lra].
    rewrite G1 in *. assert (1 <= x) by lra. rewrite Rabs_pos_eq by lra. lra.
  - intros X1. set (n := IZR (Z.max 1 (Zfloor t))) in *. assert (N1 : 1 <= n) by (destruct G as [[-> G]|[-> _]]; lra).
    assert (U : n <= x * (1 + 3 * v)) by (destruct G as [[-> _]|[-> _]]; lra). assert (D : x - n <= 1 + 3 * (v * x)) by (destruct G as [[-> _]|[-> G]]; lra).
    split; [split|].
    + rewrite B50. apply Rle_trans with ((1 - 8 * v) * (x * (1 + 3 * v))); [apply Rmult_le_compat_l; lra|].
      replace ((1 - 8 * v) * (x * (1 + 3 * v))) with (x - v * x * (5 + 24 * v)) by ring. assert (0 <= v * x * (5 + 24 * v)) by (apply Rmult_le_pos; lra). lra.
    + rewrite B20. lra.
    + rewrite B20. destruct (Rle_or_lt x n) as [C|C].
      * assert (0 <= (n - x) * (x - 1)) by (apply Rmult_le_pos; lra). lra.
      * apply Rle_trans with ((1 + 3 * (v * x)) * (n + 3 * (v * x))); [apply Rmult_le_compat; lra|].
        set (k := v * x) in *. assert (K : k * n <= / 1073741824 * n) by (apply Rmult_le_compat_r; lra). assert (K2 : k * k <= / 1073741824 * 1) by (apply Rmult_le_compat; lra). lra.
Qed.

Lemma stretched : forall len res r n (x := (inject_Z len / double res * double r)%Q), (1 <= len < 2 ^ 24)%Z -> ordinary res -> ordinary r ->
  (1 <= x <= 8388608)%Q -> size64 len res r = Ok n -> stretch (inject_Z len / double res) x (Q2R x / IZR n).
Proof.
  intros len res r n x L O O' [X1 X2] E. assert (ES : Q2R x = spanR len res r) by (apply span_Q; exact O).
  assert (S1 : 1 <= spanR len res r) by (apply Qle_Rle in X1; rewrite Q2R_1, ES in X1; exact X1).
  assert (S2 : spanR len res r <= 8388608) by (apply Qle_Rle in X2; rewrite ES in X2; assert (E8 : Q2R 8388608 = 8388608) by (unfold Q2R; cbn [Qnum Qden]; lra); rewrite E8 in X2; exact X2).
  destruct (size_bounds len res r n L O O' S2 E) as (C & _ & _ & K). destruct (K S1) as [[K1 K2] K3]. rewrite <- ES in *.
  assert (N1 : 1 <= IZR n) by (apply (IZR_le 1); destruct C; lia).
  split; [split; (apply Rmult_le_reg_r with (IZR n); [lra|]; replace (Q2R x / IZR n * IZR n) with (Q2R x) by (field; lra); assumption)|]. split.
  - apply Rmult_le_reg_r with (IZR n); [lra|]. replace ((Q2R x / IZR n - 1) * (Q2R x - 1) * IZR n) with ((Q2R x - IZR n) * (Q2R x - 1)) by (field; lra). exact K3.
  - intros D1 D2 [z EZ]. destruct (size_near len res r L O O' X2) as (n' & E' & _ & _ & _ & EX). rewrite E in E'. injection E' as <-. fold x in EX. specialize (EX D1 D2).
    assert (Z1 : (1 <= z)%Z) by (rewrite EZ in X1; change 1%Q with (inject_Z 1) in X1; rewrite <- Zle_Qle in X1; exact X1).
    assert (Q0 : Qle_bool 0 x = true) by (apply Qle_bool_iff; eapply Qle_trans; [|exact X1]; discriminate).
    unfold Qtrunc in EX. rewrite Q0 in EX. assert (FZ : Qfloor x = z) by (rewrite EZ; apply Qfloor_Z). rewrite FZ in EX. rewrite EX, Z.max_r by exact Z1.
    rewrite (Qeq_eqR _ _ EZ), Q2R_Z. apply Rinv_r. apply IZR_neq. lia.
Qed.

(** * The exact flow for the particles *)
Lemma grid_step : forall len res r s n i, (1 <= len < 2 ^ 24)%Z -> ordinary res -> ordinary r -> spanR len res r <= 8388608 -> size64 len res r = Ok n ->
  (0 <= i)%Z -> (i + 1 < n)%Z ->
  (Qabs (linspace s (s + inject_Z len / double res * double r - 1) n (i + 1) - linspace s (s + inject_Z len / double res * double r - 1) n i) <= 3)%Q.
Proof.
  intros len res r s n i L O O' S E I J. destruct (size_bounds len res r n L O O' S E) as (C & _ & K & _). specialize (K ltac:(lia)).
  apply Rle_Qle. rewrite Q2R_abs, Q2R_minus, !linR_Q, Q2R_minus, Q2R_plus, span_Q, Q2R_1 by (exact O || lia).
  unfold linR. destruct (Z.eqb_spec n 1) as [N|N]; [lia|]. rewrite plus_IZR. set (x := spanR len res r) in *.
  assert (E3 : Q2R 3 = 3) by (unfold Q2R; cbn [Qnum Qden]; lra). rewrite E3.
  assert (N1 : 0 < IZR (n - 1)) by (apply (IZR_lt 0); lia). rewrite <- minus_IZR in K.
  replace (Q2R s + (IZR i + 1) * ((Q2R s + x - 1 - Q2R s) / IZR (n - 1)) - (Q2R s + IZR i * ((Q2R s + x - 1 - Q2R s) / IZR (n - 1)))) with ((x - 1) * / IZR (n - 1)) by (field; lra).
  rewrite Rabs_mult, (Rabs_pos_eq (/ _)) by (left; apply Rinv_0_lt_compat; exact N1). apply Rmult_le_reg_r with (IZR (n - 1)); [exact N1|].
  rewrite Rmult_assoc, Rinv_l, Rmult_1_r by lra. exact K.
Qed.

(** Two images that are near are near everywhere. *)
Lemma bilinear_near : forall im im' x y e, nonempty im -> rows im' = rows im -> cols im' = cols im ->
  (forall r c, (0 <= r < rows im)%Z -> (0 <= c < cols im)%Z -> Rabs (Q2R (at_ im r c) - Q2R (at_ im' r c)) <= e) ->
  Rabs (Q2R (bilinear im x y) - Q2R (bilinear im' x y)) <= e.
Proof.
  intros im im' x y e NE RR CC A. set (d := mkImage (rows im) (cols im) (fun r c => (1 * at_ im r c + (-1) * at_ im' r c)%Q)).
  assert (ED : (bilinear d x y == 1 * bilinear im x y + (-1) * bilinear im' x y)%Q).
  { apply bilinear_linear; [exact NE | reflexivity | reflexivity | exact RR | exact CC | intros; reflexivity]. }
  assert (B : - e <= Q2R (bilinear d x y) <= e).
  { apply exact_between; [exact NE|]. intros r c NR NC. apply neighbour_in in NR, NC. cbn [d rows cols at_] in *.
    rewrite Q2R_plus, !Q2R_mult. replace (Q2R 1) with 1 by (symmetry; apply Q2R_1). replace (Q2R (-1)) with (-1) by (unfold Q2R; cbn [Qnum Qden]; lra).
    pose proof (A r c NR NC) as X. apply Rabs_le_inv in X. lra. }
  rewrite (Qeq_eqR _ _ ED), Q2R_plus, !Q2R_mult, Q2R_1 in B. replace (Q2R (-1)) with (-1) in B by (unfold Q2R; cbn [Qnum Qden]; lra). apply Rabs_le. lra.
Qed.

(** * One channel of one flow *)
Section Channel.
Variables (recip : bool) (w : ways) (a : adapter64) (B M : R) (at0 : Z -> Z -> f32) (H W h wd : Z) (y x z : f32) (n b : Z) (r : f64).
Hypothesis U : usual a.
Hypothesis RB : reach B a.
Hypothesis CY : spanR (fst (b_pb a)) (b_res a) (b_ry a) <= 8388608.
Hypothesis CX : spanR (snd (b_pb a)) (b_res a) (b_rx a) <= 8388608.
Hypothesis EH : size64 (fst (b_pb a)) (b_res a) (b_ry a) = Ok h.
Hypothesis EW : size64 (snd (b_pb a)) (b_res a) (b_rx a) = Ok wd.
Hypothesis PH : (H + fst (b_pad a) < 2 ^ 24)%Z.
Hypothesis PW : (W + snd (b_pad a) < 2 ^ 24)%Z.
Hypothesis YB : finite y /\ Rabs (real y) <= IZR (fst (b_pb a)).
Hypothesis XB : finite x /\ Rabs (real x) <= IZR (snd (b_pb a)).
Hypothesis ZB : within (bpow radix2 24) z.
Hypothesis NB : count_ok n /\ count_ok b.
Hypothesis RO : ordinary r.

Let im : fimage := padded (fst (b_pad a)) (snd (b_pad a)) H W at0.
Let entry (i j : Z) : f32 :=
  bilinear32 im (par32 w (snd (b_pbo a)) (b_res a) (b_rx a) (snd (b_pb a)) wd j) (par32 w (fst (b_pbo a)) (b_res a) (b_ry a) (fst (b_pb a)) h i).
Let ch : fimage := @mkGimage binary32 h wd entry.
Let sy : f32 := mult32 y (scale32 h (fst (b_pb a))).
Let sx : f32 := mult32 x (scale32 wd (snd (b_pb a))).
Let p : f32 := unscale32 recip (plus32 (mult32 z (scale32 n b)) (mult32 (mult32 (bilinear32 ch sx sy) (to_f32 r)) (to_f32 (b_dt a)))) (scale32 n b).

Lemma sizes_ok : count_ok h /\ count_ok wd /\ IZR h <= B /\ IZR wd <= B /\ 1 <= B.
Proof.
  destruct U as ((O & OX & OY) & (SY & SX) & _ & _ & (BY & BX) & _). destruct RB as (_ & _ & RY & RX).
  destruct (size_bounds _ _ _ _ BY O OY CY EH) as (C1 & L1 & _). destruct (size_bounds _ _ _ _ BX O OX CX EW) as (C2 & L2 & _).
  rewrite Q2R_plus, span_Q in RY by exact O. rewrite Q2R_plus, span_Q in RX by exact O.
  pose proof (shift_R _ _ SY OY) as P1. pose proof (shift_R _ _ SX OX) as P2. rewrite <- Q2R_mult in P1, P2.
  assert (H1 : 1 <= IZR h) by (apply (IZR_le 1); destruct C1; lia).
  split; [exact C1|]. split; [exact C2|]. split; [lra|]. split; lra.
Qed.

Lemma dt_ok : Rabs (Q2R (double (b_dt a))) <= bpow radix2 20 /\ is_finite (b_dt a) = true.
Proof.
  destruct U as (_ & _ & _ & _ & _ & _ & (FT & BT) & _). split; [|exact FT]. apply Qle_Rle in BT. rewrite Q2R_abs in BT.
  replace (Q2R 1048576) with 1048576 in BT by (unfold Q2R; cbn [Qnum Qden]; lra). exact BT.
Qed.

Lemma coordinate : forall M' s0 delta, M' <= bpow radix2 20 ->
  (forall i j, (0 <= i < h)%Z -> (0 <= j < wd)%Z -> finite (entry i j) /\ Rabs (real (entry i j)) <= M') ->
  (sampled_at (steps h (fst (b_pb a))) y (value sy) -> sampled_at (steps wd (snd (b_pb a))) x (value sx) ->
   Rabs (Q2R (bilinear (values ch) (value sx) (value sy)) - s0) <= delta) ->
  finite p /\ Rabs (real p - (real z + s0 * Q2R (double r) * Q2R (double (b_dt a)) / Q2R (steps n b))) <=
    5 / 16777216 * Rabs (real z) + (19 * (u * M') + delta) * (Q2R (double r) * Rabs (Q2R (double (b_dt a))) / Q2R (steps n b)) + bpow radix2 (-68).
Proof.
  intros M' s0 delta M20 A D. destruct sizes_ok as (C1 & C2 & _). destruct dt_ok as [DT FT]. destruct NB as [N1 N2].
  destruct U as (_ & _ & _ & _ & PB & _).
  assert (W24 : forall q k, finite q /\ Rabs (real q) <= IZR k -> (1 <= k < 2 ^ 24)%Z -> within (bpow radix2 24) q).
  { intros q k [F Q] K. split; [exact F|]. eapply Rle_trans; [exact Q|]. change (bpow radix2 24) with (IZR (2 ^ 24)). apply IZR_le. lia. }
  destruct (ordinary_narrow r RO) as [R1 R2]. destruct (narrowed (b_dt a) FT DT) as [D1 D2].
  destruct (channel_moved recip (b_pb a) h wd entry y x n b z (to_f32 r) (to_f32 (b_dt a)) M' C1 C2 PB (W24 _ _ YB (proj1 PB)) (W24 _ _ XB (proj2 PB)) N1 N2 ZB R1 D1 M20 A)
    as (S1 & S2 & SM & FP & E).
  fold ch in S1, S2, SM, FP, E. fold sy sx in S1, S2, SM, FP, E. fold p in FP, E. split; [exact FP|].
  destruct (ordinary_R r RO) as [_ [O1 O2]]. pose proof (bpow_gt_0 radix2 (-20)).
  apply (travel (real p) (real z) (Q2R (bilinear (values ch) (value sx) (value sy))) s0 (real (to_f32 r)) (real (to_f32 (b_dt a))) (Q2R (double r)) (Q2R (double (b_dt a))) (Q2R (steps n b)) M' delta); [split; lra | apply (steps_range n b N1 N2) | exact R2 | exact D2 | exact SM | exact M20 | exact (D S1 S2) | exact E].
Qed.

(** With a uniform flow. *)
Lemma uniform_coordinate : forall u0, Rabs (real u0) <= bpow radix2 19 -> (1 <= H)%Z -> (1 <= W)%Z ->
  (forall i j, (0 <= i < H)%Z -> (0 <= j < W)%Z -> finite (at0 i j) /\ real (at0 i j) = real u0) ->
  finite p /\ Rabs (real p - (real z + real u0 * Q2R (double r) * Q2R (double (b_dt a)) / Q2R (steps n b))) <=
    5 / 16777216 * Rabs (real z) + (37 * (u * Rabs (real u0)) + bpow radix2 (-99)) * (Q2R (double r) * Rabs (Q2R (double (b_dt a))) / Q2R (steps n b)) + bpow radix2 (-68).
Proof.
  intros u0 B0 H1 W1 A. destruct sizes_ok as (C1 & C2 & _). destruct powers as [_ E20].
  assert (EN : forall i j, (0 <= i < h)%Z -> (0 <= j < wd)%Z -> finite (entry i j) /\ Rabs (real (entry i j) - real u0) <= 16 * u * Rabs (real u0) + bpow radix2 (-100)).
  { intros i j I J. rewrite <- E20. apply (uniform_cropped w a B u0 at0 H W h wd i j U RB); try assumption. eapply Rle_trans; [exact B0 | apply bpow_le; lia]. }
  set (m := Rabs (real u0)) in *. assert (M0 : 0 <= m) by apply Rabs_pos. assert (U0 : 0 < u <= / 100000) by (unfold u; lra). assert (UM : 0 <= u * m <= / 100000 * m) by (split; [apply Rmult_le_pos; lra | apply Rmult_le_compat_r; lra]).
  assert (T : bpow radix2 (-100) <= / 1024) by (change (/ 1024) with (bpow radix2 (-10)); apply bpow_le; lia). pose proof (bpow_gt_0 radix2 (-100)) as T0.
  assert (D20 : bpow radix2 20 = 1048576) by apply p20. assert (D19 : bpow radix2 19 = 524288) by reflexivity.
  destruct (coordinate (m + (16 * u * m + bpow radix2 (-100))) (real u0) (16 * u * m + bpow radix2 (-100))) as [F E].
  - lra.
  - intros i j I J. destruct (EN i j I J) as [F E]. split; [exact F|]. replace (real (entry i j)) with (real u0 + (real (entry i j) - real u0)) by ring. eapply Rle_trans; [apply Rabs_triang|]. fold m. lra.
  - intros _ _. assert (X : real u0 - (16 * u * m + bpow radix2 (-100)) <= Q2R (bilinear (values ch) (value sx) (value sy)) <= real u0 + (16 * u * m + bpow radix2 (-100))).
    { apply exact_between; [destruct C1, C2; split; cbn [ch values rows cols g_rows g_cols]; lia|]. intros i j I J. apply neighbour_in in I, J. cbn [ch values rows cols g_rows g_cols at_ g_at] in *.
      destruct (EN i j I J) as [_ E]. apply Rabs_le_inv in E. unfold real in E at 1 3. fold (real (entry i j)) in *. unfold real in E. unfold real. lra. }
    apply Rabs_le. lra.
  - split; [exact F|]. eapply Rle_trans; [exact E|]. apply Rplus_le_compat_r. apply Rplus_le_compat_l. apply Rmult_le_compat_r.
    + destruct NB as [N1 N2]. destruct (ordinary_R r RO) as [_ [O1 _]]. pose proof (bpow_gt_0 radix2 (-20)). pose proof (steps_range n b N1 N2) as SR. pose proof (bpow_gt_0 radix2 (-24)).
      unfold Rdiv. apply Rmult_le_pos; [apply Rmult_le_pos; [lra | apply Rabs_pos] | left; apply Rinv_0_lt_compat; lra].
    + assert (T99 : bpow radix2 (-99) = 2 * bpow radix2 (-100)) by (change 2 with (bpow radix2 1); rewrite <- bpow_plus; reflexivity). rewrite T99.
      assert (UU : u * (u * m) <= / 100000 * (u * m)) by (apply Rmult_le_compat_r; lra). assert (UT : u * bpow radix2 (-100) <= / 100000 * bpow radix2 (-100)) by (apply Rmult_le_compat_r; lra).
      replace (19 * (u * (m + (16 * u * m + bpow radix2 (-100)))) + (16 * u * m + bpow radix2 (-100))) with (35 * (u * m) + 304 * (u * (u * m)) + 19 * (u * bpow radix2 (-100)) + bpow radix2 (-100)) by ring. lra.
Qed.

(** With any flow: against the movement in the exact flow for the particles. *)
Let X (j : Z) : Q := linspace (double (snd (b_pbo a)) * double (b_rx a)) (double (snd (b_pbo a)) * double (b_rx a) + inject_Z (snd (b_pb a)) / double (b_res a) * double (b_rx a) - 1)%Q wd j.
Let Y (i : Z) : Q := linspace (double (fst (b_pbo a)) * double (b_ry a)) (double (fst (b_pbo a)) * double (b_ry a) + inject_Z (fst (b_pb a)) / double (b_res a) * double (b_ry a) - 1)%Q h i.
Let cov : image := mkImage h wd (fun i j => bilinear (values im) (X j) (Y i)).

Lemma cov_slopes : forall Dx Dy, chan_ok M Dx Dy H W at0 -> across (3 * Dx) cov /\ down (3 * Dy) cov.
Proof.
  intros Dx Dy CH. destruct U as ((O & OX & OY) & _ & _ & _ & (BY & BX) & _ & _ & PY & PX).
  destruct (chan_ready M Dx Dy H W at0 _ _ CH PY PX PH PW) as (SZ & _ & AC & DN & _). fold im in SZ, AC, DN. destruct CH as (_ & _ & D0 & D1 & _).
  assert (NE : nonempty (values im)) by (destruct SZ; split; cbn [values rows cols]; lia). split.
  - intros i j [I J] [_ J']. cbn [cov rows cols at_] in *. eapply Qle_trans; [apply (bilinear_lipschitz (values im) Dx Dy); assumption|].
    assert (Z0 : (Qabs (Y i - Y i) == 0)%Q) by (rewrite (Qabs_wd (Y i - Y i) 0) by ring; reflexivity). rewrite Z0.
    assert (G : (Qabs (X (j + 1)%Z - X j) <= 3)%Q) by (apply grid_step; assumption || lia).
    setoid_replace (3 * Dx)%Q with (Dx * 3 + Dy * 0)%Q by ring. apply Qplus_le_compat; [|apply Qle_refl]. rewrite !(Qmult_comm Dx). apply Qmult_le_compat_r; assumption.
  - intros i j [I J] [I' _]. cbn [cov rows cols at_] in *. eapply Qle_trans; [apply (bilinear_lipschitz (values im) Dx Dy); assumption|].
    assert (Z0 : (Qabs (X j - X j) == 0)%Q) by (rewrite (Qabs_wd (X j - X j) 0) by ring; reflexivity). rewrite Z0.
    assert (G : (Qabs (Y (i + 1)%Z - Y i) <= 3)%Q) by (apply grid_step; assumption || lia).
    setoid_replace (3 * Dy)%Q with (Dx * 0 + Dy * 3)%Q by ring. apply Qplus_le_compat; [apply Qle_refl|]. rewrite !(Qmult_comm Dy). apply Qmult_le_compat_r; assumption.
Qed.

Lemma sample_close : forall q n' b' t, count_ok n' -> count_ok b' -> Rabs (real q) <= IZR b' -> IZR n' <= B -> sampled_at (steps n' b') q t ->
  Rabs (Q2R t - Q2R (value q * steps n' b')) <= 301 / 100 * (u * B).
Proof.
  intros q n' b' t N' B' Q NL S. destruct sizes_ok as (_ & _ & _ & _ & B1). rewrite Q2R_mult, Rmult_comm. unfold sampled_at, real in *. eapply Rle_trans; [exact S|].
  assert (b1 : 1 <= IZR b') by (apply (IZR_le 1); destruct B'; lia). assert (n1 : 1 <= IZR n') by (apply (IZR_le 1); destruct N'; lia). rewrite steps_R by (destruct B'; lia).
  assert (L : IZR n' / IZR b' * Rabs (Q2R (value q)) <= B).
  { apply Rle_trans with (IZR n' / IZR b' * IZR b'); [apply Rmult_le_compat_l; [unfold Rdiv; apply Rmult_le_pos; [lra | left; apply Rinv_0_lt_compat; lra] | exact Q]|]. replace (IZR n' / IZR b' * IZR b') with (IZR n') by (field; lra). exact NL. }
  assert (T : bpow radix2 (-149) <= / 100 * (u * 1)).
  { rewrite <- u_u32. unfold u32. rewrite Rmult_1_r. apply Rle_trans with (bpow radix2 (-10) * bpow radix2 (-24)); [rewrite <- bpow_plus; apply bpow_le; lia|]. apply Rmult_le_compat_r; [apply bpow_ge_0|]. change (bpow radix2 (-10)) with (/ 1024). lra. }
  assert (u * 1 <= u * B) by (apply Rmult_le_compat_l; [unfold u; lra | exact B1]). assert (3 / 16777216 * (IZR n' / IZR b' * Rabs (Q2R (value q))) <= 3 * (u * B)) by (unfold u in *; lra). lra.
Qed.

Lemma carried_coordinate : forall Dx Dy, chan_ok M Dx Dy H W at0 -> M + blur M Dx Dy B <= bpow radix2 19 ->
  finite p /\ Rabs (real p - (real z + Q2R (bilinear cov (value x * steps wd (snd (b_pb a))) (value y * steps h (fst (b_pb a)))) * Q2R (double r) * Q2R (double (b_dt a)) / Q2R (steps n b))) <=
    5 / 16777216 * Rabs (real z) + (3 * blur M Dx Dy B + bpow radix2 (-90)) * (Q2R (double r) * Rabs (Q2R (double (b_dt a))) / Q2R (steps n b)) + bpow radix2 (-68).
Proof.
  intros Dx Dy CH MB. destruct sizes_ok as (C1 & C2 & HB & WB & B1). destruct (cov_slopes Dx Dy CH) as [AC DN].
  pose proof (bpow_gt_0 radix2 (-100)) as T0. assert (U0 : 0 < u <= / 100000) by (unfold u; lra).
  pose proof U as ((O & OX & OY) & _ & _ & _ & (BY & BX) & _ & _ & PY & PX).
  destruct (chan_ready M Dx Dy H W at0 _ _ CH PY PX PH PW) as (SZ & PM & _ & _ & M0). fold im in SZ, PM. pose proof CH as (_ & _ & D0 & D1 & _).
  assert (d0 := D0). assert (d1 := D1). apply Qle_Rle in d0, d1. rewrite Q2R_0 in d0, d1. rewrite blur_form in *.
  set (DB := (Q2R Dx + Q2R Dy) * B) in *. assert (DB0 : 0 <= u * DB) by (apply Rmult_le_pos; [lra|]; apply Rmult_le_pos; lra).
  set (bl := 16 * (u * M) + 13 * (u * DB)) in *. assert (UM0 : 0 <= u * M) by (apply Rmult_le_pos; lra). assert (bl0 : 0 <= bl) by (unfold bl; lra).
  assert (D19 : bpow radix2 19 = 524288) by reflexivity. assert (D20 : bpow radix2 20 = 1048576) by reflexivity.
  assert (T : bpow radix2 (-100) <= / 1024) by (change (/ 1024) with (bpow radix2 (-10)); apply bpow_le; lia).
  assert (EN : forall i j, (0 <= i < h)%Z -> (0 <= j < wd)%Z -> finite (entry i j) /\ Rabs (real (entry i j) - Q2R (at_ cov i j)) <= bl + bpow radix2 (-100)).
  { intros i j I J. assert (M40 : M <= bpow radix2 40) by (apply Rle_trans with (bpow radix2 19); [lra | apply bpow_le; lia]).
    pose proof (cropped_entry w a B M Dx Dy at0 H W h wd i j U RB M40 CH PH PW C1 C2 I J) as E. cbv zeta in E. rewrite blur_form in E. exact E. }
  assert (CM : forall i j, Rabs (Q2R (at_ cov i j)) <= M).
  { intros i j. cbn [cov at_]. apply Rabs_le. apply exact_between; [destruct SZ; split; cbn [values rows cols]; lia|].
    intros r' c' R C. apply neighbour_in in R, C. cbn [values rows cols at_] in *. destruct (PM r' c' R C) as [F E]. rewrite (value_R _ F). apply Rabs_le_inv. exact E. }
  set (s0 := Q2R (bilinear cov (value x * steps wd (snd (b_pb a))) (value y * steps h (fst (b_pb a))))).
  destruct (coordinate (M + (bl + bpow radix2 (-100))) s0 (bl + bpow radix2 (-100) + 10 * (u * DB))) as [F E].
  - lra.
  - intros i j I J. destruct (EN i j I J) as [F E]. split; [exact F|]. replace (real (entry i j)) with (Q2R (at_ cov i j) + (real (entry i j) - Q2R (at_ cov i j))) by ring.
    eapply Rle_trans; [apply Rabs_triang|]. pose proof (CM i j). lra.
  - intros S1 S2. assert (NEC : nonempty cov) by (destruct C1, C2; split; cbn [cov rows cols]; lia).
    pose proof (bilinear_near (values ch) cov (value sx) (value sy) (bl + bpow radix2 (-100))) as N1.
    pose proof (bilinear_lipschitz cov (3 * Dx) (3 * Dy) (value sx) (value sy) (value x * steps wd (snd (b_pb a))) (value y * steps h (fst (b_pb a))) NEC ltac:(Lqa.lra) ltac:(Lqa.lra) AC DN) as N2.
    apply Qle_Rle in N2. rewrite Q2R_abs, Q2R_minus, Q2R_plus, !Q2R_mult, !Q2R_abs in N2. replace (Q2R 3) with 3 in N2 by (unfold Q2R; cbn [Qnum Qden]; lra).
    pose proof (sample_close x wd (snd (b_pb a)) (value sx) C2 BX (proj2 XB) WB S2) as X1. pose proof (sample_close y h (fst (b_pb a)) (value sy) C1 BY (proj2 YB) HB S1) as X2.
    rewrite <- Q2R_minus in X1, X2. fold s0 in N2.
    assert (N1' : Rabs (Q2R (bilinear (values ch) (value sx) (value sy)) - Q2R (bilinear cov (value sx) (value sy))) <= bl + bpow radix2 (-100)).
    { apply N1; [destruct C1, C2; split; cbn [ch values rows cols g_rows g_cols]; lia | reflexivity | reflexivity|]. intros i j I J. cbn [ch values rows cols g_rows g_cols at_ g_at] in *. apply (EN i j I J). }
    assert (N3 : Rabs (Q2R (bilinear cov (value sx) (value sy)) - s0) <= 10 * (u * DB)).
    { eapply Rle_trans; [exact N2|]. apply Rle_trans with (3 * Q2R Dx * (301 / 100 * (u * B)) + 3 * Q2R Dy * (301 / 100 * (u * B))); [apply Rplus_le_compat; apply Rmult_le_compat_l; lra|].
      replace (3 * Q2R Dx * (301 / 100 * (u * B)) + 3 * Q2R Dy * (301 / 100 * (u * B))) with (903 / 100 * (u * DB)) by (unfold DB; field). lra. }
    replace (Q2R (bilinear (values ch) (value sx) (value sy)) - s0) with ((Q2R (bilinear (values ch) (value sx) (value sy)) - Q2R (bilinear cov (value sx) (value sy))) + (Q2R (bilinear cov (value sx) (value sy)) - s0)) by ring.
    eapply Rle_trans; [apply Rabs_triang|]. lra.
  - split; [exact F|]. eapply Rle_trans; [exact E|]. apply Rplus_le_compat_r. apply Rplus_le_compat_l. apply Rmult_le_compat_r.
    + destruct NB as [N1 N2]. destruct (ordinary_R r RO) as [_ [O1 _]]. pose proof (bpow_gt_0 radix2 (-20)). pose proof (steps_range n b N1 N2) as SR. pose proof (bpow_gt_0 radix2 (-24)).
      unfold Rdiv. apply Rmult_le_pos; [apply Rmult_le_pos; [lra | apply Rabs_pos] | left; apply Rinv_0_lt_compat; lra].
    + assert (T90 : 2 * bpow radix2 (-100) <= bpow radix2 (-90)) by (change 2 with (bpow radix2 1); rewrite <- bpow_plus; apply bpow_le; lia).
      assert (UB : u * bl <= / 100000 * bl) by (apply Rmult_le_compat_r; lra). assert (UT : u * bpow radix2 (-100) <= / 100000 * bpow radix2 (-100)) by (apply Rmult_le_compat_r; lra).
      replace (19 * (u * (M + (bl + bpow radix2 (-100)))) + (bl + bpow radix2 (-100) + 10 * (u * DB))) with (19 * (u * M) + 10 * (u * DB) + 19 * (u * bl) + bl + 19 * (u * bpow radix2 (-100)) + bpow radix2 (-100)) by ring.
      assert (19 * (u * M) + 10 * (u * DB) <= 3 / 2 * bl) by (unfold bl; lra). lra.
Qed.
End Channel.

(** * One particle *)
Section Particle.
Variables (recip : bool) (w : ways) (a : adapter64) (B M : R) (f : flow32) (h wd : Z) (p1 p2 : particle32).
Hypothesis U : usual a.
Hypothesis RB : reach B a.
Hypothesis CY : (fst (covered a) <= 8388608)%Q.
Hypothesis CX : (snd (covered a) <= 8388608)%Q.
Hypothesis EH : size64 (fst (b_pb a)) (b_res a) (b_ry a) = Ok h.
Hypothesis EW : size64 (snd (b_pb a)) (b_res a) (b_rx a) = Ok wd.
Hypothesis FW : flow_within M f.
Hypothesis PR : pad_room a f.
Hypothesis BOX : in_box (b_pb a) p1.
Hypothesis MV : (q_y p2, q_x p2) = second_position32 recip (b_pb a) (cropped32 w a h wd f) (to_f32 (b_dt a)) (to_f32 (b_rx a)) (to_f32 (b_ry a)) (q_y p1, q_x p1).

Lemma cov_R : forall len r, ordinary r -> (inject_Z len / double (b_res a) * double r <= 8388608)%Q -> spanR len (b_res a) r <= 8388608.
Proof.
  intros len r O C. apply Qle_Rle in C. destruct U as ((O' & _) & _). rewrite span_Q in C by exact O'. replace (Q2R 8388608) with 8388608 in C by (unfold Q2R; cbn [Qnum Qden]; lra). exact C.
Qed.

Lemma box_abs : (finite (q_y p1) /\ Rabs (real (q_y p1)) <= IZR (fst (b_pb a))) /\ (finite (q_x p1) /\ Rabs (real (q_x p1)) <= IZR (snd (b_pb a))).
Proof. destruct BOX as (F1 & F2 & Y & X). split; (split; [assumption|]); rewrite Rabs_pos_eq; lra. Qed.

Lemma box_within : within (bpow radix2 24) (q_y p1) /\ within (bpow radix2 24) (q_x p1).
Proof.
  destruct box_abs as [[F1 Y] [F2 X]]. destruct U as (_ & _ & _ & _ & (BY & BX) & _).
  split; (split; [assumption|]); (eapply Rle_trans; [eassumption|]); change (bpow radix2 24) with (IZR (2 ^ 24)); apply IZR_le; unfold count_ok in *; lia.
Qed.

Let count_h : count_ok h.
Proof. destruct U as ((O & OX & OY) & _ & _ & _ & (BY & BX) & _). apply (size_bounds _ _ _ _ BY O OY (cov_R _ _ OY CY) EH). Qed.
Let count_w : count_ok wd.
Proof. destruct U as ((O & OX & OY) & _ & _ & _ & (BY & BX) & _). apply (size_bounds _ _ _ _ BX O OX (cov_R _ _ OX CX) EW). Qed.

Lemma small_68 : bpow radix2 (-68) <= bpow radix2 (-50). Proof. apply bpow_le. lia. Qed.

Lemma particle_carried : forall Dx Dy, varies Dx Dy f -> M + blur M Dx Dy B <= bpow radix2 19 ->
  carried (3 * blur M Dx Dy B) (numbers a) (covering (numbers a) h wd (flow_of f)) p1 p2.
Proof.
  intros Dx Dy VR MB. destruct (flow_chans M Dx Dy f FW VR) as [C0 C1]. pose proof U as ((O & OX & OY) & _ & _ & _ & (BY & BX) & _). destruct box_abs as [YB XB]. destruct box_within as [YW XW]. destruct PR as [P1 P2].
  pose proof (carried_coordinate recip w a B M (h_v f) (h_H f) (h_W f) h wd (q_y p1) (q_x p1) (q_y p1) h (fst (b_pb a)) (b_ry a) U RB (cov_R _ _ OY CY) (cov_R _ _ OX CX) EH EW P1 P2 YB XB YW (conj count_h BY) OY Dx Dy C1 MB) as [FY EY].
  pose proof (carried_coordinate recip w a B M (h_u f) (h_H f) (h_W f) h wd (q_y p1) (q_x p1) (q_x p1) wd (snd (b_pb a)) (b_rx a) U RB (cov_R _ _ OY CY) (cov_R _ _ OX CX) EH EW P1 P2 YB XB XW (conj count_w BX) OX Dx Dy C0 MB) as [FX EX].
  cbn [second_position32 update32] in MV. injection MV as MY MX.
  unfold carried. cbn [second_position update_2d].
  match type of FY with finite ?t => replace t with (q_y p2) in FY, EY by exact MY end. match type of FX with finite ?t => replace t with (q_x p2) in FX, EX by exact MX end.
  pose proof small_68 as SM.
  assert (G : forall (q s c : Q) rr d, (0 < Q2R c) -> Q2R ((q * c + s * rr * d) / c) = Q2R q + Q2R s * Q2R rr * Q2R d / Q2R c).
  { intros q s c rr d C. rewrite Q2R_div', Q2R_plus, !Q2R_mult by (intros E; rewrite (Qeq_eqR _ _ E), Q2R_0 in C; lra). field. lra. }
  pose proof (bpow_gt_0 radix2 (-24)) as P24.
  split; (split; [assumption|]).
  - pose proof (steps_range h (fst (b_pb a)) count_h BY) as SR. unfold steps in SR. cbn [covering fH fW ad_pb numbers] in *.
    rewrite G by (cbn; lra). fold (real (q_y p1)). pose proof (Rabs_pos (real (q_y p1))). eapply Rle_trans; [exact EY|]. cbn [ad_dt ad_ry numbers]. lra.
  - pose proof (steps_range wd (snd (b_pb a)) count_w BX) as SR. unfold steps in SR. cbn [covering fH fW ad_pb numbers] in *.
    rewrite G by (cbn; lra). fold (real (q_x p1)). pose proof (Rabs_pos (real (q_x p1))). eapply Rle_trans; [exact EX|]. cbn [ad_dt ad_rx numbers]. lra.
Qed.

(** [k] times the resolution: what is reported, and what is moved. *)
Lemma follows_one : forall (rr : f64) len n (k d z z' X : R), ordinary rr -> (1 <= len < 2 ^ 24)%Z -> count_ok n ->
  X = spanR len (b_res a) rr -> X / IZR n <= 2 + bpow radix2 (-20) -> 1 - bpow radix2 (-50) <= X / IZR n ->
  let K := Q2R (double (b_res a) * double (b_dt a)) in
  Rabs (z' - (z + k * Q2R (double rr) * Q2R (double (b_dt a)) / Q2R (steps n len))) <=
    5 / 16777216 * Rabs z + (37 * (u * Rabs k) + bpow radix2 (-99)) * (Q2R (double rr) * Rabs (Q2R (double (b_dt a))) / Q2R (steps n len)) + bpow radix2 (-68) ->
  Rabs (d - k * K) <= bpow radix2 (-20) * (Rabs K * Rabs k) + bpow radix2 (-100) ->
  Rabs (z' - z - X / IZR n * d) <= 6 / 16777216 * Rabs z + bpow radix2 (-17) * Rabs d + bpow radix2 (-50).
Proof.
  intros rr len n k d z z' X O L N EX R2 R1 K E D. pose proof U as ((O' & _) & _). destruct (ordinary_R _ O) as [_ [Q1 Q2]]. destruct (ordinary_R _ O') as [_ [S1 S2]]. pose proof (bpow_gt_0 radix2 (-20)) as P20.
  assert (n1 : 1 <= IZR n) by (apply (IZR_le 1); destruct N; lia). assert (l1 : 1 <= IZR len) by (apply (IZR_le 1); lia).
  assert (EF : Q2R (double rr) / Q2R (steps n len) = X / IZR n * Q2R (double (b_res a))) by (rewrite EX; unfold spanR; rewrite steps_R by lia; field; repeat split; lra).
  set (rho := X / IZR n) in *. set (res := Q2R (double (b_res a))) in *. set (dt := Q2R (double (b_dt a))) in *.
  assert (EK : K = res * dt) by (unfold K; rewrite Q2R_mult; reflexivity).
  assert (A1 : k * Q2R (double rr) * dt / Q2R (steps n len) = rho * (k * K)) by (replace (k * Q2R (double rr) * dt / Q2R (steps n len)) with (k * dt * (Q2R (double rr) / Q2R (steps n len))) by (unfold Rdiv; ring); rewrite EF, EK; ring).
  assert (A2 : Q2R (double rr) * Rabs dt / Q2R (steps n len) = rho * Rabs K) by (replace (Q2R (double rr) * Rabs dt / Q2R (steps n len)) with (Rabs dt * (Q2R (double rr) / Q2R (steps n len))) by (unfold Rdiv; ring); rewrite EF, EK, Rabs_mult, (Rabs_pos_eq res) by lra; ring).
  rewrite A1, A2 in E. destruct powers as [_ E20]. rewrite E20 in *. clear EF A1 A2.
  assert (U0 : 0 < u <= / 100000) by (unfold u; lra). assert (E17 : bpow radix2 (-17) = 128 * u) by (rewrite <- u_u32; unfold u32; change 128 with (bpow radix2 7); rewrite <- bpow_plus; reflexivity). rewrite E17.
  assert (T50 : bpow radix2 (-50) <= / 1024) by (change (/ 1024) with (bpow radix2 (-10)); apply bpow_le; lia).
  assert (r0 : 0 <= rho <= 2001 / 1000) by lra.
  set (m := Rabs K * Rabs k). assert (m0 : 0 <= m) by (apply Rmult_le_pos; apply Rabs_pos).
  assert (EM : Rabs (k * K) = m) by (unfold m; rewrite Rabs_mult; ring).
  pose proof (bpow_gt_0 radix2 (-100)) as T0.
  assert (BM : m <= 1001 / 1000 * (Rabs d + bpow radix2 (-100))).
  { assert (X1 : m <= Rabs d + Rabs (d - k * K)) by (rewrite <- EM; replace (k * K) with (d + - (d - k * K)) at 1 by ring; eapply Rle_trans; [apply Rabs_triang|]; rewrite Rabs_Ropp; apply Rle_refl).
    fold m in D. assert (16 * u * m <= 16 / 100000 * m) by (apply Rmult_le_compat_r; lra). lra. }
  assert (KB : Rabs K <= bpow radix2 40).
  { rewrite EK, Rabs_mult, (Rabs_pos_eq res) by lra. destruct (dt_ok a U) as [DT _]. fold dt in DT. change 40%Z with (20 + 20)%Z. rewrite bpow_plus. apply Rmult_le_compat; try lra. apply Rabs_pos. }
  replace (z' - z - rho * d) with ((z' - (z + rho * (k * K))) - rho * (d - k * K)) by ring.
  eapply Rle_trans; [apply Rabs_triang|]. rewrite Rabs_Ropp, (Rabs_mult rho), (Rabs_pos_eq rho) by lra. fold m in D.
  assert (C1 : rho * Rabs (d - k * K) <= 2001 / 1000 * (16 * u * m + bpow radix2 (-100))) by (apply Rmult_le_compat; (apply Rabs_pos || lra)).
  assert (C2 : (37 * (u * Rabs k) + bpow radix2 (-99)) * (rho * Rabs K) <= 2001 / 1000 * (37 * (u * m)) + 2001 / 1000 * bpow radix2 (-59)).
  { replace ((37 * (u * Rabs k) + bpow radix2 (-99)) * (rho * Rabs K)) with (rho * (37 * (u * m)) + rho * (bpow radix2 (-99) * Rabs K)) by (unfold m; ring).
    assert (0 <= u * m) by (apply Rmult_le_pos; lra). assert (KK : bpow radix2 (-99) * Rabs K <= bpow radix2 (-59)) by (change (-59)%Z with (-99 + 40)%Z; rewrite bpow_plus; apply Rmult_le_compat_l; [apply bpow_ge_0 | exact KB]).
    apply Rplus_le_compat; (apply Rmult_le_compat; [lra | | lra | lra]); [lra|]. apply Rmult_le_pos; [apply bpow_ge_0 | apply Rabs_pos]. }
  assert (T : bpow radix2 (-59) <= / 100 * bpow radix2 (-50)) by (apply Rle_trans with (bpow radix2 (-9) * bpow radix2 (-50)); [rewrite <- bpow_plus; apply bpow_le; lia | apply Rmult_le_compat_r; [apply bpow_ge_0|]; change (bpow radix2 (-9)) with (/ 512); lra]).
  assert (T' : bpow radix2 (-68) <= bpow radix2 (-59) /\ bpow radix2 (-100) <= bpow radix2 (-59)) by (split; apply bpow_le; lia).
  assert (UM : u * m <= u * (1001 / 1000 * (Rabs d + bpow radix2 (-100)))) by (apply Rmult_le_compat_l; lra).
  assert (UT : u * bpow radix2 (-100) <= / 100000 * bpow radix2 (-100)) by (apply Rmult_le_compat_r; lra).
  assert (UD : 0 <= u * Rabs d) by (apply Rmult_le_pos; [lra | apply Rabs_pos]). pose proof (Rabs_pos z).
  replace (u * (1001 / 1000 * (Rabs d + bpow radix2 (-100)))) with (1001 / 1000 * (u * Rabs d) + 1001 / 1000 * (u * bpow radix2 (-100))) in UM by ring. lra.
Qed.

Lemma particle_follows : forall u0 v0, M <= bpow radix2 19 -> uniform32 u0 v0 f -> b_pixels a = true -> (1 <= fst (covered a))%Q -> (1 <= snd (covered a))%Q ->
  follows (Q2R (fst (covered a)) / IZR h) (Q2R (snd (covered a)) / IZR wd) (reported32 w a f) p1 p2.
Proof.
  intros u0 v0 BM UN PX C1 C2 i j I J. pose proof U as ((O & OX & OY) & _ & _ & _ & (BY & BX) & _). destruct box_abs as [YB XB]. destruct box_within as [YW XW]. destruct PR as [P1 P2]. destruct FW as (HH & HW & FA).
  assert (AU : forall r c, (0 <= r < h_H f)%Z -> (0 <= c < h_W f)%Z -> finite (h_u f r c) /\ real (h_u f r c) = real u0) by (intros r c X Y; split; [apply (FA r c X Y) | apply (UN r c X Y)]).
  assert (AV : forall r c, (0 <= r < h_H f)%Z -> (0 <= c < h_W f)%Z -> finite (h_v f r c) /\ real (h_v f r c) = real v0) by (intros r c X Y; split; [apply (FA r c X Y) | apply (UN r c X Y)]).
  assert (BU : Rabs (real u0) <= bpow radix2 19) by (destruct (FA 0%Z 0%Z ltac:(lia) ltac:(lia)) as [[_ X] _]; rewrite (proj2 (AU 0%Z 0%Z ltac:(lia) ltac:(lia))) in X; lra).
  assert (BV : Rabs (real v0) <= bpow radix2 19) by (destruct (FA 0%Z 0%Z ltac:(lia) ltac:(lia)) as [_ [_ X]]; rewrite (proj2 (AV 0%Z 0%Z ltac:(lia) ltac:(lia))) in X; lra).
  assert (B40 : bpow radix2 19 <= bpow radix2 40) by (apply bpow_le; lia).
  pose proof (uniform_coordinate recip w a B (h_v f) (h_H f) (h_W f) h wd (q_y p1) (q_x p1) (q_y p1) h (fst (b_pb a)) (b_ry a) U RB (cov_R _ _ OY CY) (cov_R _ _ OX CX) EH EW P1 P2 YB XB YW (conj count_h BY) OY v0 BV ltac:(lia) ltac:(lia) AV) as [_ EY].
  pose proof (uniform_coordinate recip w a B (h_u f) (h_H f) (h_W f) h wd (q_y p1) (q_x p1) (q_x p1) wd (snd (b_pb a)) (b_rx a) U RB (cov_R _ _ OY CY) (cov_R _ _ OX CX) EH EW P1 P2 YB XB XW (conj count_w BX) OX u0 BU ltac:(lia) ltac:(lia) AU) as [_ EX].
  cbn [second_position32 update32] in MV. injection MV as MY MX.
  pose proof (uniform_reported w a B u0 (h_u f) (h_H f) (h_W f) i j U RB ltac:(lra) ltac:(lia) ltac:(lia) AU P1 P2 I J) as [_ RU].
  pose proof (uniform_reported w a B v0 (h_v f) (h_H f) (h_W f) i j U RB ltac:(lra) ltac:(lia) ltac:(lia) AV P1 P2 I J) as [_ RV].
  unfold shownR, factor in RU, RV. unfold reported32. cbn [h_u h_v]. rewrite PX in *.
  destruct (stretched _ _ _ _ BY O OY (conj C1 CY) EH) as [[SY1 SY2] _]. destruct (stretched _ _ _ _ BX O OX (conj C2 CX) EW) as [[SX1 SX2] _].
  split.
  - apply (follows_one (b_ry a) (fst (b_pb a)) h (real v0) _ _ _ _ OY BY count_h); [unfold covered; apply span_Q; exact O | exact SY2 | exact SY1 | rewrite MY; exact EY | exact RV].
  - apply (follows_one (b_rx a) (snd (b_pb a)) wd (real u0) _ _ _ _ OX BX count_w); [unfold covered; apply span_Q; exact O | exact SX2 | exact SX1 | rewrite MX; exact EX | exact RU].
Qed.
End Particle.
