(** Pixels against the mathematical picture. *)
From Coq Require Import List Arith ZArith QArith Qround Qreals Qabs Qminmax Bool Permutation Reals Lia Lqa Lra Psatz.
From Flocq Require Import Core Relative Plus_error Mult_error IEEE754.BinarySingleNaN.
From Verif Require Import Prelude Model.Interp Model.Geometry Model.Render Model.InterpFloat Model.HistFloat Model.DrawFloat.
From Verif Require Import Spec.InterpSpec Spec.RenderSpec Spec.InterpFloatSpec Spec.DrawFloatSpec Spec.KernelFloatSpec.
From Verif Require Import Proofs.InterpProofs Proofs.RenderProofs Proofs.FloatProofs Proofs.RoundProofs Proofs.InterpFloatProofs Proofs.InterpBinary.
From Verif Require Import Proofs.DrawFloatProofs Proofs.PlaceFloatProofs Proofs.DrawnPixel Proofs.KernelError Proofs.KernelFloatProofs.
Import ListNotations.
Local Open Scope R_scope.

(** * Offsets *)
Lemma coarse : forall c, float32 c -> 1 <= c -> exists k, c = IZR k * bpow radix2 (-23).
Proof.
  intros c F C1. unfold float32 in F. set (e := cexp radix2 (FLT_exp (-149) 24) c).
  assert (E : (-23 <= e)%Z).
  { unfold e, cexp, FLT_exp. assert (0 < mag radix2 c)%Z; [|lia]. apply (lt_bpow radix2). eapply Rle_lt_trans; [|apply bpow_mag_gt].
    change (bpow radix2 0) with 1. rewrite Rabs_pos_eq by lra. exact C1. }
  exists (Ztrunc (scaled_mantissa radix2 (FLT_exp (-149) 24) c) * 2 ^ (e + 23))%Z.
  rewrite F at 1. unfold F2R. cbn [Fnum Fexp]. fold e. rewrite mult_IZR, Rmult_assoc. f_equal.
  change 2%Z with (radix_val radix2) at 1. rewrite IZR_Zpower by lia. rewrite <- bpow_plus. f_equal. lia.
Qed.

Lemma offset_size : forall c row r, float32 (Q2R c) -> 1 <= Q2R c -> (0 <= r < 2 ^ 23)%Z -> in_patch r c row -> sz (-23) 24 (Q2R (inject_Z row - c)).
Proof.
  intros c row r F C1 R [A B]. apply Qle_Rle in A. apply Qlt_Rlt in B. rewrite Q2R_plus, Q2R_1, !Q2R_Z, plus_IZR in B. rewrite Q2R_Z, minus_IZR in A.
  rewrite Q2R_minus, Q2R_Z. assert (RB : IZR r <= IZR (2 ^ 23 - 1)) by (apply IZR_le; lia). rewrite minus_IZR in RB. change (IZR (2 ^ 23)) with (bpow radix2 23) in RB.
  destruct (coarse _ F C1) as [k K].
  assert (E : IZR row - Q2R c = IZR (row * 2 ^ 23 - k) * bpow radix2 (-23)).
  { rewrite K, minus_IZR, mult_IZR. change (IZR (2 ^ 23)) with (bpow radix2 23).
    rewrite Rmult_minus_distr_r, Rmult_assoc, <- bpow_plus. change (bpow radix2 (23 + -23)) with 1. ring. }
  destruct (Z.eq_dec (row * 2 ^ 23 - k) 0) as [Z0|Z0]; [left; rewrite E, Z0; ring|]. right. split.
  - rewrite E, Rabs_mult, (Rabs_pos_eq (bpow radix2 (-23))) by apply bpow_ge_0. rewrite <- (Rmult_1_l (bpow radix2 (-23))) at 1.
    apply Rmult_le_compat_r; [apply bpow_ge_0|]. rewrite <- abs_IZR. apply IZR_le. lia.
  - apply Rle_trans with (bpow radix2 23); [|apply bpow_le; lia]. apply Rabs_le. lra.
Qed.

Lemma drawn_float : forall n r last p, (1 <= r)%Z -> (2 * r + 1 <= n < 2 ^ 24)%Z -> far n r last -> finite p ->
  float32 (Q2R (drawn_at last r p)) /\ 1 <= Q2R (drawn_at last r p).
Proof.
  intros n r last p R N (F & A & _) FP. unfold drawn_at.
  assert (FR : float32 (Q2R (inject_Z r))) by (rewrite Q2R_Z; exact (rep_float _ _ (rep_ofZ r ltac:(lia)))).
  assert (R1 : 1 <= Q2R (inject_Z r)) by (rewrite Q2R_Z; apply (IZR_le 1); exact R).
  assert (L1 : 1 <= Q2R last).
  { apply Qle_Rle in A. rewrite !Q2R_minus, !Q2R_Z in A. unfold Q2R in A at 1. cbn [Qnum Qden] in A.
    assert (IZR (r + 1) <= IZR (n - r)) by (apply IZR_le; lia). rewrite plus_IZR, minus_IZR in H. rewrite Q2R_Z in R1. lra. }
  assert (FPV : float32 (Q2R (value p))) by (apply value_float; exact FP).
  assert (M : forall a b : Q, float32 (Q2R a) -> float32 (Q2R b) -> float32 (Q2R (Qmax a b)) /\ Q2R a <= Q2R (Qmax a b)).
  { intros a b FA FB. destruct (Q.max_spec a b) as [[L E]|[L E]]; rewrite (Qeq_eqR _ _ E); (split; [assumption|]); [apply Rlt_le, Qlt_Rlt; exact L | lra]. }
  destruct (M _ _ FR FPV) as [M1 M2].
  destruct (Q.min_spec last (Qmax (inject_Z r) (value p))) as [[L E]|[L E]]; rewrite (Qeq_eqR _ _ E); (split; [assumption | lra]).
Qed.

(** * Quotients of numbers *)
Lemma Q2R_div' : forall a b : Q, ~ (b == 0)%Q -> Q2R (a / b) = Q2R a / Q2R b.
Proof. intros a b N. apply Q2R_div. exact N. Qed.

Lemma Q2R_2 : Q2R 2 = 2. Proof. exact (Q2R_Z 2). Qed.

Section One.
Variables (ex : f32 -> f32) (eps : R) (lasty lastx : Q) (H W r : Z) (p : particle32) (row col : Z) (v : f32).
Hypothesis EPS : 0 <= eps <= 1.
Hypothesis EX : exp_within eps ex.
Hypothesis R1 : (1 <= r)%Z.
Hypothesis RM : room H W r.
Hypothesis FY : far H r lasty.
Hypothesis FX : far W r lastx.
Hypothesis PL : placed p.
Hypothesis OR : ordinary p.

Let dyq : Q := (inject_Z row - drawn_at lasty r (q_y p))%Q.
Let dxq : Q := (inject_Z col - drawn_at lastx r (q_x p))%Q.

Lemma diameter_size : forall d, finite d -> (1 # 1048576 <= value d <= 1048576)%Q ->
  rep (div32 d (f32_ofZ 2)) (Q2R (value d) / 2) /\ 0 < Q2R (value d) / 2 /\ nzb (-21) 19 (Q2R (value d) / 2).
Proof.
  intros d F [A B]. apply Qle_Rle in A, B. assert (E : Q2R 1048576 = bpow radix2 20) by exact (Q2R_Z 1048576). rewrite E in B.
  assert (E' : Q2R (1 # 1048576) = bpow radix2 (-20)) by (unfold Q2R; cbn [Qnum Qden bpow]; change (Z.pow_pos radix2 20) with 1048576%Z; lra). rewrite E' in A.
  pose proof (bpow_gt_0 radix2 (-20)) as P. assert (N : nzb (-20) 20 (Q2R (value d))) by (split; rewrite Rabs_pos_eq by lra; assumption).
  split; [|split; [lra|]].
  - apply rep_half; [split; [exact F | symmetry; apply value_R; exact F]|]. right. destruct N as [N1 N2].
    split; [eapply Rle_trans; [|exact N1]; apply bpow_le; lia | eapply Rle_trans; [exact N2|]; apply bpow_le; lia].
  - unfold Rdiv. apply (nzb_mul (-20) 20 (-1) (-1)); [exact N|]. split; (rewrite Rabs_pos_eq by lra); change (bpow radix2 (-1)) with (/ 2); lra.
Qed.

Lemma shine_R : Q2R (- (mahalanobis (exactly p) dyq dxq / 2)) =
  - (form (Q2R dxq) (Q2R dyq) (Q2R (value (q_dx p)) / 2) (Q2R (value (q_dy p)) / 2) (Q2R (value (q_rho p))) / om (Q2R (value (q_rho p)))) / 2 /\
  Q2R (spread p dyq dxq) = q (Q2R dxq) (Q2R dyq) (Q2R (value (q_dx p)) / 2) (Q2R (value (q_dy p)) / 2) /\
  Q2R (fatness p) = om (Q2R (value (q_rho p))).
Proof.
  destruct OR as (_ & _ & _ & _ & [X1 _] & [Y1 _] & [B1 B2] & _).
  assert (NX : ~ (value (q_dx p) == 0)%Q) by (intros E; rewrite E in X1; revert X1; apply Qlt_not_le; reflexivity).
  assert (NY : ~ (value (q_dy p) == 0)%Q) by (intros E; rewrite E in Y1; revert Y1; apply Qlt_not_le; reflexivity).
  assert (FA : Q2R (fatness p) = om (Q2R (value (q_rho p)))) by (unfold fatness, om; rewrite Q2R_minus, Q2R_mult, Q2R_1; reflexivity).
  assert (BR : Rabs (Q2R (value (q_rho p))) <= 1023 / 1024).
  { apply Qle_Rle in B1, B2. rewrite Q2R_opp in B1. assert (E : Q2R (1023 # 1024) = 1023 / 1024) by reflexivity. rewrite E in *. apply Rabs_le. lra. }
  pose proof (om_range _ BR) as OM.
  assert (NF : ~ (fatness p == 0)%Q) by (intros E; apply Qeq_eqR in E; rewrite FA, Q2R_0 in E; lra).
  assert (PX : Q2R (value (q_dx p)) <> 0) by (intros E; apply NX; apply eqR_Qeq; rewrite Q2R_0; exact E).
  assert (PY : Q2R (value (q_dy p)) <> 0) by (intros E; apply NY; apply eqR_Qeq; rewrite Q2R_0; exact E).
  split; [|split; [|exact FA]].
  - unfold mahalanobis, exactly. cbn [p_dx p_dy p_rho p_amp]. fold (fatness p).
    rewrite Q2R_opp, Q2R_div' by discriminate. rewrite Q2R_div' by exact NF. rewrite FA, Q2R_plus, Q2R_minus, !Q2R_mult, !Q2R_div', !Q2R_mult, Q2R_2 by assumption.
    unfold form, q, al, be. field. lra.
  - unfold spread. rewrite Q2R_plus, !Q2R_mult, !Q2R_div', !Q2R_mult, Q2R_2 by assumption. unfold q, al, be. field. lra.
Qed.

Lemma tiny_e32 : / 2 ^ 150 = e32.
Proof. unfold e32. change 2 with (IZR 2). rewrite pow_IZR. reflexivity. Qed.

Lemma contribution : adds ex lasty lastx r p row col (Some v) ->
  finite v /\ Rabs (Q2R (value v) - shine p dyq dxq) <= tolerance eps p dyq dxq /\
  (exp_unit ex -> 0 <= Q2R (value v) <= Q2R (value (q_amp p))).
Proof.
  intros (IY & IX & dy & dx & [FDY CY] & [FDX CX] & ->). destruct RM as [RY RX]. destruct PL as [PY PX].
  destruct (drawn_float H r lasty (q_y p) R1 RY FY PY) as [DY1 DY2]. destruct (drawn_float W r lastx (q_x p) R1 RX FX PX) as [DX1 DX2].
  pose proof (offset_size _ row r DY1 DY2 ltac:(lia) IY) as SY. pose proof (offset_size _ col r DX1 DX2 ltac:(lia) IX) as SX. fold dyq in SY. fold dxq in SX.
  destruct shine_R as (E1 & E2 & E3). destruct OR as (F1 & F2 & F3 & F4 & D1 & D2 & [B1 B2] & [A1 A2]).
  destruct (diameter_size _ F1 D1) as (X1 & X2 & X3). destruct (diameter_size _ F2 D2) as (Y1 & Y2 & Y3).
  assert (BR : Rabs (Q2R (value (q_rho p))) <= 1023 / 1024).
  { apply Qle_Rle in B1, B2. rewrite Q2R_opp in B1. assert (E : Q2R (1023 # 1024) = 1023 / 1024) by reflexivity. rewrite E in *. apply Rabs_le. lra. }
  assert (BA : 0 <= Q2R (value (q_amp p)) <= bpow radix2 20).
  { apply Qle_Rle in A1, A2. rewrite Q2R_0 in A1. assert (E : Q2R 1048576 = bpow radix2 20) by exact (Q2R_Z 1048576). rewrite E in A2. lra. }
  pose proof (kernel_float ex eps EPS EX dx dy (div32 (q_dx p) (f32_ofZ 2)) (div32 (q_dy p) (f32_ofZ 2)) (q_rho p) (q_amp p)
    (Q2R dxq) (Q2R dyq) (Q2R (value (q_dx p)) / 2) (Q2R (value (q_dy p)) / 2) (Q2R (value (q_rho p))) (Q2R (value (q_amp p)))
    (conj FDX (eq_trans (eq_sym (value_R dx FDX)) CX)) (conj FDY (eq_trans (eq_sym (value_R dy FDY)) CY)) SX SY X1 Y1 X2 Y2 X3 Y3
    (conj F3 (eq_sym (value_R _ F3))) BR (conj F4 (eq_sym (value_R _ F4))) BA) as K. cbv zeta in K.
  set (w := gaussian _ _ _ _ _ _ _ _ _) in *. destruct K as (K1 & K2 & K3). split; [exact K1|].
  rewrite (value_R w K1). split; [|exact K3].
  unfold shine, tolerance. rewrite E1, E2, E3, tiny_e32. unfold u in K2. lra.
Qed.
End One.

(** * The sum *)
Section All.
Variables (ex : f32 -> f32) (eps : R) (lasty lastx : Q) (H W r row col : Z).
Hypothesis EPS : 0 <= eps <= 1.
Hypothesis EX : exp_within eps ex.
Hypothesis EU : exp_unit ex.
Hypothesis R1 : (1 <= r)%Z.
Hypothesis RM : room H W r.
Hypothesis FY : far H r lasty.
Hypothesis FX : far W r lastx.

Lemma picture_of : forall ps vs, Forall placed ps -> Forall ordinary ps -> lights ex lasty lastx r ps row col vs ->
  exists n s t a, picture eps lasty lastx r row col ps n s t a /\ List.length vs = n /\ Forall finite vs /\
    Rabs (sumR vs - s) <= t /\ absR vs <= a /\ 0 <= a <= IZR (2 ^ 20) * INR n /\ (n <= List.length ps)%nat.
Proof.
  intros ps vs PL OR (os & F & ->). induction F as [|p o ps os A F IH].
  - exists 0%nat, 0, 0, 0. split; [constructor|]. split; [reflexivity|]. split; [constructor|]. unfold sumR, absR. cbn.
    rewrite Rminus_diag_eq, Rabs_R0 by reflexivity. repeat split; lra || lia.
  - inversion PL as [|? ? P1 P2]; subst. inversion OR as [|? ? O1 O2]; subst.
    destruct (IH P2 O2) as (n & s & t & a & PI & L & FI & E & S & BA & LE). destruct o as [v|].
    + pose proof (contribution ex eps lasty lastx H W r p row col v EPS EX R1 RM FY FX P1 O1 A) as (K1 & K2 & K3). specialize (K3 EU).
      destruct A as (I1 & I2 & _). exists (Datatypes.S n); do 3 eexists. split; [apply pic_in; eassumption|]. cbn [flat_map app List.length].
      split; [rewrite L; reflexivity|]. split; [constructor; assumption|].
      unfold sumR, absR in *. cbn [fold_right]. rewrite (value_R v K1) in K2, K3.
      split; [|split; [|split]].
      * eapply Rle_trans; [|apply Rplus_le_compat; [exact K2 | exact E]]. eapply Rle_trans; [|apply Rabs_triang]. apply Req_le. f_equal. ring.
      * rewrite Rabs_pos_eq by lra. lra.
      * rewrite S_INR. destruct O1 as (_ & _ & _ & _ & _ & _ & _ & [A1 A2]). apply Qle_Rle in A1, A2. rewrite Q2R_0 in A1.
        assert (E2 : Q2R 1048576 = IZR (2 ^ 20)) by exact (Q2R_Z 1048576). rewrite E2 in A2. lra.
      * cbn [List.length]. lia.
    + exists n, s, t, a. split; [apply pic_out; assumption|]. cbn [flat_map app List.length]. repeat split; try assumption; try lra. lia.
Qed.

Lemma sums_fit : forall n, (Z.of_nat n <= 2 ^ 23)%Z -> IZR (2 ^ 20) * INR n <= IZR (2 ^ 126).
Proof.
  intros n N. rewrite INR_IZR_INZ, <- mult_IZR. apply IZR_le. lia.
Qed.
End All.

Lemma clipped_R : forall clip t, clipped clip t = clampR clip t. Proof. reflexivity. Qed.

Lemma picture_pixel_all : forall ex eps ps H W maxd r clip im row col, 0 <= eps <= 1 -> exp_within eps ex -> exp_unit ex ->
  (0 <= maxd)%Q -> radius_of maxd r -> (1 <= r)%Z -> room H W r -> Forall placed ps -> Forall ordinary ps -> (Z.of_nat (List.length ps) <= 2 ^ 23)%Z ->
  drawn32 ex ps H W maxd clip im -> (0 <= row < H)%Z -> (0 <= col < W)%Z ->
  exists n s t a, picture eps (lastc H r) (lastc W r) r row col ps n s t a /\
    finite (g_at im row col) /\
    Rabs (Q2R (value (g_at im row col)) - clipped clip s) <= t + (Q2R (grow (Nat.pred n)) - 1) * a /\
    Rabs (Q2R (value (g_at im row col))) <= 2 * a /\ 0 <= a <= bpow radix2 43.
Proof.
  intros ex eps ps H W maxd r clip im row col EPS EX EU MD RO R1 RM PL OR LP D A B.
  destruct (lasts H W maxd r MD RO RM) as [F1 F2].
  pose proof (vs_lights ex ps H W maxd r MD RO RM PL row col A B) as L.
  pose proof (pixel_error ex ps H W maxd r MD RO clip im row col D A B) as PE.
  set (vs := hits H W (flat_map (scatter_one32 ex H W r) ps) row col) in *.
  destruct (picture_of ex eps _ _ H W r row col EPS EX EU R1 RM F1 F2 ps vs PL OR L) as (n & s & t & a & PI & N & FI & E & S & BA & LE).
  destruct (sums_R vs FI) as [S1 S2].
  assert (SM : summable vs).
  { split; [exact FI|]. split; [lia|]. apply Rle_Qle. rewrite S2, Q2R_Z. pose proof (sums_fit n ltac:(lia)). lra. }
  destruct (PE SM) as [PF PB]. exists n, s, t, a. split; [exact PI|]. split; [exact PF|].
  assert (PB' : Rabs (Q2R (value (g_at im row col)) - clampR clip (sumR vs)) <= Q2R (slack vs)).
  { apply Qabs_Qle_condition in PB. rewrite !Q2R_le, Q2R_opp, Q2R_minus, clamp_R, S1 in PB. apply Rabs_le. exact PB. }
  unfold slack in PB'. rewrite Q2R_mult, Q2R_minus, Q2R_1, S2, N in PB'.
  rewrite clipped_R. pose proof (clampR_lip clip (sumR vs) s) as LI.
  assert (G : 0 <= Q2R (grow (Nat.pred n)) - 1) by (rewrite grow_R; pose proof (pow_1 (Nat.pred n)); lra).
  assert (G2 : Q2R (grow (Nat.pred n)) - 1 <= 1).
  { rewrite grow_R. pose proof (pow_inv (Nat.pred n)) as P. pose proof (pow_1 (Nat.pred n)) as P1. assert (I : INR (Nat.pred n) * u32 <= / 2).
    { rewrite INR_IZR_INZ. unfold u32. assert (I : IZR (Z.of_nat (Nat.pred n)) <= IZR (2 ^ 23)) by (apply IZR_le; lia). change (IZR (2 ^ 23)) with (bpow radix2 23) in I.
      apply Rle_trans with (bpow radix2 23 * bpow radix2 (-24)); [apply Rmult_le_compat_r; [apply bpow_ge_0 | exact I]|]. rewrite <- bpow_plus. change (bpow radix2 (23 + -24)) with (/ 2). lra. }
    assert ((1 + u32) ^ Nat.pred n * (/ 2) <= (1 + u32) ^ Nat.pred n * (1 - INR (Nat.pred n) * u32)) by (apply Rmult_le_compat_l; lra). lra. }
  split; [|split; [|split; [apply BA|]]].
  2:{ pose proof (sum_size vs) as SS. pose proof (clampR_lip clip (sumR vs) 0) as L0. assert (C0 : clampR clip 0 = 0) by (destruct clip; [unfold clampR; rewrite Rmax_left, Rmin_left by lra; reflexivity | reflexivity]).
      rewrite C0, !Rminus_0_r in L0. replace (Q2R (value (g_at im row col))) with ((Q2R (value (g_at im row col)) - clampR clip (sumR vs)) + clampR clip (sumR vs)) by ring.
      eapply Rle_trans; [apply Rabs_triang|]. pose proof (absR_pos vs).
      assert ((Q2R (grow (Nat.pred n)) - 1) * absR vs <= 1 * absR vs) by (apply Rmult_le_compat_r; lra). lra. }
  2:{ destruct BA as [_ BA]. eapply Rle_trans; [exact BA|]. rewrite INR_IZR_INZ, <- mult_IZR. change (bpow radix2 43) with (IZR (2 ^ 43)). apply IZR_le. lia. }
  replace (Q2R (value (g_at im row col)) - clampR clip s) with ((Q2R (value (g_at im row col)) - clampR clip (sumR vs)) + (clampR clip (sumR vs) - clampR clip s)) by ring.
  eapply Rle_trans; [apply Rabs_triang|].
  pose proof (Rmult_le_compat_l _ _ _ G S). lra.
Qed.

Lemma picture_pixel : forall ex eps ps H W maxd r clip im row col, 0 <= eps <= 1 -> exp_within eps ex -> exp_unit ex ->
  (0 <= maxd)%Q -> radius_of maxd r -> (1 <= r)%Z -> room H W r -> Forall placed ps -> Forall ordinary ps -> (Z.of_nat (List.length ps) <= 2 ^ 23)%Z ->
  drawn32 ex ps H W maxd clip im -> (0 <= row < H)%Z -> (0 <= col < W)%Z ->
  exists n s t a, picture eps (lastc H r) (lastc W r) r row col ps n s t a /\
    finite (g_at im row col) /\
    Rabs (Q2R (value (g_at im row col)) - clipped clip s) <= t + (Q2R (grow (Nat.pred n)) - 1) * a.
Proof.
  intros ex eps ps H W maxd r clip im row col EPS EX EU MD RO R1 RM PL OR LP D A B.
  destruct (picture_pixel_all ex eps ps H W maxd r clip im row col EPS EX EU MD RO R1 RM PL OR LP D A B) as (n & s & t & a & K1 & K2 & K3 & _).
  exists n, s, t, a. auto.
Qed.

(** * Numbers *)
Lemma picture_moderate : forall eps lasty lastx r row col ps n s t a, 0 <= eps <= / 1048576 ->
  picture eps lasty lastx r row col ps n s t a -> Forall ordinary ps -> Forall (moderate lasty lastx r row col) ps ->
  0 <= t <= INR n * (2 / 100) /\ 0 <= a <= INR n * 255.
Proof.
  intros eps lasty lastx r row col ps n s t a EPS P. induction P as [|p ps n s t a I1 I2 P IH|p ps n s t a I P IH]; intros OR MO.
  - cbn. lra.
  - inversion OR as [|? ? O1 O2]; subst. inversion MO as [|? ? M1 M2]; subst. destruct (IH O2 M2) as [[T0 T1] [A0 A1]].
    set (dyq := (inject_Z row - _)%Q) in *. set (dxq := (inject_Z col - _)%Q) in *.
    destruct (shine_R lasty lastx r p row col O1) as (_ & E2 & E3). fold dyq dxq in E2.
    destruct M1 as (MA & [B1 B2] & MS). specialize (MS I1 I2). fold dyq dxq in MS.
    destruct O1 as (_ & _ & _ & _ & _ & _ & _ & [AP _]).
    apply Qle_Rle in MA, B1, B2, MS, AP. rewrite Q2R_0 in AP. rewrite Q2R_opp in B1.
    assert (C1 : Q2R 255 = 255) by exact (Q2R_Z 255). assert (C2 : Q2R 64 = 64) by exact (Q2R_Z 64). assert (C3 : Q2R (1 # 2) = / 2) by (unfold Q2R; cbn; lra).
    rewrite C1 in MA. rewrite C2 in MS. rewrite C3 in B1, B2. rewrite S_INR. split; [|lra].
    assert (SQ : Q2R (value (q_rho p)) * Q2R (value (q_rho p)) <= / 2 * / 2).
    { rewrite <- (Rabs_pos_eq (_ * _)) by apply sq_pos. rewrite Rabs_mult. assert (Rabs (Q2R (value (q_rho p))) <= / 2) by (apply Rabs_le; lra).
      pose proof (Rabs_pos (Q2R (value (q_rho p)))). apply Rmult_le_compat; lra. }
    assert (FA : 3 / 4 <= Q2R (fatness p)) by (rewrite E3; unfold om; lra).
    assert (QP : 0 <= Q2R (spread p dyq dxq)) by (rewrite E2; apply q_pos).
    assert (IV : 0 <= Q2R (spread p dyq dxq) / (Q2R (fatness p) * Q2R (fatness p)) <= 114).
    { assert (G : 9 / 16 <= Q2R (fatness p) * Q2R (fatness p)) by (replace (9 / 16) with (3 / 4 * (3 / 4)) by lra; apply Rmult_le_compat; lra).
      unfold Rdiv. assert (IG : / (Q2R (fatness p) * Q2R (fatness p)) <= 16 / 9) by (replace (16 / 9) with (/ (9 / 16)) by lra; apply Rinv_le_contravar; lra).
      assert (0 < / (Q2R (fatness p) * Q2R (fatness p))) by (apply Rinv_0_lt_compat; lra).
      split; [apply Rmult_le_pos; lra|]. apply Rle_trans with (64 * (16 / 9)); [apply Rmult_le_compat; lra | lra]. }
    unfold tolerance. set (g := Q2R (spread p dyq dxq) / _) in *. rewrite tiny_e32.
    assert (E32 : 0 <= e32 <= / 1048576).
    { split; [apply bpow_ge_0|]. change (/ 1048576) with (bpow radix2 (-20)). apply bpow_le. lia. }
    assert (AE : 0 <= Q2R (value (q_amp p)) * (11 / 16777216 * g + eps + 2 / 16777216) <= 255 * (11 / 16777216 * 114 + / 1048576 + 2 / 16777216)).
    { split; [apply Rmult_le_pos; lra | apply Rmult_le_compat; lra]. }
    lra.
  - inversion OR; inversion MO; subst. apply IH; assumption.
Qed.

Lemma grow_small : forall n, (n <= 16)%nat -> Q2R (grow (Nat.pred n)) - 1 <= / 1000000.
Proof.
  intros n N. rewrite grow_R. apply Rle_trans with ((1 + u32) ^ 15 - 1).
  - apply Rplus_le_compat_r. apply Rle_pow; [pose proof u32_small as [U _]; lra | lia].
  - pose proof (pow_inv 15) as P. rewrite u_u32 in *. unfold u in *. cbn [INR] in P. set (g := (1 + / 16777216) ^ 15) in *. lra.
Qed.

(** * A correctly rounded exponential *)
Definition ex_rn (t : f32) : f32 :=
  binary_normalize 24 128 p32 l32 mode_NE (Ztrunc (scaled_mantissa radix2 (FLT_exp (-149) 24) (rn32 (exp (B2R t))))) (cexp radix2 (FLT_exp (-149) 24) (rn32 (exp (B2R t)))) false.

Lemma ex_rn_rep : forall t, finite t -> B2R t <= 0 -> rep (ex_rn t) (rn32 (exp (B2R t))) /\ 0 <= rn32 (exp (B2R t)) <= 1 /\ 0 <= exp (B2R t) <= 1.
Proof.
  intros t F N. set (g := rn32 (exp (B2R t))).
  assert (EB : 0 <= exp (B2R t) <= 1).
  { split; [apply Rlt_le, exp_pos|]. destruct (Rle_lt_or_eq_dec _ _ N) as [L|E]; [apply exp_increasing in L; rewrite exp_0 in L; lra | rewrite E, exp_0; lra]. }
  assert (GB : 0 <= g <= 1).
  { split; [apply rn32_pos; lra|]. rewrite <- (rn32_exact 1 (rep_float _ _ (rep_ofZ 1 ltac:(lia)))). unfold g, rn32.
    apply round_le; [apply fexp_correct; reflexivity | apply valid_rnd_round_mode | lra]. }
  split; [|split; assumption].
  assert (FG : float32 g) by (apply generic_format_round; [apply fexp_correct; reflexivity | apply valid_rnd_round_mode]).
  pose proof (binary_normalize_correct 24 128 p32 l32 mode_NE (Ztrunc (scaled_mantissa radix2 (FLT_exp (-149) 24) g)) (cexp radix2 (FLT_exp (-149) 24) g) false) as C.
  cbv zeta in C. unfold float32 in FG. rewrite <- FG in C. fold (rn32 g) in C. rewrite (rn32_exact g) in C by exact FG.
  rewrite Rlt_bool_true in C; [|apply (fits_small g); rewrite Rabs_pos_eq by lra; apply Rle_trans with 1; [lra | apply (IZR_le 1); lia]].
  destruct C as (C1 & C2 & _). split; [exact C2 | exact C1].
Qed.

Lemma ex_rn_ok : exp_within (/ 8388608) ex_rn /\ exp_unit ex_rn.
Proof.
  assert (K : forall t, finite t -> (value t <= 0)%Q -> B2R t <= 0) by (intros t F V; apply Qle_Rle in V; rewrite Q2R_0, (value_R t F) in V; exact V).
  split; intros t F V; destruct (ex_rn_rep t F (K t F V)) as ([F1 E1] & B1 & B2).
  - split; [exact F1|]. rewrite (value_R _ F1), (value_R _ F), E1. destruct rn32_rounds as [RND _]. specialize (RND (exp (B2R t))).
    rewrite (Rabs_pos_eq (exp (B2R t))) in RND by lra. rewrite u_u32 in RND. unfold u in RND.
    assert (E32 : e32 <= / 16777216) by (change (/ 16777216) with (bpow radix2 (-24)); apply bpow_le; lia). lra.
  - split; apply Rle_Qle; rewrite (value_R _ F1), E1, ?Q2R_0, ?Q2R_1; lra.
Qed.
