(** Interpolation with rounding. *)
From Coq Require Import List ZArith QArith Qround Qreals Qabs Bool Reals Lia Lqa Lra Psatz.
From Flocq Require Import Core Relative Sterbenz IEEE754.BinarySingleNaN.
From Verif Require Import Prelude Model.Interp Model.Geometry Model.Render Model.InterpFloat.
From Verif Require Import Spec.InterpSpec Spec.InterpFloatSpec.
From Verif Require Import Proofs.InterpProofs Proofs.FloatProofs Proofs.RoundProofs.
Local Open Scope R_scope.

(** * The weighted sum *)
Section Sum.
Variables u e : R.
Hypothesis U : 0 <= u <= / 1024.
Hypothesis E : 0 <= e <= / 1024.

Let cl (t r : R) : Prop := Rabs (r - t) <= u * Rabs t + e.

(** A weight, or one minus a weight. *)
Lemma weight_direct : forall w w', 0 <= w <= 1 -> Rabs (w' - w) <= e -> near u 1 w (3 * e) w' w.
Proof.
  intros w w' W H. apply (near_k u U 0); [lia|]. split; [rewrite Rabs_pos_eq; lra | cbn [pow]; lra].
Qed.

Lemma weight_minus : forall w w' r, 0 <= w <= 1 -> Rabs (w' - w) <= e -> cl (1 - w') r -> near u 1 (1 - w) (3 * e) r (1 - w).
Proof.
  intros w w' r W H C. apply (near_d u 1 (1 - w) ((1 + u) * e + e)); [nra|].
  apply (near_round u e U 0 (1 - w) e (1 - w')); [|exact C]. split; [rewrite Rabs_pos_eq; lra|].
  replace (1 - w' - (1 - w)) with (- (w' - w)) by ring. rewrite Rabs_Ropp. cbn [pow]. lra.
Qed.

Lemma weight_product : forall a A b B r, 0 <= A <= 1 -> 0 <= B <= 1 -> near u 1 A (3 * e) a A -> near u 1 B (3 * e) b B ->
  cl (a * b) r -> near u 3 (A * B) (8 * e) r (A * B).
Proof.
  intros a A b B r HA HB NA NB C.
  assert (E3 : 0 <= 3 * e) by lra.
  pose proof (near_product u U 1 1 A B (3 * e) (3 * e) a b A B E3 E3 NA NB) as N.
  pose proof (near_round u e U _ _ _ _ _ r N C) as N'. eapply near_d; [|exact N'].
  cbn [pow]. rewrite !Rmult_1_r.
  assert (X : 3 * e * ((1 + u) * B) <= 3 * e * (101 / 100)) by (apply Rmult_le_compat_l; [lra | nra]).
  assert (Y : 3 * e * ((1 + u) * A) <= 3 * e * (101 / 100)) by (apply Rmult_le_compat_l; [lra | nra]).
  assert (Z : 3 * e * (3 * e) <= e * / 100) by nra.
  set (t := 3 * e * ((1 + u) * B) + 3 * e * ((1 + u) * A) + 3 * e * (3 * e)) in *.
  assert (T : 0 <= t).
  { assert (P : forall w, 0 <= w <= 1 -> 0 <= 3 * e * ((1 + u) * w)) by (intros w H; apply Rmult_le_pos; [lra | apply Rmult_le_pos; lra]).
    pose proof (P A HA). pose proof (P B HB). assert (0 <= 3 * e * (3 * e)) by (apply Rmult_le_pos; lra). unfold t. lra. }
  assert (T' : t <= 62 / 10 * e) by (unfold t; lra).
  assert (u * t <= / 1024 * t) by (apply Rmult_le_compat_r; lra). lra.
Qed.

Lemma term_near : forall M w W p r, 0 <= M -> 0 <= W <= 1 -> near u 3 W (8 * e) w W -> Rabs p <= M -> cl (w * p) r ->
  near u 4 (W * M) (9 * e * M + 2 * e) r (W * p).
Proof.
  intros M w W p r HM HW NW P C.
  assert (E8 : 0 <= 8 * e) by lra.
  pose proof (near_product u U 3 0 W M (8 * e) 0 w p W p E8 (Rle_refl 0) NW (near_exact u M p P)) as N.
  pose proof (near_round u e U _ _ _ _ _ r N C) as N'. change (Datatypes.S (3 + 0)) with 4%nat in N'.
  eapply near_d; [|exact N']. cbn [pow]. assert (0 <= e * M) by nra. nra.
Qed.

Lemma sum_near : forall k S1 S2 d1 d2 d a b A B r, near u k S1 d1 a A -> near u 4 S2 d2 b B -> (4 <= k)%nat -> cl (a + b) r ->
  (1 + u) * (d1 + d2) + e <= d -> near u (S k) (S1 + S2) d r (A + B).
Proof.
  intros k S1 S2 d1 d2 d a b A B r NA NB K C D.
  pose proof (near_sum u k S1 S2 d1 d2 a b A B NA (near_k u U 4 k S2 d2 b B K NB)) as N.
  eapply near_d; [exact D|]. exact (near_round u e U _ _ _ _ _ r N C).
Qed.
End Sum.

(** Four terms. *)
Section Four.
Variables u e : R.
Hypothesis U : 0 <= u <= / 1024.
Hypothesis E : 0 <= e <= / 1024.
Variables M S1 S2 S3 S4 t1 t2 t3 t4 T1 T2 T3 T4 : R.
Hypothesis HM : 0 <= M.
Hypothesis N1 : near u 4 S1 (9 * e * M + 2 * e) t1 T1.
Hypothesis N2 : near u 4 S2 (9 * e * M + 2 * e) t2 T2.
Hypothesis N3 : near u 4 S3 (9 * e * M + 2 * e) t3 T3.
Hypothesis N4 : near u 4 S4 (9 * e * M + 2 * e) t4 T4.

Let eM : 0 <= e * M. Proof. nra. Qed.

Lemma two_near : forall r, Rabs (r - (t1 + t2)) <= u * Rabs (t1 + t2) + e ->
  near u 5 (S1 + S2) (19 * (e * M) + 6 * e) r (T1 + T2).
Proof. intros r C. eapply (sum_near u e U); [exact N1 | exact N2 | lia | exact C | nra]. Qed.

Lemma three_near : forall a r, near u 5 (S1 + S2) (19 * (e * M) + 6 * e) a (T1 + T2) ->
  Rabs (r - (a + t3)) <= u * Rabs (a + t3) + e ->
  near u 6 (S1 + S2 + S3) (29 * (e * M) + 10 * e) r (T1 + T2 + T3).
Proof. intros a r N C. eapply (sum_near u e U); [exact N | exact N3 | lia | exact C | nra]. Qed.

Lemma four_near : forall a r, near u 6 (S1 + S2 + S3) (29 * (e * M) + 10 * e) a (T1 + T2 + T3) ->
  Rabs (r - (a + t4)) <= u * Rabs (a + t4) + e ->
  near u 7 (S1 + S2 + S3 + S4) (40 * (e * M) + 40 * e) r (T1 + T2 + T3 + T4).
Proof. intros a r N C. eapply (sum_near u e U); [exact N | exact N4 | lia | exact C | nra]. Qed.
End Four.

(** * Coordinates *)
Lemma floor_Q2R : forall q, Zfloor (Q2R q) = Qfloor q.
Proof.
  intros q. apply Zfloor_imp. destruct (floor_spec q) as [F1 F2]. apply Qle_Rle in F1. apply Qlt_Rlt in F2.
  rewrite Q2R_plus in F2.
  assert (I : forall z, Q2R (inject_Z z) = IZR z) by (intros z; unfold Q2R, inject_Z; cbn [Qnum Qden]; field).
  rewrite I in F1, F2. rewrite plus_IZR. replace (Q2R 1) with 1 in F2 by (unfold Q2R; cbn; field). lra.
Qed.

Lemma Q2R_Z : forall z, Q2R (inject_Z z) = IZR z.
Proof. intros z. unfold Q2R, inject_Z. cbn [Qnum Qden]. field. Qed.

Lemma Q2R_1 : Q2R 1 = 1.
Proof. exact (Q2R_Z 1). Qed.

Lemma Q2R_0 : Q2R 0 = 0.
Proof. exact (Q2R_Z 0). Qed.

Lemma Q2R_le : forall a b, (a <= b)%Q <-> Q2R a <= Q2R b.
Proof. intros a b. split; [apply Qle_Rle | apply Rle_Qle]. Qed.

Lemma clip_Q2R : forall lo hi x, (lo <= hi)%Q -> Q2R (clipQ lo hi x) = Rmin (Rmax (Q2R x) (Q2R lo)) (Q2R hi).
Proof.
  intros lo hi x L. apply Q2R_le in L.
  destruct (clipQ_cases lo hi x ltac:(apply Q2R_le; exact L)) as [(A & ->)|[(A & ->)|((A & B) & ->)]].
  - apply Qlt_Rlt in A. rewrite Rmax_right by lra. rewrite Rmin_left by lra. reflexivity.
  - apply Qlt_Rlt in A. rewrite Rmax_left by lra. rewrite Rmin_right by lra. reflexivity.
  - apply Qle_Rle in A, B. rewrite Rmax_left by lra. rewrite Rmin_left by lra. reflexivity.
Qed.

Lemma float32_Z : forall z, (Z.abs z < 2 ^ 24)%Z -> float32 (IZR z).
Proof.
  intros z H. apply (generic_format_FLT radix2 (-149) 24). exists (Float radix2 z 0); [|exact H | cbn; lia].
  unfold F2R. cbn [Fnum Fexp bpow]. ring.
Qed.

Lemma last_nonneg : forall n, (1 <= n)%Z -> (0 <= inject_Z n - 1)%Q.
Proof. intros n N. rewrite <- inj_sub1. change 0%Q with (inject_Z 0). apply inj_le. lia. Qed.

Lemma last_R : forall n, Q2R (inject_Z n - 1) = IZR n - 1.
Proof. intros n. rewrite Q2R_minus, Q2R_Z, Q2R_1. reflexivity. Qed.

Lemma clip_float : forall n x, (1 <= n <= 2 ^ 24)%Z -> float32 (Q2R x) -> float32 (Q2R (clipQ 0 (inject_Z n - 1) x)).
Proof.
  intros n x N F. destruct (clipQ_cases 0 (inject_Z n - 1) x (last_nonneg n (proj1 N))) as [(_ & ->)|[(_ & ->)|(_ & ->)]].
  - rewrite Q2R_0. apply (float32_Z 0). lia.
  - rewrite last_R, <- minus_IZR. apply float32_Z. lia.
  - exact F.
Qed.

(** The weight along an axis is a float: the subtraction is exact. *)
Lemma weight_float : forall n x, (1 <= n <= 2 ^ 24)%Z -> float32 (Q2R x) ->
  float32 (Q2R (axw n x)) /\ 0 <= Q2R (axw n x) <= 1 /\
  Q2R (clipQ 0 (inject_Z n - 1) x) - IZR (ax0 n x) = Q2R (axw n x).
Proof.
  intros n x N F. destruct (axis_ok n x (proj1 N)) as (A0 & _ & (W0 & W1) & _ & _).
  apply Qle_Rle in W0. apply Qlt_Rlt in W1. rewrite Q2R_0 in W0. rewrite Q2R_1 in W1.
  pose proof (clip_float n x N F) as C.
  assert (D : Q2R (clipQ 0 (inject_Z n - 1) x) - IZR (ax0 n x) = Q2R (axw n x))
    by (unfold axw; rewrite Q2R_minus, Q2R_Z; reflexivity).
  split; [|split; [lra | exact D]]. rewrite <- D.
  destruct (Z.eq_dec (ax0 n x) 0) as [Z0|Z0].
  - rewrite Z0, Rminus_0_r. exact C.
  - assert (1 <= IZR (ax0 n x)) by (apply IZR_le; lia).
    apply sterbenz; [apply FLT_exp_valid; reflexivity | apply FLT_exp_monotone | exact C | apply float32_Z; lia | lra].
Qed.

Definition real_image (rn : nat -> R -> R) (im : image) : gimage (rounded rn) :=
  @mkGimage (rounded rn) (rows im) (cols im) (fun r c => Q2R (at_ im r c)).

Lemma real_gather : forall rn im r c, pixel im r c -> ggather (real_image rn im) r c = Q2R (at_ im r c).
Proof.
  intros rn im r c [P1 P2]. unfold ggather. cbn [real_image g_rows g_cols g_at].
  rewrite !gather_index_in by assumption. reflexivity.
Qed.

(** The computation in terms of axes. *)
Lemma rounded_axes : forall rn im x y, nonempty im ->
  let wx := rn 0%nat (Q2R (clipQ 0 (inject_Z (cols im) - 1) x) - IZR (ax0 (cols im) x)) in
  let wy := rn 1%nat (Q2R (clipQ 0 (inject_Z (rows im) - 1) y) - IZR (ax0 (rows im) y)) in
  let x0 := ax0 (cols im) x in let x1 := ax1 (cols im) x in
  let y0 := ax0 (rows im) y in let y1 := ax1 (rows im) y in
  bilinear_in (rounded rn) (real_image rn im) (Q2R x) (Q2R y) =
  rn 16%nat (rn 15%nat (rn 14%nat (
    rn 5%nat (rn 4%nat (rn 2%nat (1 - wx) * rn 3%nat (1 - wy)) * Q2R (at_ im y0 x0))
    + rn 8%nat (rn 7%nat (wx * rn 6%nat (1 - wy)) * Q2R (at_ im y0 x1)))
    + rn 11%nat (rn 10%nat (rn 9%nat (1 - wx) * wy) * Q2R (at_ im y1 x0)))
    + rn 13%nat (rn 12%nat (wx * wy) * Q2R (at_ im y1 x1))).
Proof.
  intros rn im x y NE wx wy x0 x1 y0 y1. destruct (bilinear_axes im x y NE) as (P00 & P10 & P01 & P11 & _).
  unfold bilinear_in. cbn [rounded num_t a_ofZ a_last a_clip a_floor a_add a_sub a_mul real_image g_rows g_cols].
  rewrite !floor_Q2R. fold (real_image rn im).
  change (clipZ 0 (cols im - 1) (Qfloor x)) with (ax0 (cols im) x).
  change (clipZ 0 (rows im - 1) (Qfloor y)) with (ax0 (rows im) y).
  change (clipZ 0 (cols im - 1) (ax0 (cols im) x + 1)) with (ax1 (cols im) x).
  change (clipZ 0 (rows im - 1) (ax0 (rows im) y + 1)) with (ax1 (rows im) y).
  rewrite !real_gather by assumption.
  destruct NE as [N1 N2].
  assert (X : forall n q, (1 <= n)%Z -> Rmin (Rmax (Q2R q) (IZR 0)) (IZR n - 1) = Q2R (clipQ 0 (inject_Z n - 1) q)).
  { intros n q N. rewrite (clip_Q2R _ _ _ (last_nonneg n N)), last_R, Q2R_0. reflexivity. }
  rewrite !X by assumption. reflexivity.
Qed.

Lemma axes_neighbours : forall n x, (1 <= n)%Z ->
  neighbour n x (ax0 n x) /\ neighbour n x (ax1 n x) /\ (forall i, neighbour n x i -> i = ax0 n x \/ i = ax1 n x).
Proof.
  intros n x N. destruct (axis_ok n x N) as (A0 & A1 & (W0 & W1) & C & P).
  pose proof (clipQ_nearest 0 (inject_Z n - 1) x (last_nonneg n N)) as NR.
  assert (L0 : (inject_Z (ax0 n x) <= clipQ 0 (inject_Z n - 1) x < inject_Z (ax0 n x) + 1)%Q) by lra.
  split; [|split].
  - split; [exact A0|]. exists (clipQ 0 (inject_Z n - 1) x). split; [exact NR|]. lra.
  - split; [exact A1|]. exists (clipQ 0 (inject_Z n - 1) x). split; [exact NR|].
    destruct C as [->|[-> _]]; [rewrite inj_add1; lra | lra].
  - intros i (I & p & NP & I1 & I2).
    assert (PP : (p == clipQ 0 (inject_Z n - 1) x)%Q).
    { destruct NR as (_ & R1 & R2 & R3). destruct NP as (_ & Q1 & Q2 & Q3).
      destruct (Qlt_le_dec x 0) as [X|X]; [rewrite (R1 X), (Q1 X); reflexivity|].
      destruct (Qlt_le_dec (inject_Z n - 1) x) as [Y|Y]; [rewrite (R2 Y), (Q2 Y); reflexivity|].
      rewrite (R3 (conj X Y)), (Q3 (conj X Y)). reflexivity. }
    rewrite PP in I1, I2.
    assert (J1 : (ax0 n x <= i)%Z).
    { assert (H : (inject_Z (ax0 n x) < inject_Z (i + 1))%Q) by (rewrite inj_add1; lra).
      rewrite <- Zlt_Qlt in H. lia. }
    assert (J2 : (i < ax0 n x + 2)%Z).
    { assert (H : (inject_Z i < inject_Z (ax0 n x + 1 + 1))%Q) by (rewrite !inj_add1; lra).
      rewrite <- Zlt_Qlt in H. lia. }
    destruct (Z.eq_dec i (ax0 n x)) as [->|D]; [left; reflexivity|]. right.
    assert (i = (ax0 n x + 1)%Z) by lia. destruct C as [->|[C1 C2]]; [lia|].
    (* at the far end there is nothing above *)
    unfold ax1 in C1. unfold clipZ in C1. lia.
Qed.

(** * The error for any rounding *)
Section Any.
Variables u e M : R.
Variable rn : nat -> R -> R.
Hypothesis U : 0 <= u <= / 1024.
Hypothesis E : 0 <= e <= / 1024.
Hypothesis RN : forall i, rounds u e (rn i).

(** A weight and the exact one. *)
Definition weight (w' w : R) : Prop := 0 <= w <= 1 /\ Rabs (w' - w) <= e.

Lemma rn_cl : forall i t, Rabs (rn i t - t) <= u * Rabs t + e.
Proof. intros i t. apply (proj1 (RN i)). Qed.

Section Parts.
Variables wx wy WX WY p00 p10 p01 p11 : R.
Hypothesis HX : weight wx WX.
Hypothesis HY : weight wy WY.
Hypothesis HM : 0 <= M.
Hypothesis P00 : Rabs p00 <= M.
Hypothesis P10 : Rabs p10 <= M.
Hypothesis P01 : Rabs p01 <= M.
Hypothesis P11 : Rabs p11 <= M.

Lemma w_range : forall a b, 0 <= a <= 1 -> 0 <= b <= 1 -> 0 <= a * b <= 1.
Proof. intros a b A B. split; [apply Rmult_le_pos; lra|]. replace 1 with (1 * 1) by ring. apply Rmult_le_compat; lra. Qed.

Lemma m_range : forall a, 0 <= a <= 1 -> 0 <= 1 - a <= 1. Proof. intros. lra. Qed.

Lemma n_1x : forall i, near u 1 (1 - WX) (3 * e) (rn i (1 - wx)) (1 - WX).
Proof. intros i. apply (weight_minus u e U E WX wx); [apply HX | apply HX | apply rn_cl]. Qed.
Lemma n_1y : forall i, near u 1 (1 - WY) (3 * e) (rn i (1 - wy)) (1 - WY).
Proof. intros i. apply (weight_minus u e U E WY wy); [apply HY | apply HY | apply rn_cl]. Qed.
Lemma n_x : near u 1 WX (3 * e) wx WX.
Proof. apply (weight_direct u e U E); apply HX. Qed.
Lemma n_y : near u 1 WY (3 * e) wy WY.
Proof. apply (weight_direct u e U E); apply HY. Qed.

Lemma n_p : forall i a A b B, 0 <= A <= 1 -> 0 <= B <= 1 -> near u 1 A (3 * e) a A -> near u 1 B (3 * e) b B ->
  near u 3 (A * B) (8 * e) (rn i (a * b)) (A * B).
Proof. intros i a A b B HA HB NA NB. apply (weight_product u e U E a A b B); try assumption. apply rn_cl. Qed.

Lemma n_t : forall i w A B p, 0 <= A <= 1 -> 0 <= B <= 1 -> near u 3 (A * B) (8 * e) w (A * B) -> Rabs p <= M ->
  near u 4 (A * B * M) (9 * e * M + 2 * e) (rn i (w * p)) (A * B * p).
Proof. intros i w A B p HA HB N P. apply (term_near u e U E M w); try assumption; [apply w_range; assumption | apply rn_cl]. Qed.

Definition c00 := rn 5%nat (rn 4%nat (rn 2%nat (1 - wx) * rn 3%nat (1 - wy)) * p00).
Definition c10 := rn 8%nat (rn 7%nat (wx * rn 6%nat (1 - wy)) * p10).
Definition c01 := rn 11%nat (rn 10%nat (rn 9%nat (1 - wx) * wy) * p01).
Definition c11 := rn 13%nat (rn 12%nat (wx * wy) * p11).

Lemma n_00 : near u 4 ((1 - WX) * (1 - WY) * M) (9 * e * M + 2 * e) c00 ((1 - WX) * (1 - WY) * p00).
Proof. destruct HX, HY. apply n_t; try apply m_range; try assumption. apply n_p; try apply m_range; try assumption; [apply n_1x | apply n_1y]. Qed.
Lemma n_10 : near u 4 (WX * (1 - WY) * M) (9 * e * M + 2 * e) c10 (WX * (1 - WY) * p10).
Proof. destruct HX, HY. apply n_t; try apply m_range; try assumption. apply n_p; try apply m_range; try assumption; [apply n_x | apply n_1y]. Qed.
Lemma n_01 : near u 4 ((1 - WX) * WY * M) (9 * e * M + 2 * e) c01 ((1 - WX) * WY * p01).
Proof. destruct HX, HY. apply n_t; try apply m_range; try assumption. apply n_p; try apply m_range; try assumption; [apply n_1x | apply n_y]. Qed.
Lemma n_11 : near u 4 (WX * WY * M) (9 * e * M + 2 * e) c11 (WX * WY * p11).
Proof. destruct HX, HY. apply n_t; try apply m_range; try assumption. apply n_p; try apply m_range; try assumption; [apply n_x | apply n_y]. Qed.

Definition s2 := rn 14%nat (c00 + c10).
Definition s3 := rn 15%nat (s2 + c01).
Definition s4 := rn 16%nat (s3 + c11).

Lemma n_s2 : near u 5 ((1 - WX) * (1 - WY) * M + WX * (1 - WY) * M) (19 * (e * M) + 6 * e) s2
  ((1 - WX) * (1 - WY) * p00 + WX * (1 - WY) * p10).
Proof. eapply (two_near u e U E M); [exact HM | exact n_00 | exact n_10 | apply rn_cl]. Qed.
Lemma n_s3 : near u 6 ((1 - WX) * (1 - WY) * M + WX * (1 - WY) * M + (1 - WX) * WY * M) (29 * (e * M) + 10 * e) s3
  ((1 - WX) * (1 - WY) * p00 + WX * (1 - WY) * p10 + (1 - WX) * WY * p01).
Proof. eapply (three_near u e U E M); [exact HM | exact n_01 | exact n_s2 | apply rn_cl]. Qed.
Lemma n_s4 : near u 7 M (40 * (e * M) + 40 * e) s4
  ((1 - WX) * (1 - WY) * p00 + WX * (1 - WY) * p10 + (1 - WX) * WY * p01 + WX * WY * p11).
Proof.
  replace M with ((1 - WX) * (1 - WY) * M + WX * (1 - WY) * M + (1 - WX) * WY * M + WX * WY * M) at 1 by ring.
  eapply (four_near u e U E M); [exact HM | exact n_11 | exact n_s3 | apply rn_cl].
Qed.

End Parts.

Lemma rounded_weight : forall i n x, (1 <= n <= 2 ^ 24)%Z -> float32 (Q2R x) ->
  weight (rn i (Q2R (clipQ 0 (inject_Z n - 1) x) - IZR (ax0 n x))) (Q2R (axw n x)).
Proof.
  intros i n x N F. destruct (weight_float n x N F) as (G & W & ->). split; [exact W|]. apply (proj2 (RN i)). exact G.
Qed.

Lemma exact_R : forall wx wy a b c d : Q,
  Q2R ((1 - wx) * (1 - wy) * a + wx * (1 - wy) * b + (1 - wx) * wy * c + wx * wy * d)
  = (1 - Q2R wx) * (1 - Q2R wy) * Q2R a + Q2R wx * (1 - Q2R wy) * Q2R b + (1 - Q2R wx) * Q2R wy * Q2R c
    + Q2R wx * Q2R wy * Q2R d.
Proof. intros. rewrite !Q2R_plus, !Q2R_mult, !Q2R_minus, !Q2R_1. reflexivity. Qed.

Lemma rounded_sharp : forall im x y, (1 <= rows im <= 2 ^ 24)%Z -> (1 <= cols im <= 2 ^ 24)%Z ->
  float32 (Q2R x) -> float32 (Q2R y) ->
  (forall r c, neighbour (rows im) y r -> neighbour (cols im) x c -> Rabs (Q2R (at_ im r c)) <= M) ->
  Rabs (bilinear_in (rounded rn) (real_image rn im) (Q2R x) (Q2R y) - Q2R (bilinear im x y))
    <= ((1 + u) ^ 7 - 1) * M + (40 * (e * M) + 40 * e).
Proof.
  intros im x y R1 C1 FX FY P. assert (NE : nonempty im) by (split; lia).
  rewrite (rounded_axes rn im x y NE). destruct (bilinear_axes im x y NE) as (_ & _ & _ & _ & ->).
  rewrite exact_R. destruct (axes_neighbours (rows im) y (proj1 R1)) as (Y0 & Y1 & _).
  destruct (axes_neighbours (cols im) x (proj1 C1)) as (X0 & X1 & _).
  assert (HM : 0 <= M) by (eapply Rle_trans; [apply Rabs_pos | exact (P _ _ Y0 X0)]).
  eapply n_s4; try (apply P; assumption); try apply rounded_weight; try assumption.
Qed.

Theorem rounded_error : forall im x y, (1 <= rows im <= 2 ^ 24)%Z -> (1 <= cols im <= 2 ^ 24)%Z ->
  float32 (Q2R x) -> float32 (Q2R y) ->
  (forall r c, neighbour (rows im) y r -> neighbour (cols im) x c -> Rabs (Q2R (at_ im r c)) <= M) ->
  Rabs (bilinear_in (rounded rn) (real_image rn im) (Q2R x) (Q2R y) - Q2R (bilinear im x y)) <= 8 * u * M + 40 * e * (1 + M).
Proof.
  intros im x y R1 C1 FX FY P. eapply Rle_trans; [exact (rounded_sharp im x y R1 C1 FX FY P)|].
  destruct (axes_neighbours (rows im) y (proj1 R1)) as (Y0 & _). destruct (axes_neighbours (cols im) x (proj1 C1)) as (X0 & _).
  assert (HM : 0 <= M) by (eapply Rle_trans; [apply Rabs_pos | exact (P _ _ Y0 X0)]).
  pose proof (pow7 u U). nra.
Qed.
End Any.

(** * Roundings that keep floats *)
Section Keep.
Variable rn : nat -> R -> R.
Hypothesis K : forall i t, float32 t -> rn i t = t.

Lemma float32_0 : float32 0. Proof. apply (float32_Z 0). lia. Qed.
Lemma float32_1 : float32 1. Proof. apply (float32_Z 1). lia. Qed.

(** At a pixel: that pixel. *)
Lemma rounded_grid : forall im r c, nonempty im -> pixel im r c -> float32 (Q2R (at_ im r c)) ->
  bilinear_in (rounded rn) (real_image rn im) (Q2R (inject_Z c)) (Q2R (inject_Z r)) = Q2R (at_ im r c).
Proof.
  intros im r c NE [PR PC] F. rewrite (rounded_axes rn im _ _ NE).
  destruct (axis_grid (cols im) c PC) as [X0 XW]. destruct (axis_grid (rows im) r PR) as [Y0 YW].
  assert (W : forall n i, (axw n (inject_Z i) == 0)%Q ->
    Q2R (clipQ 0 (inject_Z n - 1) (inject_Z i)) - IZR (ax0 n (inject_Z i)) = 0).
  { intros n i H. rewrite <- Q2R_Z, <- Q2R_minus. fold (axw n (inject_Z i)). rewrite (Qeq_eqR _ _ H). apply Q2R_0. }
  rewrite (W _ _ XW), (W _ _ YW), X0, Y0.
  repeat first [rewrite (K _ 0 float32_0) | rewrite Rminus_0_r | rewrite (K _ 1 float32_1) | rewrite Rmult_0_l
               | rewrite Rmult_0_r | rewrite Rmult_1_l | rewrite Rplus_0_r | rewrite (K _ _ F)].
  reflexivity.
Qed.

(** Pixels that are not negative: no negative value. *)
Lemma rounded_pos : (forall i t, 0 <= t -> 0 <= rn i t) -> forall im x y,
  (1 <= rows im <= 2 ^ 24)%Z -> (1 <= cols im <= 2 ^ 24)%Z -> float32 (Q2R x) -> float32 (Q2R y) ->
  (forall r c, neighbour (rows im) y r -> neighbour (cols im) x c -> 0 <= Q2R (at_ im r c)) ->
  0 <= bilinear_in (rounded rn) (real_image rn im) (Q2R x) (Q2R y).
Proof.
  intros P im x y R1 C1 FX FY A. assert (NE : nonempty im) by (split; lia).
  rewrite (rounded_axes rn im x y NE). destruct (axes_neighbours (rows im) y (proj1 R1)) as (Y0 & Y1 & _).
  destruct (axes_neighbours (cols im) x (proj1 C1)) as (X0 & X1 & _).
  destruct (weight_float _ _ C1 FX) as (GX & WX & ->). destruct (weight_float _ _ R1 FY) as (GY & WY & ->).
  rewrite (K _ _ GX), (K _ _ GY).
  pose proof (A _ _ Y0 X0). pose proof (A _ _ Y0 X1). pose proof (A _ _ Y1 X0). pose proof (A _ _ Y1 X1).
  repeat first [lra | apply P | apply Rmult_le_pos | apply Rplus_le_le_0_compat].
Qed.
End Keep.

(** * The exact value and its neighbours *)
Lemma exact_between : forall im x y lo hi, nonempty im ->
  (forall r c, neighbour (rows im) y r -> neighbour (cols im) x c -> lo <= Q2R (at_ im r c) <= hi) ->
  lo <= Q2R (bilinear im x y) <= hi.
Proof.
  intros im x y lo hi NE A. destruct (bilinear_axes im x y NE) as (_ & _ & _ & _ & ->). destruct NE as [N1 N2].
  rewrite exact_R. destruct (axes_neighbours (rows im) y N1) as (Y0 & Y1 & _).
  destruct (axes_neighbours (cols im) x N2) as (X0 & X1 & _).
  pose proof (A _ _ Y0 X0) as A00. pose proof (A _ _ Y0 X1) as A10. pose proof (A _ _ Y1 X0) as A01. pose proof (A _ _ Y1 X1) as A11.
  destruct (axis_ok (rows im) y N1) as (_ & _ & (WY0 & WY1) & _). destruct (axis_ok (cols im) x N2) as (_ & _ & (WX0 & WX1) & _).
  apply Qle_Rle in WX0, WY0. apply Qlt_Rlt in WX1, WY1. rewrite Q2R_0 in WX0, WY0. rewrite Q2R_1 in WX1, WY1.
  set (wx := Q2R (axw (cols im) x)) in *. set (wy := Q2R (axw (rows im) y)) in *.
  set (a := Q2R (at_ im _ _)) in *. set (b := Q2R (at_ im (ax0 (rows im) y) (ax1 (cols im) x))) in *.
  set (c := Q2R (at_ im (ax1 (rows im) y) (ax0 (cols im) x))) in *. set (d := Q2R (at_ im (ax1 (rows im) y) (ax1 (cols im) x))) in *.
  assert (L : forall w p q, 0 <= w <= 1 -> lo <= p <= hi -> lo <= q <= hi -> lo <= (1 - w) * p + w * q <= hi)
    by (intros w p q W P Q; split; nra).
  replace ((1 - wx) * (1 - wy) * a + wx * (1 - wy) * b + (1 - wx) * wy * c + wx * wy * d)
    with ((1 - wy) * ((1 - wx) * a + wx * b) + wy * ((1 - wx) * c + wx * d)) by ring.
  apply L; [lra | apply L; lra | apply L; lra].
Qed.
