(** Geometry of the synthetic sampler in exact arithmetic. *)
From Coq Require Import List Arith ZArith QArith Qround Qabs Qminmax Qfield Bool Lia Lqa.
From Verif Require Import Prelude Model.Interp Model.Apply Model.Geometry Spec.InterpSpec Spec.WarpSpec Spec.GeometrySpec.
From Verif Require Import Proofs.InterpProofs Proofs.AdapterProofs.
Import ListNotations.
Local Open Scope Q_scope.

Lemma ltbQ : forall a b, n_ltb exact a b = true <-> a < b.
Proof.
  intros a b. cbn [exact n_ltb]. rewrite negb_true_iff. split; intros H.
  - destruct (Qlt_le_dec a b) as [|L]; [assumption|]. apply Qle_bool_iff in L. congruence.
  - destruct (Qle_bool b a) eqn:E; [|reflexivity]. apply Qle_bool_iff in E. lra.
Qed.
Lemma ltbQ_false : forall a b, n_ltb exact a b = false <-> b <= a.
Proof.
  intros a b. split; intros H.
  - destruct (Qlt_le_dec a b) as [L|]; [|assumption]. apply ltbQ in L. congruence.
  - destruct (n_ltb exact a b) eqn:E; [|reflexivity]. apply ltbQ in E. lra.
Qed.

Lemma max0_cases : forall x, (0 <= x /\ max0 exact x == x) \/ (x <= 0 /\ max0 exact x == 0).
Proof.
  intros x. unfold max0. destruct (n_ltb exact _ x) eqn:E.
  - apply ltbQ in E. left. cbn in E. change (inject_Z 0) with 0 in E. split; [lra | reflexivity].
  - apply ltbQ_false in E. right. cbn in E. change (inject_Z 0) with 0 in E. split; [assumption | reflexivity].
Qed.
Lemma min0_cases : forall x, (x <= 0 /\ min0 exact x == x) \/ (0 <= x /\ min0 exact x == 0).
Proof.
  intros x. unfold min0. destruct (n_ltb exact x _) eqn:E.
  - apply ltbQ in E. left. cbn in E. change (inject_Z 0) with 0 in E. split; [lra | reflexivity].
  - apply ltbQ_false in E. right. cbn in E. change (inject_Z 0) with 0 in E. split; [assumption | reflexivity].
Qed.

Lemma trunc_nonneg : forall q, 0 <= q -> Qtrunc q = Qfloor q.
Proof. intros q H. unfold Qtrunc. apply Qle_bool_iff in H. rewrite H. reflexivity. Qed.

Lemma sub0 : forall a : Q, a == a - 0.
Proof. intros; ring. Qed.
Lemma add0 : forall a : Q, a == a + 0.
Proof. intros; ring. Qed.

(** What acceptance means on one axis. *)
Record axis_facts (y : bool) (c : gcfg exact) (g : geom exact) (extra : Q) : Prop := mkAxis {
  af_res : 0 < g_res c;
  af_size : 0 < sel y (g_ffsize c);
  af_shape : (0 < sel y (g_ffshape c))%Z;
  af_speed : sel y (g_min c) <= sel y (g_max c);
  af_ores : sel y (o_res g) = inject_Z (sel y (g_ffshape c)) / sel y (g_ffsize c);
  af_extra : 0 <= extra;
  af_pbo0 : 0 <= sel y (g_off c) - max0 exact (sel y (g_max c)) * g_dt c;
  af_fits : inject_Z (sel y (g_image c)) / g_res c + max0 exact (sel y (g_max c)) * g_dt c - min0 exact (sel y (g_min c)) * g_dt c
            + (sel y (g_off c) - max0 exact (sel y (g_max c)) * g_dt c) <= sel y (g_ffsize c);
  af_lpbo : sel y (l_pbo g) == sel y (g_off c) - max0 exact (sel y (g_max c)) * g_dt c - extra;
  af_lpb : sel y (l_pb g) == inject_Z (sel y (g_image c)) / g_res c + max0 exact (sel y (g_max c)) * g_dt c
                             - min0 exact (sel y (g_min c)) * g_dt c + extra;
  af_pad : sel y (o_pad g) = Qceiling (max0 exact (- sel y (l_pbo g)) * sel y (o_res g));
  af_opbo : sel y (o_pbo g) = max0 exact (sel y (l_pbo g));
  af_off : sel y (o_off g) = Qtrunc ((sel y (g_off c) - sel y (l_pbo g)) * g_res c);
  af_pb : sel y (o_pb g) = Qtrunc (sel y (l_pb g) * g_res c);
  af_out : sel y (o_out g) = Qtrunc (inject_Z (sel y (g_image c)) * g_vpp c)
}.

Lemma accepted_axis : forall c g, construct exact c = Ok g -> forall y, exists extra, axis_facts y c g extra.
Proof.
  intros c g H y. unfold construct in H.
  destruct (negb _) eqn:E1 in H; [discriminate|]. apply negb_false_iff, andb_true_iff in E1. destruct E1 as [S1 S2].
  destruct (negb _) eqn:E1 in H; [discriminate|]. apply negb_false_iff, andb_true_iff in E1. destruct E1 as [F1 F2].
  destruct (negb _) eqn:E1 in H; [discriminate|]. apply negb_false_iff in E1. rename E1 into R.
  destruct (negb _) eqn:E1 in H; [discriminate|]. apply negb_false_iff in E1. rename E1 into V.
  unfold bind, int, ceil in H. cbn [exact n_trunc n_ceil] in H.
  destruct (n_ltb exact (snd (g_max c)) (snd (g_min c))) eqn:SX in H; [discriminate|].
  destruct (n_ltb exact (fst (g_max c)) (fst (g_min c))) eqn:SY in H; [discriminate|].
  destruct (orb _ _) eqn:E1 in H; [discriminate|]. apply orb_false_iff in E1. destruct E1 as [P1 P2].
  destruct (orb _ _) eqn:E1 in H; [discriminate|]. apply orb_false_iff in E1. destruct E1 as [B1 B2].
  set (psize := n_div exact (n_ofZ exact (2 * _ + 1)%Z) (g_res c)) in H. clearbody psize.
  apply ltbQ in S1, S2, R. apply ltbQ_false in SX, SY, P1, P2, B1, B2. apply Z.ltb_lt in F1, F2.
  cbn [exact n_ofZ n_add n_sub n_mul n_div n_neg carrier] in *. change (inject_Z 0) with 0 in *.
  injection H as <-.
  set (more := (g_hide c && _)%bool).
  set (ey := max0 exact (psize - max0 exact (fst (g_max c)) * g_dt c)).
  set (ex := max0 exact (psize - max0 exact (snd (g_max c)) * g_dt c)).
  assert (EY : 0 <= ey)
    by (unfold ey; destruct (max0_cases (psize - max0 exact (fst (g_max c)) * g_dt c)) as [[? E]|[? E]]; rewrite E; lra).
  assert (EX : 0 <= ex)
    by (unfold ex; destruct (max0_cases (psize - max0 exact (snd (g_max c)) * g_dt c)) as [[? E]|[? E]]; rewrite E; lra).
  destruct y.
  - exists (if more then ey else 0).
    constructor; unfold sel; cbn [fst snd l_pbo l_pb o_pad o_res o_pbo o_off o_pb o_out]; try assumption; try reflexivity.
    + destruct more; lra.
    + destruct more; [reflexivity | first [apply sub0 | apply add0]].
    + destruct more; [reflexivity | first [apply sub0 | apply add0]].
  - exists (if more then ex else 0).
    constructor; unfold sel; cbn [fst snd l_pbo l_pb o_pad o_res o_pbo o_off o_pb o_out]; try assumption; try reflexivity.
    + destruct more; lra.
    + destruct more; [reflexivity | first [apply sub0 | apply add0]].
    + destruct more; [reflexivity | first [apply sub0 | apply add0]].
Qed.

(** The products the arguments contribute. *)
Section Axis.
Variables (y : bool) (c : gcfg exact) (g : geom exact) (extra : Q).
Hypothesis AF : axis_facts y c g extra.
Hypothesis DT : 0 <= g_dt c.
Hypothesis IM : (0 <= sel y (g_image c))%Z.

Let A := max0 exact (sel y (g_max c)) * g_dt c.
Let B := - (min0 exact (sel y (g_min c)) * g_dt c).
Let L := inject_Z (sel y (g_image c)) / g_res c.

Lemma A_nonneg : 0 <= A.
Proof. clear -DT. unfold A. destruct (max0_cases (sel y (g_max c))) as [[H E]|[H E]]; rewrite E; nra. Qed.
Lemma B_nonneg : 0 <= B.
Proof. clear -DT. unfold B. destruct (min0_cases (sel y (g_min c))) as [[H E]|[H E]]; rewrite E; nra. Qed.
Lemma L_res : L * g_res c == inject_Z (sel y (g_image c)).
Proof. pose proof (af_res _ _ _ _ AF). unfold L. field. intros E. rewrite E in *. lra. Qed.
Lemma L_nonneg : 0 <= L.
Proof.
  pose proof (af_res _ _ _ _ AF). assert (0 <= inject_Z (sel y (g_image c))) by (change 0 with (inject_Z 0); apply inj_le; exact IM).
  unfold L. apply Qle_shift_div_l; [assumption|]. lra.
Qed.

Lemma lpbo_eq : sel y (l_pbo g) == sel y (g_off c) - A - extra.
Proof. exact (af_lpbo _ _ _ _ AF). Qed.
Lemma lpb_eq : sel y (l_pb g) == L + A + B + extra.
Proof. rewrite (af_lpb _ _ _ _ AF). unfold L, A, B. ring. Qed.
Lemma off_arg : (sel y (g_off c) - sel y (l_pbo g)) * g_res c == (A + extra) * g_res c.
Proof. rewrite lpbo_eq. ring. Qed.
Lemma pb_arg : sel y (l_pb g) * g_res c == inject_Z (sel y (g_image c)) + (A + extra) * g_res c + B * g_res c.
Proof. rewrite lpb_eq, <- L_res. ring. Qed.

Lemma Ae_nonneg : 0 <= (A + extra) * g_res c.
Proof. pose proof A_nonneg. pose proof (af_extra _ _ _ _ AF). pose proof (af_res _ _ _ _ AF). apply Qmult_le_0_compat; lra. Qed.
Lemma Br_nonneg : 0 <= B * g_res c.
Proof. pose proof B_nonneg. pose proof (af_res _ _ _ _ AF). apply Qmult_le_0_compat; lra. Qed.

Lemma off_floor : sel y (o_off g) = Qfloor ((A + extra) * g_res c).
Proof.
  rewrite (af_off _ _ _ _ AF), trunc_nonneg by (rewrite off_arg; apply Ae_nonneg).
  apply Qfloor_comp. apply off_arg.
Qed.
Lemma pb_nonneg : 0 <= sel y (l_pb g) * g_res c.
Proof.
  rewrite pb_arg. pose proof Ae_nonneg. pose proof Br_nonneg.
  assert (0 <= inject_Z (sel y (g_image c))) by (change 0 with (inject_Z 0); apply inj_le; exact IM). lra.
Qed.
Lemma pb_floor : sel y (o_pb g) = Qfloor (inject_Z (sel y (g_image c)) + (A + extra) * g_res c + B * g_res c).
Proof.
  rewrite (af_pb _ _ _ _ AF), trunc_nonneg by apply pb_nonneg. apply Qfloor_comp. apply pb_arg.
Qed.

(** The crop fits. *)
Lemma axis_crop : crop_fits y c g.
Proof.
  split.
  - rewrite off_floor. apply floor_le_mono. exact Ae_nonneg.
  - rewrite pb_floor. apply floor_le_mono. rewrite inject_Z_plus, off_floor.
    destruct (floor_spec ((A + extra) * g_res c)) as [F _]. pose proof Br_nonneg. lra.
Qed.

(** The simulated stretch, in length units. *)
Lemma axis_covers : forall p v, allowed y c v ->
  sel y (g_off c) <= p + v * g_dt c <= sel y (g_off c) + L ->
  sel y (l_pbo g) <= p <= sel y (l_pbo g) + sel y (l_pb g).
Proof.
  intros p v [V1 V2] [P1 P2]. rewrite lpbo_eq, lpb_eq. pose proof (af_extra _ _ _ _ AF) as X.
  assert (VA : v * g_dt c <= A).
  { unfold A. destruct (max0_cases (sel y (g_max c))) as [[H E]|[H E]]; rewrite E; nra. }
  assert (VB : - (v * g_dt c) <= B).
  { unfold B. destruct (min0_cases (sel y (g_min c))) as [[H E]|[H E]]; rewrite E; nra. }
  split; lra.
Qed.

Lemma axis_contains_image : sel y (l_pbo g) <= sel y (g_off c) /\
  sel y (g_off c) + L <= sel y (l_pbo g) + sel y (l_pb g) /\
  sel y (l_pbo g) + sel y (l_pb g) <= sel y (g_ffsize c).
Proof.
  pose proof A_nonneg. pose proof B_nonneg. pose proof (af_extra _ _ _ _ AF). pose proof (af_fits _ _ _ _ AF) as F.
  fold A in F. fold L in F. rewrite lpbo_eq, lpb_eq. unfold B in *. split; [lra|]. split; lra.
Qed.

(** In pixels, up to the two truncations. *)
Lemma axis_covers_pixels : forall q v, allowed y c v ->
  inject_Z (sel y (o_off g)) <= q + v * g_dt c * g_res c <= inject_Z (sel y (o_off g)) + inject_Z (sel y (g_image c)) ->
  -(1) < q < inject_Z (sel y (o_pb g)) + 1.
Proof.
  intros q v [V1 V2] [P1 P2]. rewrite off_floor in *. rewrite pb_floor.
  destruct (floor_spec ((A + extra) * g_res c)) as [F1 F2].
  destruct (floor_spec (inject_Z (sel y (g_image c)) + (A + extra) * g_res c + B * g_res c)) as [G1 G2].
  pose proof (af_extra _ _ _ _ AF) as X. pose proof (af_res _ _ _ _ AF) as R.
  assert (VA : v * g_dt c <= A).
  { unfold A. destruct (max0_cases (sel y (g_max c))) as [[H E]|[H E]]; rewrite E; nra. }
  assert (VB : - (v * g_dt c) <= B).
  { unfold B. destruct (min0_cases (sel y (g_min c))) as [[H E]|[H E]]; rewrite E; nra. }
  assert (VAr : v * g_dt c * g_res c <= A * g_res c) by (apply Qmult_le_compat_r; lra).
  assert (VBr : - (v * g_dt c) * g_res c <= B * g_res c) by (apply Qmult_le_compat_r; lra).
  assert (XR : 0 <= extra * g_res c) by (apply Qmult_le_0_compat; lra).
  split; lra.
Qed.

Lemma axis_covers_pixels_exact : forall q v, allowed y c v ->
  integral ((sel y (g_off c) - sel y (l_pbo g)) * g_res c) -> integral (B * g_res c) ->
  inject_Z (sel y (o_off g)) <= q + v * g_dt c * g_res c <= inject_Z (sel y (o_off g)) + inject_Z (sel y (g_image c)) ->
  0 <= q <= inject_Z (sel y (o_pb g)).
Proof.
  intros q v [V1 V2] [zo Eo] [zb Eb] [P1 P2]. rewrite off_arg in Eo. rewrite off_floor in *. rewrite pb_floor.
  rewrite (Qfloor_comp _ _ Eo), floor_inj in *.
  assert (E : inject_Z (sel y (g_image c)) + (A + extra) * g_res c + B * g_res c == inject_Z (sel y (g_image c) + zo + zb)).
  { rewrite Eo, Eb, !inject_Z_plus. reflexivity. }
  rewrite (Qfloor_comp _ _ E), floor_inj, !inject_Z_plus, <- Eb. rewrite <- Eo in *.
  pose proof (af_extra _ _ _ _ AF) as X. pose proof (af_res _ _ _ _ AF) as R.
  assert (VA : v * g_dt c <= A).
  { unfold A. destruct (max0_cases (sel y (g_max c))) as [[H E']|[H E']]; rewrite E'; nra. }
  assert (VB : - (v * g_dt c) <= B).
  { unfold B. destruct (min0_cases (sel y (g_min c))) as [[H E']|[H E']]; rewrite E'; nra. }
  assert (VAr : v * g_dt c * g_res c <= A * g_res c) by (apply Qmult_le_compat_r; lra).
  assert (VBr : - (v * g_dt c) * g_res c <= B * g_res c) by (apply Qmult_le_compat_r; lra).
  assert (XR : 0 <= extra * g_res c) by (apply Qmult_le_0_compat; lra).
  split; lra.
Qed.

(** Flow grid arithmetic. *)
Lemma ores_pos : 0 < sel y (o_res g).
Proof.
  rewrite (af_ores _ _ _ _ AF). pose proof (af_size _ _ _ _ AF). pose proof (af_shape _ _ _ _ AF).
  assert (0 < inject_Z (sel y (g_ffshape c))) by (change 0 with (inject_Z 0); apply inj_lt; assumption).
  apply Qlt_shift_div_l; lra.
Qed.
Lemma ores_size : sel y (g_ffsize c) * sel y (o_res g) == inject_Z (sel y (g_ffshape c)).
Proof.
  rewrite (af_ores _ _ _ _ AF). pose proof (af_size _ _ _ _ AF). field. intros E. rewrite E in *. lra.
Qed.

Lemma pad_spec : max0 exact (- sel y (l_pbo g)) * sel y (o_res g) <= inject_Z (sel y (o_pad g)) /\
  inject_Z (sel y (o_pad g)) < max0 exact (- sel y (l_pbo g)) * sel y (o_res g) + 1 /\ (0 <= sel y (o_pad g))%Z.
Proof.
  rewrite (af_pad _ _ _ _ AF). destruct (ceiling_spec (max0 exact (- sel y (l_pbo g)) * sel y (o_res g))) as [C1 C2].
  split; [exact C1|]. split; [exact C2|].
  assert (0 <= max0 exact (- sel y (l_pbo g)) * sel y (o_res g)).
  { pose proof ores_pos. apply Qmult_le_0_compat; [|lra]. destruct (max0_cases (- sel y (l_pbo g))) as [[H0 E]|[H0 E]]; rewrite E; lra. }
  rewrite Zle_Qle. change (inject_Z 0) with 0. lra.
Qed.

Lemma off_bounds : inject_Z (sel y (o_off g)) <= (sel y (g_off c) - sel y (l_pbo g)) * g_res c /\
  (sel y (g_off c) - sel y (l_pbo g)) * g_res c < inject_Z (sel y (o_off g)) + 1 /\ (0 <= sel y (o_off g))%Z.
Proof.
  rewrite off_arg, off_floor. destruct (floor_spec ((A + extra) * g_res c)) as [F1 F2]. split; [exact F1|].
  split; [exact F2|]. apply floor_le_mono. exact Ae_nonneg.
Qed.

Lemma opbo_cases : (0 <= sel y (l_pbo g) /\ sel y (o_pbo g) == sel y (l_pbo g) /\ max0 exact (- sel y (l_pbo g)) == 0) \/
  (sel y (l_pbo g) <= 0 /\ sel y (o_pbo g) == 0 /\ max0 exact (- sel y (l_pbo g)) == - sel y (l_pbo g)).
Proof.
  rewrite (af_opbo _ _ _ _ AF).
  destruct (max0_cases (sel y (l_pbo g))) as [[H E]|[H E]]; destruct (max0_cases (- sel y (l_pbo g))) as [[H' E']|[H' E']]; lra.
Qed.

(** Start of the reported window, in padded grid coordinates, against the place
    of the image origin. *)
Lemma rep_start_bounds :
  let start := sel y (o_pbo g) * sel y (o_res g) + inject_Z (sel y (o_off g)) / g_res c * sel y (o_res g) in
  let place := sel y (g_off c) * sel y (o_res g) + inject_Z (sel y (o_pad g)) in
  0 <= start /\ 0 <= place - start /\ place - start < 1 + sel y (o_res g) / g_res c /\
  (sel y (o_pad g) = 0%Z -> place - start < sel y (o_res g) / g_res c) /\
  (sel y (o_pad g) = 0%Z -> integral ((sel y (g_off c) - sel y (l_pbo g)) * g_res c) -> place == start).
Proof.
  intros start place. pose proof ores_pos as RP. pose proof (af_res _ _ _ _ AF) as R.
  destruct off_bounds as (O1 & O2 & O3). destruct pad_spec as (D1 & D2 & D3).
  set (r := sel y (o_res g)) in *. set (w := g_res c) in *. set (b := sel y (l_pbo g)) in *. set (o := sel y (g_off c)) in *.
  set (n := inject_Z (sel y (o_off g))) in *.
  assert (W0 : ~ w == 0) by lra.
  assert (NW : n / w <= o - b) by (apply Qle_shift_div_r; lra).
  assert (NW2 : o - b < n / w + 1 / w).
  { setoid_replace (n / w + 1 / w) with ((n + 1) / w) by (field; exact W0). apply Qlt_shift_div_l; lra. }
  assert (N0 : 0 <= n / w).
  { apply Qle_shift_div_l; [assumption|]. assert (0 <= n) by (change 0 with (inject_Z 0); apply inj_le; exact O3). lra. }
  assert (NR : n / w * r <= (o - b) * r) by (apply Qmult_le_compat_r; lra).
  assert (NR2 : (o - b) * r < n / w * r + r / w).
  { setoid_replace (n / w * r + r / w) with ((n / w + 1 / w) * r) by (field; exact W0). apply Qmult_lt_compat_r; assumption. }
  assert (NR0 : 0 <= n / w * r) by (apply Qmult_le_0_compat; lra).
  destruct opbo_cases as [(C1 & C2 & C3)|(C1 & C2 & C3)]; fold b in C1, C2, C3; rewrite C3 in D1, D2;
    unfold start, place; rewrite C2.
  - assert (PZ : sel y (o_pad g) = 0%Z).
    { assert (sel y (o_pad g) < 1)%Z; [|lia]. rewrite Zlt_Qlt. change (inject_Z 1) with 1. lra. }
    rewrite PZ. change (inject_Z 0) with 0.
    assert (0 <= b * r) by (apply Qmult_le_0_compat; lra).
    assert (0 < r / w) by (apply Qlt_shift_div_l; lra).
    split; [lra|]. split; [lra|]. split; [lra|]. split; [intros _; lra|].
    intros _ [z Ez]. assert (Z1 : sel y (o_off g) = z).
    { rewrite (af_off _ _ _ _ AF). rewrite trunc_nonneg by (rewrite off_arg; exact Ae_nonneg).
      etransitivity; [apply (Qfloor_comp _ _ Ez) | apply floor_inj]. }
    assert (E : n == (o - b) * w) by (unfold n; rewrite Z1; symmetry; exact Ez).
    rewrite E. field. exact W0.
  - split; [lra|]. assert (0 <= - b * r) by (apply Qmult_le_0_compat; lra).
    split; [lra|]. split; [lra|]. split.
    + intros PZ. rewrite PZ in *. change (inject_Z 0) with 0 in *. lra.
    + intros PZ [z Ez]. rewrite PZ in *. change (inject_Z 0) with 0 in *.
      assert (Z1 : sel y (o_off g) = z).
      { rewrite (af_off _ _ _ _ AF). rewrite trunc_nonneg by (rewrite off_arg; exact Ae_nonneg).
        etransitivity; [apply (Qfloor_comp _ _ Ez) | apply floor_inj]. }
      assert (E : n == (o - b) * w) by (unfold n; rewrite Z1; symmetry; exact Ez).
      assert (BZ : b * r == 0) by lra.
      rewrite E. setoid_replace ((o - b) * w / w * r) with (o * r - b * r) by (field; exact W0). rewrite BZ. ring.
Qed.

(** Ends of the sampled windows stay on the padded grid. *)
Lemma rep_end_bound :
  sel y (o_pbo g) * sel y (o_res g) + inject_Z (sel y (o_off g)) / g_res c * sel y (o_res g) + L * sel y (o_res g) - 1
  <= inject_Z (sel y (g_ffshape c) + sel y (o_pad g)) - 1.
Proof.
  destruct axis_contains_image as (I1 & I2 & I3). destruct rep_start_bounds as (_ & S & _).
  pose proof ores_pos as RP. rewrite inject_Z_plus, <- ores_size.
  assert ((sel y (g_off c) + L) * sel y (o_res g) <= sel y (g_ffsize c) * sel y (o_res g)) by (apply Qmult_le_compat_r; lra).
  lra.
Qed.

Lemma pb_bounds : inject_Z (sel y (o_pb g)) <= sel y (l_pb g) * g_res c /\ (0 <= sel y (o_pb g))%Z.
Proof.
  rewrite (af_pb _ _ _ _ AF), trunc_nonneg by apply pb_nonneg.
  destruct (floor_spec (sel y (l_pb g) * g_res c)) as [F _]. split; [exact F|]. apply floor_le_mono. exact pb_nonneg.
Qed.

Lemma par_bounds :
  0 <= sel y (o_pbo g) * sel y (o_res g) /\
  sel y (o_pbo g) * sel y (o_res g) + inject_Z (sel y (o_pb g)) / g_res c * sel y (o_res g) - 1
  <= inject_Z (sel y (g_ffshape c) + sel y (o_pad g)) - 1.
Proof.
  destruct axis_contains_image as (I1 & I2 & I3). destruct pb_bounds as [P1 P2]. destruct pad_spec as (D1 & D2 & D3).
  pose proof ores_pos as RP. pose proof (af_res _ _ _ _ AF) as R. rewrite inject_Z_plus, <- ores_size.
  assert (PW : inject_Z (sel y (o_pb g)) / g_res c <= sel y (l_pb g)) by (apply Qle_shift_div_r; lra).
  assert (PR : inject_Z (sel y (o_pb g)) / g_res c * sel y (o_res g) <= sel y (l_pb g) * sel y (o_res g)) by (apply Qmult_le_compat_r; lra).
  assert (SR : (sel y (l_pbo g) + sel y (l_pb g)) * sel y (o_res g) <= sel y (g_ffsize c) * sel y (o_res g)) by (apply Qmult_le_compat_r; lra).
  destruct opbo_cases as [(C1 & C2 & C3)|(C1 & C2 & C3)]; rewrite C2; rewrite C3 in D1.
  - split; [apply Qmult_le_0_compat; lra | lra].
  - split; lra.
Qed.
End Axis.
