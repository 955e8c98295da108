(** Proofs for the comparison of reported flow and particle motion (C119). *)
From Coq Require Import List Arith ZArith QArith Qround Qabs Bool Lia Lqa.
From Verif Require Import Prelude Model.Interp Model.Apply Model.Geometry Model.DataGen.
From Verif Require Import Spec.InterpSpec Spec.WarpSpec Spec.GeometrySpec Spec.LipschitzSpec Spec.RegisterSpec.
From Verif Require Import Proofs.InterpProofs Proofs.WarpProofs Proofs.LipschitzProofs Proofs.AdapterProofs Proofs.GeometryProofs.
Import ListNotations.
Local Open Scope Q_scope.

(** * Sampling a sampled image *)
Definition spread (n : Z) (X : Z -> Q) (g t : Q) : Q := (1 - axw n g) * Qabs (X (ax0 n g) - t) + axw n g * Qabs (X (ax1 n g) - t).

Lemma sampled : forall G P X Y Dx Dy gx gy tx ty, nonempty G -> nonempty P -> 0 <= Dx -> 0 <= Dy -> across Dx G -> down Dy G ->
  (forall r c, pixel P r c -> at_ P r c == bilinear G (X c) (Y r)) ->
  Qabs (bilinear P gx gy - bilinear G tx ty) <= Dx * spread (cols P) X gx tx + Dy * spread (rows P) Y gy ty.
Proof.
  intros G P X Y Dx Dy gx gy tx ty NG NP HX HY AX AY S.
  destruct (bilinear_axes P gx gy NP) as (P1 & P2 & P3 & P4 & ->).
  rewrite (S _ _ P1), (S _ _ P2), (S _ _ P3), (S _ _ P4). destruct NP as [NR NC].
  destruct (axis_ok (cols P) gx NC) as (_ & _ & W & _). destruct (axis_ok (rows P) gy NR) as (_ & _ & V & _). unfold spread.
  set (w := axw (cols P) gx) in *. set (v := axw (rows P) gy) in *.
  assert (L : forall r k, inside (Dx * Qabs (X k - tx) + Dy * Qabs (Y r - ty)) (bilinear G (X k) (Y r) - bilinear G tx ty)).
  { intros r k. apply (proj2 (inside_abs _ _)). apply bilinear_lipschitz; assumption. }
  set (x0 := ax0 (cols P) gx) in *. set (x1 := ax1 (cols P) gx) in *. set (y0 := ax0 (rows P) gy) in *. set (y1 := ax1 (rows P) gy) in *.
  apply (proj1 (inside_abs _ _)).
  pose proof (inside_scale _ _ ((1 - w) * (1 - v)) ltac:(nra) (L y0 x0)) as L1.
  pose proof (inside_scale _ _ (w * (1 - v)) ltac:(nra) (L y0 x1)) as L2.
  pose proof (inside_scale _ _ ((1 - w) * v) ltac:(nra) (L y1 x0)) as L3.
  pose proof (inside_scale _ _ (w * v) ltac:(nra) (L y1 x1)) as L4.
  eapply inside_eq; [| |exact (inside_add _ _ _ _ (inside_add _ _ _ _ (inside_add _ _ _ _ L1 L2) L3) L4)]; ring.
Qed.

(** Where the particle flow is read along one axis: within two grid steps. *)
Lemma spread_ok : forall n st g X s, (1 <= n)%Z -> inject_Z n <= st -> st < inject_Z n + 1 -> 0 <= g <= inject_Z n ->
  (forall i, (0 <= i < n)%Z -> X i == linspace s (s + st - 1) n i) ->
  spread n X g (s + g * (st / inject_Z n)) <= 2.
Proof.
  intros n st g X s N S1 S2 G EX. unfold spread. set (t := s + g * (st / inject_Z n)).
  destruct (axis_ok n g N) as (A0 & A1 & W & C & P).
  assert (N1 : 1 <= inject_Z n) by (change 1 with (inject_Z 1); apply inj_le; exact N).
  set (e := st / inject_Z n) in *. assert (E : e * inject_Z n == st) by (unfold e; field; lra).
  assert (EB : 1 <= e /\ e <= 2) by (split; nra).
  destruct (Z.eq_dec n 1) as [->|NE].
  - rewrite (EX _ A0), (EX _ A1). unfold linspace. cbn [Z.eqb Pos.eqb]. change (inject_Z 1) with 1 in *.
    assert (B : Qabs (s - t) <= 2) by (unfold t; apply Qabs_Qle_condition; nra). nra.
  - assert (N2 : 2 <= inject_Z n) by (change 2 with (inject_Z 2); apply inj_le; lia).
    set (d := (st - 1) / (inject_Z n - 1)). assert (D : d * (inject_Z n - 1) == st - 1) by (unfold d; field; lra).
    assert (DB : 1 <= d /\ d <= 2) by (split; nra).
    assert (XI : forall i, (0 <= i < n)%Z -> X i == s + inject_Z i * d).
    { intros i I. rewrite (EX i I). unfold linspace. destruct (Z.eqb_spec n 1); [contradiction|]. rewrite inj_sub1. unfold d. field. lra. }
    set (i := ax0 n g) in *. set (w := axw n g) in *. set (p := clipQ 0 (inject_Z n - 1) g) in *.
    assert (T : Qabs (s + p * d - t) <= 1).
    { unfold t, p. apply Qabs_Qle_condition. destruct (clipQ_cases 0 (inject_Z n - 1) g ltac:(lra)) as [(B & R)|[(B & R)|(B & R)]]; rewrite R.
      - exfalso; lra.
      - assert ((inject_Z n - 1) * d == e * inject_Z n - 1) by lra. split; nra.
      - assert (DE : (d - e) * (inject_Z n - 1) == e - 1) by nra. assert (0 <= d - e) by nra. split; nra. }
    assert (B0 : Qabs (X i - t) <= 1 + w * d).
    { rewrite (XI i A0). setoid_replace (s + inject_Z i * d - t) with ((s + p * d - t) + - (w * d)) by (rewrite P; ring).
      eapply Qle_trans; [apply Qabs_triangle|]. rewrite Qabs_opp, (Qabs_pos (w * d)) by nra. lra. }
    destruct C as [C|[C Z]].
    + assert (B1 : Qabs (X (ax1 n g) - t) <= 1 + (1 - w) * d).
      { rewrite (XI _ A1), C, inj_add1. setoid_replace (s + (inject_Z i + 1) * d - t) with ((s + p * d - t) + (1 - w) * d) by (rewrite P; ring).
        eapply Qle_trans; [apply Qabs_triangle|]. rewrite (Qabs_pos ((1 - w) * d)) by nra. lra. }
      assert (M1 : (1 - w) * Qabs (X i - t) <= (1 - w) * (1 + w * d)) by (nra).
      assert (M2 : w * Qabs (X (ax1 n g) - t) <= w * (1 + (1 - w) * d)) by nra.
      assert (Q1 : 4 * (w * (1 - w)) <= 1) by (destruct (Qlt_le_dec w (1 # 2)); nra).
      assert (Q0 : 0 <= w * (1 - w)) by nra. assert (Q2 : 2 * (w * (1 - w)) * d <= 1) by nra. lra.
    + rewrite C. fold i. assert (Z2 : w * d == 0) by (rewrite Z; ring).
      setoid_replace ((1 - w) * Qabs (X i - t) + w * Qabs (X i - t)) with (Qabs (X i - t)) by ring. lra.
Qed.

(** Where vector [k] of [w] is read, against where it belongs. *)
Lemma report_ok : forall w k s a, (0 <= k < w)%Z ->
  Qabs (s + inject_Z k * (a / inject_Z w) - linspace s (s + a - 1) w k) <= Qabs (1 - a / inject_Z w).
Proof.
  intros w k s a K. assert (W1 : 1 <= inject_Z w) by (change 1 with (inject_Z 1); apply inj_le; lia).
  unfold linspace. destruct (Z.eqb_spec w 1) as [->|N].
  - replace k with 0%Z by lia. change (inject_Z 0) with 0. setoid_replace (s + 0 * (a / inject_Z 1) - s) with 0 by ring. apply Qabs_nonneg.
  - assert (W2 : 2 <= inject_Z w) by (change 2 with (inject_Z 2); apply inj_le; lia).
    assert (K0 : 0 <= inject_Z k) by (change 0 with (inject_Z 0); apply inj_le; lia).
    assert (K1 : inject_Z k <= inject_Z w - 1) by (rewrite <- inj_sub1; apply inj_le; lia).
    set (r := inject_Z k / (inject_Z w - 1)). assert (R : r * (inject_Z w - 1) == inject_Z k) by (unfold r; field; lra).
    assert (RB : 0 <= r /\ r <= 1) by (split; nra). rewrite inj_sub1.
    setoid_replace (s + inject_Z k * (a / inject_Z w) - (s + inject_Z k * ((s + a - 1 - s) / (inject_Z w - 1)))) with (r * (1 - a / inject_Z w)) by (unfold r; field; lra).
    rewrite Qabs_Qmult, (Qabs_pos r) by apply RB. pose proof (Qabs_nonneg (1 - a / inject_Z w)). nra.
Qed.

(** Padding keeps the slopes. *)
Lemma pad_gentle : forall py px f Dx Dy, (0 <= py)%Z -> (0 <= px)%Z -> (1 <= fH f)%Z -> (1 <= fW f)%Z -> 0 <= Dx -> 0 <= Dy ->
  gentle Dx Dy f -> gentle Dx Dy (pad_edge py px f).
Proof.
  intros py px f Dx Dy PY PX FH FW HX HY (A & B & A' & B').
  assert (Z0 : forall q, Qabs (q - q) == 0) by (intros q; setoid_replace (q - q) with 0 by ring; reflexivity).
  repeat split; intros r k [P1 P2] [P3 P4]; cbn [chan0 chan1 pad_edge rows cols at_ fH fW fu fv] in *.
  - destruct (Z_le_gt_dec px k).
    + replace (Z.max 0 (k + 1 - px)) with (Z.max 0 (k - px) + 1)%Z by lia. apply A; split; cbn; lia.
    + replace (Z.max 0 (k + 1 - px)) with (Z.max 0 (k - px))%Z by lia. rewrite Z0. exact HX.
  - destruct (Z_le_gt_dec py r).
    + replace (Z.max 0 (r + 1 - py)) with (Z.max 0 (r - py) + 1)%Z by lia. apply B; split; cbn; lia.
    + replace (Z.max 0 (r + 1 - py)) with (Z.max 0 (r - py))%Z by lia. rewrite Z0. exact HY.
  - destruct (Z_le_gt_dec px k).
    + replace (Z.max 0 (k + 1 - px)) with (Z.max 0 (k - px) + 1)%Z by lia. apply A'; split; cbn; lia.
    + replace (Z.max 0 (k + 1 - px)) with (Z.max 0 (k - px))%Z by lia. rewrite Z0. exact HX.
  - destruct (Z_le_gt_dec py r).
    + replace (Z.max 0 (r + 1 - py)) with (Z.max 0 (r - py) + 1)%Z by lia. apply B'; split; cbn; lia.
    + replace (Z.max 0 (r + 1 - py)) with (Z.max 0 (r - py))%Z by lia. rewrite Z0. exact HY.
Qed.

(** * Cutting a piece out of an image *)
Lemma along_crop : forall n n' o x fA fB, (1 <= n)%Z -> (0 <= o)%Z -> (o + n <= n')%Z ->
  (forall i, (0 <= i < n)%Z -> fA i == fB (i + o)%Z) -> 0 <= x <= inject_Z n - 1 ->
  along n fA x == along n' fB (x + inject_Z o).
Proof.
  intros n n' o x fA fB N O L E X. unfold along.
  assert (O0 : 0 <= inject_Z o) by (change 0 with (inject_Z 0); apply inj_le; exact O).
  assert (N' : inject_Z o + inject_Z n <= inject_Z n') by (rewrite <- inject_Z_plus; apply inj_le; exact L).
  destruct (axis_ok n x N) as (A0 & A1 & W & C & P). destruct (axis_ok n' (x + inject_Z o) ltac:(lia)) as (B0 & B1 & V & _ & R).
  rewrite (on_axis_clip n x N X) in P. rewrite (on_axis_clip n' (x + inject_Z o) ltac:(lia)) in R by (unfold on_axis; lra).
  assert (I : ax0 n' (x + inject_Z o) = (ax0 n x + o)%Z).
  { assert (L1 : inject_Z (ax0 n' (x + inject_Z o)) < inject_Z (ax0 n x + o + 1)) by (rewrite !inject_Z_plus; change (inject_Z 1) with 1; lra).
    assert (L2 : inject_Z (ax0 n x + o) < inject_Z (ax0 n' (x + inject_Z o) + 1)) by (rewrite !inject_Z_plus; change (inject_Z 1) with 1; lra).
    rewrite <- Zlt_Qlt in L1, L2. lia. }
  assert (J : axw n' (x + inject_Z o) == axw n x) by (assert (R' : inject_Z (ax0 n' (x + inject_Z o)) == inject_Z (ax0 n x) + inject_Z o) by (rewrite I, inject_Z_plus; reflexivity); lra).
  rewrite J, I, (E _ A0). destruct C as [C|[C Z]].
  - replace (ax1 n' (x + inject_Z o)) with (ax1 n x + o)%Z; [rewrite (E _ A1); reflexivity|]. rewrite C. unfold ax1. rewrite I, clipZ_in by lia. lia.
  - rewrite Z. ring.
Qed.

Lemma bilinear_crop : forall A B ox oy x y, nonempty A -> (0 <= ox)%Z -> (0 <= oy)%Z -> (ox + cols A <= cols B)%Z -> (oy + rows A <= rows B)%Z ->
  (forall r k, pixel A r k -> at_ A r k == at_ B (r + oy) (k + ox)) -> 0 <= x <= inject_Z (cols A) - 1 -> 0 <= y <= inject_Z (rows A) - 1 ->
  bilinear A x y == bilinear B (x + inject_Z ox) (y + inject_Z oy).
Proof.
  intros A B ox oy x y NA OX OY LX LY E X Y. assert (NB : nonempty B) by (destruct NA; split; lia).
  rewrite (bilinear_along A x y NA), (bilinear_along B _ _ NB). destruct NA as [NR NC].
  apply (along_crop (rows A) (rows B) oy y (fun r => along (cols A) (at_ A r) x) (fun r => along (cols B) (at_ B r) (x + inject_Z ox)) NR OY LY); [|exact Y].
  intros i I. apply along_crop; try assumption. intros k K. apply E. split; assumption.
Qed.

(** * The sampler *)
Section Accepted.
Variables (c : gcfg exact) (g : geom exact) (batch : nat) (f : flow).
Hypothesis H : construct exact c = Ok g.
Hypothesis DT : 0 <= g_dt c.
Hypothesis IM : forall y, (0 < sel y (g_image c))%Z.
Hypothesis ONE : forall y, 1 <= shown y c g.
Hypothesis FH : (1 <= fH f)%Z.
Hypothesis FW : (1 <= fW f)%Z.
Let a := adapter_of c g batch true.
Let padded := pad_edge (fst (ad_pad a)) (snd (ad_pad a)) f.
Let reported := fst (process_single a f).
Let pf := snd (process_single a f).
(** The index into the particle flow at which a particle reads its velocity. *)
Definition read_at (y : bool) (p : Q) : Q := p * (inject_Z (Qfloor (covered y c g)) / inject_Z (sel y (o_pb g))).

Lemma axis_basics : forall y, 0 < g_res c /\ 0 < inject_Z (sel y (o_pb g)) /\ 0 < sel y (o_res g) /\ 1 <= covered y c g /\
  (1 <= Qfloor (covered y c g))%Z /\ 1 <= inject_Z (Qfloor (covered y c g)) /\ (0 <= sel y (o_pad g))%Z /\
  Z.max 1 (Qtrunc (covered y c g)) = Qfloor (covered y c g) /\
  (0 <= sel y (o_off g) /\ sel y (o_off g) + sel y (g_image c) <= sel y (o_pb g))%Z.
Proof.
  intros y. destruct (accepted_axis c g H y) as [e AF]. pose proof (IM y) as I.
  pose proof (ores_pos y c g e AF) as RP. pose proof (af_res _ _ _ _ AF) as R.
  destruct (axis_crop y c g e AF DT ltac:(lia)) as [C1 C2].
  assert (P : 0 < inject_Z (sel y (o_pb g))) by (change 0 with (inject_Z 0); apply inj_lt; lia).
  assert (CV : 1 <= covered y c g).
  { pose proof (ONE y) as O. unfold shown, covered in *.
    assert (inject_Z (sel y (g_image c)) <= inject_Z (sel y (o_pb g))) by (apply inj_le; lia).
    assert (inject_Z (sel y (g_image c)) / g_res c <= inject_Z (sel y (o_pb g)) / g_res c).
    { unfold Qdiv. apply Qmult_le_compat_r; [assumption|]. apply Qlt_le_weak, Qinv_lt_0_compat. exact R. }
    assert (inject_Z (sel y (g_image c)) / g_res c * sel y (o_res g) <= inject_Z (sel y (o_pb g)) / g_res c * sel y (o_res g))
      by (apply Qmult_le_compat_r; lra). lra. }
  assert (F : (1 <= Qfloor (covered y c g))%Z) by (apply floor_le_mono; exact CV).
  split; [exact R|]. split; [exact P|]. split; [exact RP|]. split; [exact CV|]. split; [exact F|].
  split; [change 1 with (inject_Z 1); apply inj_le; exact F|]. split; [apply (pad_spec y c g e AF)|].
  split; [rewrite trunc_nonneg by lra; lia|]. split; assumption.
Qed.

Lemma par_size : fH pf = Qfloor (covered true c g) /\ fW pf = Qfloor (covered false c g).
Proof. split; [exact (proj1 (proj2 (proj2 (proj2 (proj2 (proj2 (proj2 (proj2 (axis_basics true)))))))))|exact (proj1 (proj2 (proj2 (proj2 (proj2 (proj2 (proj2 (proj2 (axis_basics false)))))))))]. Qed.

Lemma displacement : forall y x,
  let (y', x') := second_position (o_pb g) pf (g_dt c) (snd (o_res g)) (fst (o_res g)) (y, x) in
  x' - x == stretch false c g * (g_res c * g_dt c) * bilinear (chan0 pf) (read_at false x) (read_at true y) /\
  y' - y == stretch true c g * (g_res c * g_dt c) * bilinear (chan1 pf) (read_at false x) (read_at true y).
Proof.
  intros y x. destruct par_size as [E1 E2].
  destruct (axis_basics true) as (R & PY & RY & CY & _ & NY & _). destruct (axis_basics false) as (_ & PX & RX & CX & _ & NX & _).
  unfold second_position, update_2d. rewrite E1, E2. cbn [sel] in *. fold (read_at true y) (read_at false x).
  assert (EY : read_at true y = y * (inject_Z (Qfloor (covered true c g)) / inject_Z (fst (o_pb g)))) by reflexivity.
  assert (EX : read_at false x = x * (inject_Z (Qfloor (covered false c g)) / inject_Z (snd (o_pb g)))) by reflexivity.
  set (U := bilinear (chan0 pf) (read_at false x) (read_at true y)). set (V := bilinear (chan1 pf) (read_at false x) (read_at true y)).
  change (bilinear (chan0 pf) (x * (inject_Z (Qfloor (covered false c g)) / inject_Z (snd (o_pb g)))) (y * (inject_Z (Qfloor (covered true c g)) / inject_Z (fst (o_pb g))))) with U.
  change (bilinear (chan1 pf) (x * (inject_Z (Qfloor (covered false c g)) / inject_Z (snd (o_pb g)))) (y * (inject_Z (Qfloor (covered true c g)) / inject_Z (fst (o_pb g))))) with V.
  unfold stretch. set (ny := inject_Z (Qfloor (covered true c g))) in *. set (nx := inject_Z (Qfloor (covered false c g))) in *.
  unfold covered. cbn [sel]. split; field; repeat split; lra.
Qed.

Lemma par_pixel : forall r k, pixel (chan0 pf) r k ->
  at_ (chan0 pf) r k == bilinear (chan0 padded) (par_x a k) (par_y a r) /\ at_ (chan1 pf) r k == bilinear (chan1 padded) (par_x a k) (par_y a r).
Proof. intros r k _. split; reflexivity. Qed.

Lemma reported_is : forall i j,
  fu reported i j == g_res c * g_dt c * bilinear (chan0 padded) (rep_x a j) (rep_y a i) /\
  fv reported i j == g_res c * g_dt c * bilinear (chan1 padded) (rep_x a j) (rep_y a i).
Proof. intros i j. unfold reported, process_single. cbn [fst fu fv]. fold padded. split; apply Qmult_comm. Qed.

(** The grid coordinate of a pixel of the simulated area. *)
Definition place (y : bool) (p : Q) : Q := sel y (o_pbo g) * sel y (o_res g) + p * steps_per_pixel y c g.

Lemma particle_spread : forall y p X, 0 <= p <= inject_Z (sel y (o_pb g)) ->
  (forall k, X k = linspace (sel y (o_pbo g) * sel y (o_res g)) (sel y (o_pbo g) * sel y (o_res g) + covered y c g - 1) (Qfloor (covered y c g)) k) ->
  spread (Qfloor (covered y c g)) X (read_at y p) (place y p) <= 2.
Proof.
  intros y p X B EX. destruct (axis_basics y) as (R & P & RS & C & F & N & _). destruct (floor_spec (covered y c g)) as [F1 F2].
  set (s := sel y (o_pbo g) * sel y (o_res g)) in *.
  assert (G : 0 <= read_at y p <= inject_Z (Qfloor (covered y c g))).
  { unfold read_at. set (n := inject_Z (Qfloor (covered y c g))) in *. set (P' := inject_Z (sel y (o_pb g))) in *.
    assert (E : n / P' * P' == n) by (field; lra). assert (0 < n / P') by (apply Qlt_shift_div_l; lra). split; nra. }
  pose proof (spread_ok _ _ (read_at y p) X s F F1 F2 G ltac:(intros i _; rewrite (EX i); reflexivity)) as S.
  eapply Qle_trans; [|exact S]. apply Qle_lteq. right. unfold spread.
  assert (E : place y p == s + read_at y p * (covered y c g / inject_Z (Qfloor (covered y c g)))).
  { unfold place, read_at, steps_per_pixel. fold s. set (n := inject_Z (Qfloor (covered y c g))) in *. unfold covered. field. repeat split; lra. }
  rewrite E. reflexivity.
Qed.

Lemma vector_off : forall y k, (0 <= k < sel y (o_out g))%Z ->
  let start := sel y (o_pbo g) * sel y (o_res g) + inject_Z (sel y (o_off g)) / g_res c * sel y (o_res g) in
  Qabs (place y (belongs y c g k) - linspace start (start + inject_Z (sel y (g_image c)) / g_res c * sel y (o_res g) - 1) (sel y (o_out g)) k) <=
  Qabs (1 - shown y c g / inject_Z (sel y (o_out g))).
Proof.
  intros y k K start. destruct (axis_basics y) as (R & _).
  assert (W1 : 1 <= inject_Z (sel y (o_out g))) by (change 1 with (inject_Z 1); apply inj_le; lia).
  pose proof (report_ok (sel y (o_out g)) k start (shown y c g) K) as B.
  eapply Qle_trans; [|exact B]. apply Qle_lteq. right. apply Qabs_wd. unfold shown.
  assert (E : place y (belongs y c g k) == start + inject_Z k * (inject_Z (sel y (g_image c)) / g_res c * sel y (o_res g) / inject_Z (sel y (o_out g)))).
  { unfold place, belongs, start, steps_per_pixel. field. split; lra. }
  rewrite E. reflexivity.
Qed.

Lemma place_close : forall y p q, Qabs (place y p - place y q) == steps_per_pixel y c g * Qabs (p - q).
Proof.
  intros y p q. destruct (axis_basics y) as (R & _ & RS & _). unfold place.
  setoid_replace (sel y (o_pbo g) * sel y (o_res g) + p * steps_per_pixel y c g - (sel y (o_pbo g) * sel y (o_res g) + q * steps_per_pixel y c g))
    with (steps_per_pixel y c g * (p - q)) by ring.
  rewrite Qabs_Qmult, (Qabs_pos (steps_per_pixel y c g)); [reflexivity|]. unfold steps_per_pixel. apply Qle_shift_div_l; lra.
Qed.

Lemma channel_close : forall (ch : flow -> image), (ch = chan0 \/ ch = chan1) -> forall Dx Dy y x i j, 0 <= Dx -> 0 <= Dy -> gentle Dx Dy f ->
  0 <= y <= inject_Z (sel true (o_pb g)) -> 0 <= x <= inject_Z (sel false (o_pb g)) ->
  (0 <= i < sel true (o_out g))%Z -> (0 <= j < sel false (o_out g))%Z ->
  Qabs (bilinear (ch pf) (read_at false x) (read_at true y) - bilinear (ch padded) (rep_x a j) (rep_y a i)) <=
  Dx * reach false c g x j + Dy * reach true c g y i.
Proof.
  intros ch CH Dx Dy y x i j HX HY GN BY BX I J. destruct par_size as [E1 E2].
  destruct (axis_basics true) as (_ & _ & _ & _ & FY & _ & PY & _). destruct (axis_basics false) as (_ & _ & _ & _ & FX & _ & PX & _).
  destruct (pad_nonempty (fst (ad_pad a)) (snd (ad_pad a)) f) as [N0 N1]; try assumption.
  pose proof (pad_gentle (fst (ad_pad a)) (snd (ad_pad a)) f Dx Dy PY PX FH FW HX HY GN) as (G1 & G2 & G3 & G4). fold padded in N0, N1, G1, G2, G3, G4.
  assert (NG : nonempty (ch padded)) by (destruct CH as [-> | ->]; assumption).
  assert (NP : nonempty (ch pf)) by (destruct CH as [-> | ->]; split; cbn [chan0 chan1 rows cols]; lia).
  assert (AX : across Dx (ch padded)) by (destruct CH as [-> | ->]; assumption).
  assert (AY : down Dy (ch padded)) by (destruct CH as [-> | ->]; assumption).
  assert (RC : rows (ch pf) = Qfloor (covered true c g) /\ cols (ch pf) = Qfloor (covered false c g)) by (destruct CH as [-> | ->]; split; assumption).
  destruct RC as [RR CC].
  assert (SM : forall r k, pixel (ch pf) r k -> at_ (ch pf) r k == bilinear (ch padded) (par_x a k) (par_y a r)) by (intros r k _; destruct CH as [-> | ->]; reflexivity).
  pose proof (sampled (ch padded) (ch pf) (par_x a) (par_y a) Dx Dy (read_at false x) (read_at true y) (place false x) (place true y) NG NP HX HY AX AY SM) as S.
  rewrite RR, CC in S.
  assert (PSX : spread (Qfloor (covered false c g)) (par_x a) (read_at false x) (place false x) <= 2).
  { apply particle_spread; [exact BX|]. intros k. unfold par_x. replace (par_w a) with (Qfloor (covered false c g)) by (symmetry; exact E2). reflexivity. }
  assert (PSY : spread (Qfloor (covered true c g)) (par_y a) (read_at true y) (place true y) <= 2).
  { apply particle_spread; [exact BY|]. intros k. unfold par_y. replace (par_h a) with (Qfloor (covered true c g)) by (symmetry; exact E1). reflexivity. }
  pose proof (bilinear_lipschitz (ch padded) Dx Dy (place false x) (place true y) (rep_x a j) (rep_y a i) NG HX HY AX AY) as L.
  assert (TX : Qabs (place false x - rep_x a j) <= Qabs (1 - shown false c g / inject_Z (sel false (o_out g))) + steps_per_pixel false c g * Qabs (x - belongs false c g j)).
  { pose proof (vector_off false j J) as V. cbv zeta in V. change (Qabs (place false (belongs false c g j) - rep_x a j) <= Qabs (1 - shown false c g / inject_Z (sel false (o_out g)))) in V.
    pose proof (place_close false x (belongs false c g j)) as PC.
    setoid_replace (place false x - rep_x a j) with ((place false x - place false (belongs false c g j)) + (place false (belongs false c g j) - rep_x a j)) by ring.
    eapply Qle_trans; [apply Qabs_triangle|]. lra. }
  assert (TY : Qabs (place true y - rep_y a i) <= Qabs (1 - shown true c g / inject_Z (sel true (o_out g))) + steps_per_pixel true c g * Qabs (y - belongs true c g i)).
  { pose proof (vector_off true i I) as V. cbv zeta in V. change (Qabs (place true (belongs true c g i) - rep_y a i) <= Qabs (1 - shown true c g / inject_Z (sel true (o_out g)))) in V.
    pose proof (place_close true y (belongs true c g i)) as PC.
    setoid_replace (place true y - rep_y a i) with ((place true y - place true (belongs true c g i)) + (place true (belongs true c g i) - rep_y a i)) by ring.
    eapply Qle_trans; [apply Qabs_triangle|]. lra. }
  set (B0 := bilinear (ch pf) (read_at false x) (read_at true y)) in *. set (B1 := bilinear (ch padded) (rep_x a j) (rep_y a i)) in *.
  set (B2 := bilinear (ch padded) (place false x) (place true y)) in *.
  setoid_replace (B0 - B1) with ((B0 - B2) + (B2 - B1)) by ring. eapply Qle_trans; [apply Qabs_triangle|]. unfold reach.
  set (sx := spread _ _ (read_at false x) _) in *. set (sy := spread _ _ (read_at true y) _) in *.
  set (tx := Qabs (place false x - rep_x a j)) in *. set (ty := Qabs (place true y - rep_y a i)) in *.
  assert (M1 : Dx * sx <= Dx * 2) by nra. assert (M2 : Dy * sy <= Dy * 2) by nra.
  set (ux := Qabs (1 - shown false c g / inject_Z (sel false (o_out g))) + steps_per_pixel false c g * Qabs (x - belongs false c g j)) in *.
  set (uy := Qabs (1 - shown true c g / inject_Z (sel true (o_out g))) + steps_per_pixel true c g * Qabs (y - belongs true c g i)) in *.
  assert (M3 : Dx * tx <= Dx * ux) by nra. assert (M4 : Dy * ty <= Dy * uy) by nra.
  setoid_replace (2 + Qabs (1 - shown false c g / inject_Z (sel false (o_out g))) + steps_per_pixel false c g * Qabs (x - belongs false c g j)) with (2 + ux) by (unfold ux; ring).
  setoid_replace (2 + Qabs (1 - shown true c g / inject_Z (sel true (o_out g))) + steps_per_pixel true c g * Qabs (y - belongs true c g i)) with (2 + uy) by (unfold uy; ring).
  lra.
Qed.

Theorem motion_close : forall Dx Dy y x i j, 0 <= Dx -> 0 <= Dy -> gentle Dx Dy f ->
  0 <= y <= inject_Z (sel true (o_pb g)) -> 0 <= x <= inject_Z (sel false (o_pb g)) ->
  (0 <= i < sel true (o_out g))%Z -> (0 <= j < sel false (o_out g))%Z ->
  let (y', x') := second_position (o_pb g) pf (g_dt c) (snd (o_res g)) (fst (o_res g)) (y, x) in
  Qabs ((x' - x) - stretch false c g * fu reported i j) <= stretch false c g * (g_res c * g_dt c) * (Dx * reach false c g x j + Dy * reach true c g y i) /\
  Qabs ((y' - y) - stretch true c g * fv reported i j) <= stretch true c g * (g_res c * g_dt c) * (Dx * reach false c g x j + Dy * reach true c g y i).
Proof.
  intros Dx Dy y x i j HX HY GN BY BX I J. pose proof (displacement y x) as D. destruct (second_position _ _ _ _ _ _) as [y' x']. destruct D as [D1 D2].
  destruct (reported_is i j) as [R1 R2]. rewrite D1, D2, R1, R2.
  pose proof (channel_close chan0 (or_introl eq_refl) Dx Dy y x i j HX HY GN BY BX I J) as C0.
  pose proof (channel_close chan1 (or_intror eq_refl) Dx Dy y x i j HX HY GN BY BX I J) as C1.
  assert (SP : forall s, 0 <= stretch s c g).
  { intros s. destruct (axis_basics s) as (_ & _ & _ & C & _ & N & _). unfold stretch. apply Qle_shift_div_l; lra. }
  assert (RD : 0 <= g_res c * g_dt c) by (destruct (axis_basics true) as (R & _); nra).
  set (k := g_res c * g_dt c) in *. set (E := Dx * reach false c g x j + Dy * reach true c g y i) in *.
  assert (K : forall s A B, Qabs (A - B) <= E -> Qabs (stretch s c g * k * A - stretch s c g * (k * B)) <= stretch s c g * k * E).
  { intros s A B AB. specialize (SP s). setoid_replace (stretch s c g * k * A - stretch s c g * (k * B)) with (stretch s c g * k * (A - B)) by ring.
    assert (0 <= stretch s c g * k) by nra. rewrite Qabs_Qmult, (Qabs_pos (stretch s c g * k)) by assumption. nra. }
  split; apply K; assumption.
Qed.
(** One grid step per pixel and one vector per pixel. *)
Theorem motion_exact : forall y x, (forall s, steps_per_pixel s c g == 1) -> o_out g = g_image c ->
  inject_Z (fst (o_off g)) <= y <= inject_Z (fst (o_off g)) + inject_Z (fst (g_image c)) - 1 ->
  inject_Z (snd (o_off g)) <= x <= inject_Z (snd (o_off g)) + inject_Z (snd (g_image c)) - 1 ->
  let (y', x') := second_position (o_pb g) pf (g_dt c) (snd (o_res g)) (fst (o_res g)) (y, x) in
  x' - x == bilinear (chan0 reported) (x - inject_Z (snd (o_off g))) (y - inject_Z (fst (o_off g))) /\
  y' - y == bilinear (chan1 reported) (x - inject_Z (snd (o_off g))) (y - inject_Z (fst (o_off g))).
Proof.
  intros y x Q1 OUT BY BX. pose proof (displacement y x) as D. destruct (second_position _ _ _ _ _ _) as [y' x'].
  destruct (axis_basics true) as (R & PY & RY & _ & _ & _ & PDY & _ & OY & LY). destruct (axis_basics false) as (_ & PX & RX & _ & _ & _ & PDX & _ & OX & LX).
  assert (UN : forall s (q : Q), q / g_res c * sel s (o_res g) == q).
  { intros s q. specialize (Q1 s). unfold steps_per_pixel in Q1. setoid_replace (q / g_res c * sel s (o_res g)) with (q * (sel s (o_res g) / g_res c)) by (field; lra). rewrite Q1. ring. }
  assert (CV : forall s, covered s c g == inject_Z (sel s (o_pb g))) by (intros s; apply UN).
  assert (FL : forall s, Qfloor (covered s c g) = sel s (o_pb g)) by (intros s; rewrite (CV s); apply floor_inj).
  destruct par_size as [E1 E2]. rewrite FL in E1, E2.
  assert (RA : forall s p, 0 < inject_Z (sel s (o_pb g)) -> read_at s p == p) by (intros s p P; unfold read_at; rewrite FL; field; lra).
  assert (ST : forall s, 0 < inject_Z (sel s (o_pb g)) -> stretch s c g == 1) by (intros s P; unfold stretch; rewrite FL, CV; field; lra).
  destruct (pad_nonempty (fst (ad_pad a)) (snd (ad_pad a)) f) as [N0 N1]; try assumption. fold padded in N0, N1.
  assert (LS : forall s e n k, (0 <= k < n)%Z -> e == s + inject_Z n - 1 -> linspace s e n k == s + inject_Z k).
  { intros s e n k K E. unfold linspace. destruct (Z.eqb_spec n 1) as [->|NE].
    - replace k with 0%Z by lia. change (inject_Z 0) with 0. ring.
    - assert (2 <= inject_Z n) by (change 2 with (inject_Z 2); apply inj_le; lia). rewrite E, inj_sub1. field. lra. }
  assert (RX' : forall j, (0 <= j < snd (g_image c))%Z -> rep_x a j == par_x a (j + snd (o_off g))).
  { intros j J. cbn [sel] in *.
    change (linspace (rep_start_x a) (rep_start_x a + inject_Z (snd (g_image c)) / g_res c * snd (o_res g) - 1) (snd (o_out g)) j ==
            linspace (par_start_x a) (par_start_x a + inject_Z (snd (o_pb g)) / g_res c * snd (o_res g) - 1) (par_w a) (j + snd (o_off g))).
    replace (par_w a) with (snd (o_pb g)) by (symmetry; exact E2). rewrite OUT.
    pose proof (UN false (inject_Z (snd (g_image c)))) as U1. pose proof (UN false (inject_Z (snd (o_pb g)))) as U2. pose proof (UN false (inject_Z (snd (o_off g)))) as U3. cbn [sel] in U1, U2, U3.
    rewrite (LS (rep_start_x a) _ (snd (g_image c)) j J), (LS (par_start_x a) _ (snd (o_pb g)) (j + snd (o_off g))%Z) by (lia || (rewrite ?U1, ?U2; reflexivity)).
    change (rep_start_x a) with (par_start_x a + inject_Z (snd (o_off g)) / g_res c * snd (o_res g)). rewrite U3, inject_Z_plus. ring. }
  assert (RY' : forall i, (0 <= i < fst (g_image c))%Z -> rep_y a i == par_y a (i + fst (o_off g))).
  { intros j J. cbn [sel] in *.
    change (linspace (rep_start_y a) (rep_start_y a + inject_Z (fst (g_image c)) / g_res c * fst (o_res g) - 1) (fst (o_out g)) j ==
            linspace (par_start_y a) (par_start_y a + inject_Z (fst (o_pb g)) / g_res c * fst (o_res g) - 1) (par_h a) (j + fst (o_off g))).
    replace (par_h a) with (fst (o_pb g)) by (symmetry; exact E1). rewrite OUT.
    pose proof (UN true (inject_Z (fst (g_image c)))) as U1. pose proof (UN true (inject_Z (fst (o_pb g)))) as U2. pose proof (UN true (inject_Z (fst (o_off g)))) as U3. cbn [sel] in U1, U2, U3.
    rewrite (LS (rep_start_y a) _ (fst (g_image c)) j J), (LS (par_start_y a) _ (fst (o_pb g)) (j + fst (o_off g))%Z) by (lia || (rewrite ?U1, ?U2; reflexivity)).
    change (rep_start_y a) with (par_start_y a + inject_Z (fst (o_off g)) / g_res c * fst (o_res g)). rewrite U3, inject_Z_plus. ring. }
  cbn [sel] in *. pose proof (IM true) as IY. pose proof (IM false) as IX. cbn [sel] in IY, IX.
  set (k := g_res c * g_dt c) in *.
  assert (CROP : forall ch : flow -> image, (ch = chan0 \/ ch = chan1) -> (forall i j, at_ (ch reported) i j == k * bilinear (ch padded) (rep_x a j) (rep_y a i)) ->
    k * bilinear (ch pf) x y == bilinear (ch reported) (x - inject_Z (snd (o_off g))) (y - inject_Z (fst (o_off g)))).
  { intros ch CH AT. set (A := mkImage (fst (g_image c)) (snd (g_image c)) (fun r q => at_ (ch pf) (r + fst (o_off g)) (q + snd (o_off g)))).
    assert (RP : rows (ch pf) = fst (o_pb g) /\ cols (ch pf) = snd (o_pb g)) by (destruct CH as [-> | ->]; split; assumption). destruct RP as [RP1 RP2].
    assert (RR : rows (ch reported) = fst (g_image c) /\ cols (ch reported) = snd (g_image c)) by (rewrite <- OUT; destruct CH as [-> | ->]; split; reflexivity). destruct RR as [RR1 RR2].
    assert (NA : nonempty A) by (split; cbn [A rows cols]; lia). assert (NG : nonempty (ch padded)) by (destruct CH as [-> | ->]; assumption).
    assert (NR : nonempty (ch reported)) by (split; lia).
    pose proof (bilinear_crop A (ch pf) (snd (o_off g)) (fst (o_off g)) (x - inject_Z (snd (o_off g))) (y - inject_Z (fst (o_off g))) NA OX OY
      ltac:(cbn [A cols]; lia) ltac:(cbn [A rows]; lia) ltac:(intros r q _; reflexivity) ltac:(cbn [A cols]; lra) ltac:(cbn [A rows]; lra)) as CR.
    assert (NP : nonempty (ch pf)) by (split; lia).
    rewrite (bilinear_proper (ch pf) (x - inject_Z (snd (o_off g)) + inject_Z (snd (o_off g))) x (y - inject_Z (fst (o_off g)) + inject_Z (fst (o_off g))) y NP ltac:(ring) ltac:(ring)) in CR.
    rewrite <- CR. symmetry.
    pose proof (bilinear_linear A A (ch reported) k 0 (x - inject_Z (snd (o_off g))) (y - inject_Z (fst (o_off g))) NR) as LI.
    rewrite LI; [ring | cbn [A rows cols]; congruence | cbn [A rows cols]; congruence | cbn [A rows cols]; congruence | cbn [A rows cols]; congruence |].
    intros r q [P1 P2]. rewrite AT. cbn [A at_].
    assert (PP : at_ (ch pf) (r + fst (o_off g)) (q + snd (o_off g)) == bilinear (ch padded) (par_x a (q + snd (o_off g))) (par_y a (r + fst (o_off g)))) by (destruct CH as [-> | ->]; reflexivity).
    rewrite PP, (bilinear_proper (ch padded) _ _ _ _ NG (RX' q ltac:(lia)) (RY' r ltac:(lia))). ring. }
  assert (PF : forall ch : flow -> image, (ch = chan0 \/ ch = chan1) -> bilinear (ch pf) (read_at false x) (read_at true y) == bilinear (ch pf) x y).
  { intros ch CH. apply bilinear_proper; [destruct CH as [-> | ->]; split; cbn [chan0 chan1 rows cols]; lia | apply RA; exact PX | apply RA; exact PY]. }
  destruct D as [D1 D2]. rewrite D1, D2, (ST true PY), (ST false PX), (PF chan0 (or_introl eq_refl)), (PF chan1 (or_intror eq_refl)).
  assert (K1 : 1 * k == k) by ring.
  split; rewrite K1; [exact (CROP chan0 (or_introl eq_refl) (fun i j => proj1 (reported_is i j))) | exact (CROP chan1 (or_intror eq_refl) (fun i j => proj2 (reported_is i j)))].
Qed.
(** Affine flows: what a particle feels and what is reported, exactly. *)
Lemma affine_at : forall u0 ux uy v0 vx vy x y, affine u0 ux uy v0 vx vy f -> o_pad g = (0, 0)%Z -> on_axis (fW f) x -> on_axis (fH f) y ->
  bilinear (chan0 padded) x y == u0 + ux * x + uy * y /\ bilinear (chan1 padded) x y == v0 + vx * x + vy * y.
Proof.
  intros u0 ux uy v0 vx vy x y AF PD OX OY. unfold padded. cbn [a adapter_of ad_pad]. rewrite PD. cbn [fst snd].
  destruct (pad_nonempty 0 0 f) as [N0 N1]; try lia.
  assert (RW : cols (chan0 (pad_edge 0 0 f)) = fW f) by (cbn; lia). assert (RH : rows (chan0 (pad_edge 0 0 f)) = fH f) by (cbn; lia).
  assert (RW1 : cols (chan1 (pad_edge 0 0 f)) = fW f) by (cbn; lia). assert (RH1 : rows (chan1 (pad_edge 0 0 f)) = fH f) by (cbn; lia).
  split.
  - rewrite (bilinear_affine _ x y u0 ux uy N0).
    + rewrite RW, RH, (on_axis_clip _ _ FW OX), (on_axis_clip _ _ FH OY). reflexivity.
    + intros r k [P1 P2]. rewrite RW in P2. rewrite RH in P1. cbn [chan0 pad_edge at_ fu]. rewrite !Z.sub_0_r, !Z.max_r by lia. apply AF; assumption.
  - rewrite (bilinear_affine _ x y v0 vx vy N1).
    + rewrite RW1, RH1, (on_axis_clip _ _ FW OX), (on_axis_clip _ _ FH OY). reflexivity.
    + intros r k [P1 P2]. rewrite RW1 in P2. rewrite RH1 in P1. cbn [chan1 pad_edge at_ fv]. rewrite !Z.sub_0_r, !Z.max_r by lia. apply AF; assumption.
Qed.

Theorem motion_affine : forall u0 ux uy v0 vx vy, affine u0 ux uy v0 vx vy f -> o_pad g = (0, 0)%Z -> (forall s, integral (covered s c g)) ->
  (forall i, (0 <= i < fst (o_out g))%Z -> on_axis (fH f) (rep_y a i)) -> (forall j, (0 <= j < snd (o_out g))%Z -> on_axis (fW f) (rep_x a j)) ->
  (forall i, (0 <= i < par_h a)%Z -> on_axis (fH f) (par_y a i)) -> (forall j, (0 <= j < par_w a)%Z -> on_axis (fW f) (par_x a j)) ->
  forall i j, (0 <= i < fst (o_out g))%Z -> (0 <= j < snd (o_out g))%Z -> (2 <= fst (o_out g))%Z -> (2 <= snd (o_out g))%Z ->
  place true (belongs true c g i) <= place true (inject_Z (fst (o_pb g))) - 1 -> place false (belongs false c g j) <= place false (inject_Z (snd (o_pb g))) - 1 ->
  let (y', x') := second_position (o_pb g) pf (g_dt c) (snd (o_res g)) (fst (o_res g)) (belongs true c g i, belongs false c g j) in
  let ahead s k := inject_Z k / (inject_Z (sel s (o_out g)) - 1) * (1 - shown s c g / inject_Z (sel s (o_out g))) in
  x' - belongs false c g j == fu reported i j + g_res c * g_dt c * (ux * ahead false j + uy * ahead true i) /\
  y' - belongs true c g i == fv reported i j + g_res c * g_dt c * (vx * ahead false j + vy * ahead true i).
Proof.
  intros u0 ux uy v0 vx vy AF PD WH ORY ORX OPY OPX i j I J WI WJ LY LX.
  pose proof (displacement (belongs true c g i) (belongs false c g j)) as D. destruct (second_position _ _ _ _ _ _) as [y' x']. destruct D as [D1 D2]. intros ahead.
  destruct (reported_is i j) as [R1 R2].
  destruct (affine_at u0 ux uy v0 vx vy _ _ AF PD (ORX j J) (ORY i I)) as [A1 A2].
  assert (FL : forall s, covered s c g == inject_Z (Qfloor (covered s c g))).
  { intros s. destruct (WH s) as [z E]. rewrite E at 1. rewrite E, floor_inj. reflexivity. }
  assert (ST : forall s, stretch s c g == 1).
  { intros s. destruct (axis_basics s) as (_ & _ & _ & _ & _ & N & _). unfold stretch. rewrite (FL s) at 1. field. lra. }
  destruct par_size as [E1 E2].
  (* the particle flow is affine in its indices *)
  assert (LS : forall s e n k, (0 <= k < n)%Z -> e == s + inject_Z n - 1 -> linspace s e n k == s + inject_Z k).
  { intros s e n k K E. unfold linspace. destruct (Z.eqb_spec n 1) as [->|NE].
    - replace k with 0%Z by lia. change (inject_Z 0) with 0. ring.
    - assert (2 <= inject_Z n) by (change 2 with (inject_Z 2); apply inj_le; lia). rewrite E, inj_sub1. field. lra. }
  assert (PXE : forall k, (0 <= k < par_w a)%Z -> par_x a k == par_start_x a + inject_Z k).
  { intros k K. unfold par_x. apply LS; [exact K|]. replace (par_w a) with (Qfloor (covered false c g)) by (symmetry; exact E2). pose proof (FL false) as F. unfold covered at 1 in F. cbn [sel] in F.
    cbn [a adapter_of ad_pb ad_res ad_rx]. rewrite F. reflexivity. }
  assert (PYE : forall k, (0 <= k < par_h a)%Z -> par_y a k == par_start_y a + inject_Z k).
  { intros k K. unfold par_y. apply LS; [exact K|]. replace (par_h a) with (Qfloor (covered true c g)) by (symmetry; exact E1). pose proof (FL true) as F. unfold covered at 1 in F. cbn [sel] in F.
    cbn [a adapter_of ad_pb ad_res ad_ry]. rewrite F. reflexivity. }
  (* reading positions *)
  assert (RD : forall s k, (0 <= k < sel s (o_out g))%Z -> place s (belongs s c g k) <= place s (inject_Z (sel s (o_pb g))) - 1 ->
    read_at s (belongs s c g k) == place s (belongs s c g k) - sel s (o_pbo g) * sel s (o_res g) /\
    0 <= read_at s (belongs s c g k) <= inject_Z (Qfloor (covered s c g)) - 1).
  { intros s k K L. destruct (axis_basics s) as (R & P & RS & C & F & N & _ & _ & O0 & _).
    assert (EQ : read_at s (belongs s c g k) == place s (belongs s c g k) - sel s (o_pbo g) * sel s (o_res g)).
    { unfold read_at, place, steps_per_pixel. rewrite <- (FL s). unfold covered. field. split; lra. }
    assert (EP : place s (inject_Z (sel s (o_pb g))) == sel s (o_pbo g) * sel s (o_res g) + inject_Z (Qfloor (covered s c g))).
    { rewrite <- (FL s). unfold place, steps_per_pixel, covered. field. lra. }
    split; [exact EQ|]. split.
    - unfold read_at. assert (B0 : 0 <= belongs s c g k).
      { unfold belongs. assert (0 <= inject_Z (sel s (o_off g))) by (change 0 with (inject_Z 0); apply inj_le; exact O0).
        assert (0 <= inject_Z k) by (change 0 with (inject_Z 0); apply inj_le; lia).
        assert (0 < inject_Z (sel s (g_image c))) by (change 0 with (inject_Z 0); apply inj_lt; apply IM).
        assert (0 < inject_Z (sel s (o_out g))) by (change 0 with (inject_Z 0); apply inj_lt; lia).
        assert (0 <= inject_Z (sel s (g_image c)) / inject_Z (sel s (o_out g))) by (apply Qle_shift_div_l; lra). nra. }
      assert (0 <= inject_Z (Qfloor (covered s c g)) / inject_Z (sel s (o_pb g))) by (apply Qle_shift_div_l; lra). nra.
    - rewrite EQ. rewrite EP in L. lra. }
  destruct (RD true i I LY) as [GY1 GY2]. destruct (RD false j J LX) as [GX1 GX2]. clear RD.
  destruct (axis_basics true) as (R & _ & _ & _ & FY & _). destruct (axis_basics false) as (_ & _ & _ & _ & FX & _).
  (* how far ahead a place is of where its vector is read *)
  assert (AH : forall s k start, (0 <= k < sel s (o_out g))%Z -> (2 <= sel s (o_out g))%Z ->
    start == sel s (o_pbo g) * sel s (o_res g) + inject_Z (sel s (o_off g)) / g_res c * sel s (o_res g) ->
    place s (belongs s c g k) == linspace start (start + inject_Z (sel s (g_image c)) / g_res c * sel s (o_res g) - 1) (sel s (o_out g)) k + ahead s k).
  { intros s k start K W ES. assert (2 <= inject_Z (sel s (o_out g))) by (change 2 with (inject_Z 2); apply inj_le; exact W).
    unfold linspace. destruct (Z.eqb_spec (sel s (o_out g)) 1); [lia|]. rewrite inj_sub1, ES. unfold ahead, place, belongs, shown, steps_per_pixel. field. repeat split; lra. }
  assert (AX : place false (belongs false c g j) == rep_x a j + ahead false j) by (apply AH; [exact J | exact WJ | reflexivity]).
  assert (AY : place true (belongs true c g i) == rep_y a i + ahead true i) by (apply AH; [exact I | exact WI | reflexivity]). clear AH.
  assert (FELT : forall (ch : flow -> image) q0 qx qy, (ch = chan0 \/ ch = chan1) ->
    (forall x y, on_axis (fW f) x -> on_axis (fH f) y -> bilinear (ch padded) x y == q0 + qx * x + qy * y) ->
    bilinear (ch pf) (read_at false (belongs false c g j)) (read_at true (belongs true c g i)) ==
    q0 + qx * (rep_x a j + ahead false j) + qy * (rep_y a i + ahead true i)).
  { intros ch q0 qx qy CH BA.
    assert (RR : rows (ch pf) = Qfloor (covered true c g) /\ cols (ch pf) = Qfloor (covered false c g)) by (destruct CH as [-> | ->]; split; assumption). destruct RR as [RR CC].
    assert (NP : nonempty (ch pf)) by (split; lia).
    rewrite (bilinear_affine (ch pf) _ _ (q0 + qx * par_start_x a + qy * par_start_y a) qx qy NP).
    - rewrite RR, CC, (on_axis_clip _ _ FX GX2), (on_axis_clip _ _ FY GY2), GX1, GY1, <- AX, <- AY.
      change (par_start_x a) with (snd (o_pbo g) * snd (o_res g)). change (par_start_y a) with (fst (o_pbo g) * fst (o_res g)). cbn [sel]. ring.
    - intros r k [P1 P2]. rewrite RR in P1. rewrite CC in P2.
      assert (K1 : (0 <= r < par_h a)%Z) by (replace (par_h a) with (Qfloor (covered true c g)) by (symmetry; exact E1); exact P1).
      assert (K2 : (0 <= k < par_w a)%Z) by (replace (par_w a) with (Qfloor (covered false c g)) by (symmetry; exact E2); exact P2).
      assert (EA : at_ (ch pf) r k == bilinear (ch padded) (par_x a k) (par_y a r)) by (destruct CH as [-> | ->]; reflexivity).
      rewrite EA, (BA _ _ (OPX k K2) (OPY r K1)), (PXE k K2), (PYE r K1). ring. }
  rewrite D1, D2, (ST false), (ST true), R1, R2, A1, A2,
    (FELT chan0 u0 ux uy (or_introl eq_refl) (fun x y OX OY => proj1 (affine_at u0 ux uy v0 vx vy x y AF PD OX OY))),
    (FELT chan1 v0 vx vy (or_intror eq_refl) (fun x y OX OY => proj2 (affine_at u0 ux uy v0 vx vy x y AF PD OX OY))).
  split; ring.
Qed.
End Accepted.
