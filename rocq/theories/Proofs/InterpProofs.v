(** Interpolation: convexity, exactness, clamping. *)
From Coq Require Import List Arith ZArith QArith Qround Qabs Bool Lia Lqa.
From Verif Require Import Prelude Model.Interp Spec.InterpSpec.
Import ListNotations.
Local Open Scope Q_scope.

(** * Numbers *)
Lemma inj_le : forall a b, (a <= b)%Z -> inject_Z a <= inject_Z b.
Proof. intros. rewrite <- Zle_Qle. assumption. Qed.
Lemma inj_lt : forall a b, (a < b)%Z -> inject_Z a < inject_Z b.
Proof. intros. rewrite <- Zlt_Qlt. assumption. Qed.
Lemma inj_sub1 : forall a, inject_Z (a - 1) == inject_Z a - 1.
Proof. intros. unfold Zminus. rewrite inject_Z_plus. reflexivity. Qed.
Lemma inj_add1 : forall a, inject_Z (a + 1) == inject_Z a + 1.
Proof. intros. rewrite inject_Z_plus. reflexivity. Qed.

Lemma floor_spec : forall q, inject_Z (Qfloor q) <= q /\ q < inject_Z (Qfloor q) + 1.
Proof.
  intros q. split; [apply Qfloor_le|]. pose proof (Qlt_floor q) as H. rewrite inj_add1 in H. assumption.
Qed.

Lemma floor_unique : forall q z, inject_Z z <= q -> q < inject_Z z + 1 -> Qfloor q = z.
Proof.
  intros q z H1 H2. destruct (floor_spec q) as [F1 F2].
  assert (A : inject_Z z < inject_Z (Qfloor q + 1)) by (rewrite inj_add1; lra).
  assert (B : inject_Z (Qfloor q) < inject_Z (z + 1)) by (rewrite inj_add1; lra).
  rewrite <- Zlt_Qlt in A, B. lia.
Qed.

Lemma floor_inj : forall z, Qfloor (inject_Z z) = z.
Proof. intros. apply floor_unique; lra. Qed.

Lemma ceiling_spec : forall q, q <= inject_Z (Qceiling q) /\ inject_Z (Qceiling q) < q + 1.
Proof.
  intros q. split; [apply Qle_ceiling|]. pose proof (Qceiling_lt q) as H. rewrite inj_sub1 in H. lra.
Qed.

Lemma ceiling_cases : forall q,
  (q == inject_Z (Qfloor q) /\ Qceiling q = Qfloor q) \/
  (inject_Z (Qfloor q) < q /\ Qceiling q = (Qfloor q + 1)%Z).
Proof.
  intros q. destruct (floor_spec q) as [F1 F2], (ceiling_spec q) as [C1 C2].
  destruct (Qlt_le_dec (inject_Z (Qfloor q)) q) as [H|H].
  - right. split; [assumption|].
    assert (A : inject_Z (Qfloor q) < inject_Z (Qceiling q)) by lra.
    assert (B : inject_Z (Qceiling q) < inject_Z (Qfloor q + 2)).
    { rewrite inject_Z_plus. change (inject_Z 2) with 2. lra. }
    rewrite <- Zlt_Qlt in A, B. lia.
  - left. assert (E : q == inject_Z (Qfloor q)) by lra. split; [assumption|].
    assert (A : inject_Z (Qfloor q - 1) < inject_Z (Qceiling q)) by (rewrite inj_sub1; lra).
    assert (B : inject_Z (Qceiling q) < inject_Z (Qfloor q + 1)) by (rewrite inj_add1; lra).
    rewrite <- Zlt_Qlt in A, B. lia.
Qed.

Lemma floor_le_mono : forall q z, inject_Z z <= q -> (z <= Qfloor q)%Z.
Proof. intros q z H. rewrite <- (floor_inj z). apply Qfloor_resp_le. assumption. Qed.

Lemma floor_lt : forall q z, q < inject_Z z -> (Qfloor q < z)%Z.
Proof. intros q z H. destruct (floor_spec q) as [F _]. rewrite Zlt_Qlt. lra. Qed.

Lemma clipQ_cases : forall lo hi x, lo <= hi ->
  (x < lo /\ clipQ lo hi x = lo) \/ (hi < x /\ clipQ lo hi x = hi) \/ (lo <= x <= hi /\ clipQ lo hi x = x).
Proof.
  intros lo hi x H. unfold clipQ.
  destruct (Qle_bool lo x) eqn:E; [apply Qle_bool_iff in E|].
  - destruct (Qle_bool x hi) eqn:E2; [apply Qle_bool_iff in E2; auto|].
    right; left. split; [|reflexivity]. apply Qnot_le_lt. rewrite <- Qle_bool_iff. congruence.
  - left. split; [apply Qnot_le_lt; rewrite <- Qle_bool_iff; congruence|].
    destruct (Qle_bool lo hi) eqn:E2; [reflexivity|]. apply Qle_bool_iff in H. congruence.
Qed.

Lemma clipQ_nearest : forall lo hi x, lo <= hi -> nearest lo hi x (clipQ lo hi x).
Proof.
  intros lo hi x H. unfold nearest. destruct (clipQ_cases lo hi x H) as [[A ->]|[[A ->]|[A ->]]]; repeat split; intros; lra.
Qed.

Lemma clipZ_range : forall lo hi x, (lo <= hi)%Z -> (lo <= clipZ lo hi x <= hi)%Z.
Proof. intros. unfold clipZ. lia. Qed.

Lemma clipZ_in : forall lo hi x, (lo <= x <= hi)%Z -> clipZ lo hi x = x.
Proof. intros. unfold clipZ. lia. Qed.

Lemma gather_index_in : forall n i, (0 <= i < n)%Z -> gather_index n i = i.
Proof. intros n i H. unfold gather_index, wrap. destruct (Z.ltb_spec i 0); [lia|]. apply clipZ_in. lia. Qed.

Lemma gather_in : forall im r c, pixel im r c -> gather im r c = at_ im r c.
Proof. intros im r c [A B]. unfold gather. rewrite !gather_index_in by assumption. reflexivity. Qed.

(** * One axis *)

(** What [bilinear] does along one axis of [n] samples: neighbours and weight. *)
Definition ax0 (n : Z) (x : Q) : Z := clipZ 0 (n - 1) (Qfloor x).
Definition ax1 (n : Z) (x : Q) : Z := clipZ 0 (n - 1) (ax0 n x + 1).
Definition axw (n : Z) (x : Q) : Q := clipQ 0 (inject_Z n - 1) x - inject_Z (ax0 n x).

Lemma axis_ok : forall n x, (1 <= n)%Z ->
  (0 <= ax0 n x < n)%Z /\ (0 <= ax1 n x < n)%Z /\ 0 <= axw n x < 1 /\
  (ax1 n x = ax0 n x + 1 \/ ax1 n x = ax0 n x /\ axw n x == 0)%Z /\
  clipQ 0 (inject_Z n - 1) x == inject_Z (ax0 n x) + axw n x.
Proof.
  intros n x Hn.
  assert (P : 0 <= inject_Z n - 1) by (rewrite <- inj_sub1; change 0 with (inject_Z 0); apply inj_le; lia).
  assert (R : (0 <= ax0 n x <= n - 1)%Z) by (apply clipZ_range; lia).
  assert (W : 0 <= axw n x < 1 /\ (ax0 n x = n - 1 -> axw n x == 0)%Z).
  { unfold axw. destruct (floor_spec x) as [F1 F2].
    destruct (clipQ_cases 0 (inject_Z n - 1) x P) as [[A ->]|[[A ->]|[A ->]]].
    - assert (E : ax0 n x = 0%Z).
      { unfold ax0, clipZ. assert (Qfloor x < 0)%Z by (apply floor_lt; exact A). lia. }
      rewrite E. change (inject_Z 0) with 0. split; [lra | intros; lra].
    - assert (E : ax0 n x = (n - 1)%Z).
      { unfold ax0, clipZ. assert (n - 1 <= Qfloor x)%Z by (apply floor_le_mono; rewrite inj_sub1; lra). lia. }
      rewrite E, inj_sub1. split; [lra | intros; lra].
    - assert (E : ax0 n x = Qfloor x).
      { unfold ax0. apply clipZ_in. split; [apply floor_le_mono; apply A|].
        assert (Qfloor x < n)%Z; [|lia]. apply floor_lt. lra. }
      rewrite E. split; [lra|]. intros K. rewrite K in F1 |- *. rewrite inj_sub1 in F1 |- *. lra. }
  split; [lia|]. split; [unfold ax1; pose proof (clipZ_range 0 (n - 1) (ax0 n x + 1)); lia|].
  split; [apply W|]. split.
  - destruct (Z.eq_dec (ax0 n x) (n - 1)) as [E|E].
    + right. split; [unfold ax1, clipZ; lia | apply W; assumption].
    + left. unfold ax1. apply clipZ_in. lia.
  - unfold axw. lra.
Qed.

(** A coordinate only matters through its clipped value. *)
Lemma ax0_proper : forall n x y, x == y -> ax0 n x = ax0 n y.
Proof. intros n x y E. unfold ax0. rewrite E. reflexivity. Qed.

Lemma clipQ_compat : forall lo hi x y, x == y -> clipQ lo hi x == clipQ lo hi y.
Proof.
  intros lo hi x y E. unfold clipQ.
  assert (B : Qle_bool lo x = Qle_bool lo y) by (rewrite E; reflexivity).
  rewrite B. destruct (Qle_bool lo y).
  - assert (B2 : Qle_bool x hi = Qle_bool y hi) by (rewrite E; reflexivity).
    rewrite B2. destruct (Qle_bool y hi); [assumption | reflexivity].
  - reflexivity.
Qed.

Lemma axw_proper : forall n x y, x == y -> axw n x == axw n y.
Proof. intros n x y E. unfold axw. rewrite (ax0_proper n x y E), (clipQ_compat _ _ x y E). reflexivity. Qed.

Lemma axis_clip : forall n x p, (1 <= n)%Z -> nearest 0 (inject_Z n - 1) x p ->
  ax0 n p = ax0 n x /\ axw n p == axw n x.
Proof.
  intros n x p Hn (R & LO & HI & IN).
  assert (P : 0 <= inject_Z n - 1) by (rewrite <- inj_sub1; change 0 with (inject_Z 0); apply inj_le; lia).
  destruct (Qlt_le_dec x 0) as [A|A].
  - specialize (LO A). destruct (axis_ok n x Hn) as (R0 & _ & Wx & _ & Ex).
    destruct (axis_ok n p Hn) as (R0' & _ & Wp & _ & Ep).
    destruct (clipQ_cases 0 (inject_Z n - 1) x P) as [[_ C]|[[C0 _]|[C0 _]]]; [|lra|lra].
    destruct (clipQ_cases 0 (inject_Z n - 1) p P) as [[C0 _]|[[C0 _]|[_ C']]]; [lra|lra|].
    rewrite C in Ex. rewrite C' in Ep.
    assert (0 <= inject_Z (ax0 n x)) by (change 0 with (inject_Z 0); apply inj_le; lia).
    assert (0 <= inject_Z (ax0 n p)) by (change 0 with (inject_Z 0); apply inj_le; lia).
    assert (E1 : inject_Z (ax0 n x) == inject_Z 0) by (change (inject_Z 0) with 0; lra).
    assert (E2 : inject_Z (ax0 n p) == inject_Z 0) by (change (inject_Z 0) with 0; lra).
    split; [|change (inject_Z 0) with 0 in *; lra]. rewrite inject_Z_injective in E1, E2. congruence.
  - destruct (Qlt_le_dec (inject_Z n - 1) x) as [B|B].
    + specialize (HI B). destruct (axis_ok n x Hn) as (R0 & _ & Wx & _ & Ex).
      destruct (axis_ok n p Hn) as (R0' & _ & Wp & _ & Ep).
      destruct (clipQ_cases 0 (inject_Z n - 1) x P) as [[C0 _]|[[_ C]|[C0 _]]]; [lra| |lra].
      destruct (clipQ_cases 0 (inject_Z n - 1) p P) as [[C0 _]|[[C0 _]|[_ C']]]; [lra|lra|].
      rewrite C in Ex. rewrite C' in Ep.
      assert (inject_Z (ax0 n x) <= inject_Z (n - 1)) by (apply inj_le; lia).
      assert (inject_Z (ax0 n p) <= inject_Z (n - 1)) by (apply inj_le; lia).
      rewrite inj_sub1 in *.
      assert (L1 : inject_Z (n - 2) < inject_Z (ax0 n x)).
      { unfold Zminus. rewrite inject_Z_plus. change (inject_Z (-(2))) with (- (2)). lra. }
      assert (L2 : inject_Z (n - 2) < inject_Z (ax0 n p)).
      { unfold Zminus. rewrite inject_Z_plus. change (inject_Z (-(2))) with (- (2)). lra. }
      rewrite <- Zlt_Qlt in L1, L2.
      assert (E1 : ax0 n x = (n - 1)%Z) by lia. assert (E2 : ax0 n p = (n - 1)%Z) by lia.
      split; [congruence|]. rewrite E1, inj_sub1 in Ex. rewrite E2, inj_sub1 in Ep. lra.
    + assert (E : p == x) by (apply IN; lra). split; [apply ax0_proper | apply axw_proper]; assumption.
Qed.

(** * Bilinear interpolation *)
Lemma bilinear_axes : forall im x y, nonempty im ->
  let wx := axw (cols im) x in let wy := axw (rows im) y in
  let x0 := ax0 (cols im) x in let x1 := ax1 (cols im) x in
  let y0 := ax0 (rows im) y in let y1 := ax1 (rows im) y in
  pixel im y0 x0 /\ pixel im y0 x1 /\ pixel im y1 x0 /\ pixel im y1 x1 /\
  bilinear im x y = (1 - wx) * (1 - wy) * at_ im y0 x0 + wx * (1 - wy) * at_ im y0 x1
                    + (1 - wx) * wy * at_ im y1 x0 + wx * wy * at_ im y1 x1.
Proof.
  intros im x y [Hr Hc]. cbv zeta.
  destruct (axis_ok (cols im) x Hc) as (X0 & X1 & _). destruct (axis_ok (rows im) y Hr) as (Y0 & Y1 & _).
  assert (P00 : pixel im (ax0 (rows im) y) (ax0 (cols im) x)) by (split; assumption).
  assert (P01 : pixel im (ax0 (rows im) y) (ax1 (cols im) x)) by (split; assumption).
  assert (P10 : pixel im (ax1 (rows im) y) (ax0 (cols im) x)) by (split; assumption).
  assert (P11 : pixel im (ax1 (rows im) y) (ax1 (cols im) x)) by (split; assumption).
  repeat (split; [assumption|]). rewrite <- (gather_in _ _ _ P00), <- (gather_in _ _ _ P01),
    <- (gather_in _ _ _ P10), <- (gather_in _ _ _ P11). reflexivity.
Qed.

Lemma convex2 : forall w a b lo hi, 0 <= w <= 1 -> lo <= a <= hi -> lo <= b <= hi ->
  lo <= (1 - w) * a + w * b <= hi.
Proof. intros. split; nra. Qed.

Lemma bilinear_between : forall im x y lo hi, nonempty im -> bounded lo hi im -> lo <= bilinear im x y <= hi.
Proof.
  intros im x y lo hi NE B. destruct (bilinear_axes im x y NE) as (P1 & P2 & P3 & P4 & ->).
  apply B in P1, P2, P3, P4. destruct NE as [Hr Hc].
  destruct (axis_ok (cols im) x Hc) as (_ & _ & W1 & _). destruct (axis_ok (rows im) y Hr) as (_ & _ & W2 & _).
  set (wx := axw (cols im) x) in *. set (wy := axw (rows im) y) in *.
  assert (Wx : 0 <= wx <= 1) by lra. assert (Wy : 0 <= wy <= 1) by lra.
  pose proof (convex2 wx _ _ lo hi Wx P1 P2) as A. pose proof (convex2 wx _ _ lo hi Wx P3 P4) as A'.
  pose proof (convex2 wy _ _ lo hi Wy A A') as C. 
  match goal with |- lo <= ?e <= hi => setoid_replace e with
    ((1 - wy) * ((1 - wx) * at_ im (ax0 (rows im) y) (ax0 (cols im) x) + wx * at_ im (ax0 (rows im) y) (ax1 (cols im) x)) +
     wy * ((1 - wx) * at_ im (ax1 (rows im) y) (ax0 (cols im) x) + wx * at_ im (ax1 (rows im) y) (ax1 (cols im) x))) by ring end.
  assumption.
Qed.

Lemma bilinear_proper : forall im x x' y y', nonempty im -> x == x' -> y == y' -> bilinear im x y == bilinear im x' y'.
Proof.
  intros im x x' y y' NE Ex Ey.
  destruct (bilinear_axes im x y NE) as (_ & _ & _ & _ & ->).
  destruct (bilinear_axes im x' y' NE) as (_ & _ & _ & _ & ->).
  unfold ax1. rewrite (ax0_proper _ _ _ Ex), (ax0_proper _ _ _ Ey).
  rewrite (axw_proper (cols im) _ _ Ex), (axw_proper (rows im) _ _ Ey). reflexivity.
Qed.

Lemma bilinear_clamp : forall im x y px py, nonempty im ->
  nearest 0 (inject_Z (cols im) - 1) x px -> nearest 0 (inject_Z (rows im) - 1) y py ->
  bilinear im x y == bilinear im px py.
Proof.
  intros im x y px py NE Nx Ny.
  destruct (bilinear_axes im x y NE) as (_ & _ & _ & _ & ->).
  destruct (bilinear_axes im px py NE) as (_ & _ & _ & _ & ->). destruct NE as [Hr Hc].
  destruct (axis_clip _ _ _ Hc Nx) as [E1 E2]. destruct (axis_clip _ _ _ Hr Ny) as [E3 E4].
  unfold ax1. rewrite E1, E3, E2, E4. reflexivity.
Qed.

Lemma bilinear_local : forall im im' x y, nonempty im -> same_image im im' -> bilinear im x y == bilinear im' x y.
Proof.
  intros im im' x y NE (R & C & E).
  destruct (bilinear_axes im x y NE) as (P1 & P2 & P3 & P4 & ->).
  assert (NE' : nonempty im') by (destruct NE; split; congruence).
  destruct (bilinear_axes im' x y NE') as (_ & _ & _ & _ & ->).
  apply E in P1, P2, P3, P4. rewrite <- R, <- C, P1, P2, P3, P4. reflexivity.
Qed.

Lemma bilinear_affine : forall im x y a b c, nonempty im ->
  (forall r k, pixel im r k -> at_ im r k == a + b * inject_Z k + c * inject_Z r) ->
  bilinear im x y == a + b * clipQ 0 (inject_Z (cols im) - 1) x + c * clipQ 0 (inject_Z (rows im) - 1) y.
Proof.
  intros im x y a b c NE E.
  destruct (bilinear_axes im x y NE) as (P1 & P2 & P3 & P4 & ->).
  apply E in P1, P2, P3, P4. rewrite P1, P2, P3, P4. destruct NE as [Hr Hc].
  destruct (axis_ok (cols im) x Hc) as (_ & _ & _ & X1 & ->). destruct (axis_ok (rows im) y Hr) as (_ & _ & _ & Y1 & ->).
  set (wx := axw (cols im) x) in *. set (wy := axw (rows im) y) in *.
  assert (KX : wx * inject_Z (ax1 (cols im) x) == wx * inject_Z (ax0 (cols im) x) + wx).
  { destruct X1 as [->|[-> ->]]; [rewrite inj_add1|]; ring. }
  assert (KY : wy * inject_Z (ax1 (rows im) y) == wy * inject_Z (ax0 (rows im) y) + wy).
  { destruct Y1 as [->|[-> ->]]; [rewrite inj_add1|]; ring. }
  set (i := inject_Z (ax0 (cols im) x)) in *. set (i' := inject_Z (ax1 (cols im) x)) in *.
  set (j := inject_Z (ax0 (rows im) y)) in *. set (j' := inject_Z (ax1 (rows im) y)) in *.
  setoid_replace ((1 - wx) * (1 - wy) * (a + b * i + c * j) + wx * (1 - wy) * (a + b * i' + c * j) +
     (1 - wx) * wy * (a + b * i + c * j') + wx * wy * (a + b * i' + c * j')) with
    (a + b * ((1 - wx) * i + wx * i') + c * ((1 - wy) * j + wy * j')) by ring.
  rewrite KX, KY. ring.
Qed.

Lemma on_axis_clip : forall n x, (1 <= n)%Z -> on_axis n x -> clipQ 0 (inject_Z n - 1) x == x.
Proof.
  intros n x Hn [A B].
  assert (P : 0 <= inject_Z n - 1) by lra.
  destruct (clipQ_cases 0 (inject_Z n - 1) x P) as [[C _]|[[C _]|[_ ->]]]; lra.
Qed.

Lemma axis_grid : forall n i, (0 <= i < n)%Z -> ax0 n (inject_Z i) = i /\ axw n (inject_Z i) == 0.
Proof.
  intros n i H. unfold ax0. rewrite floor_inj, clipZ_in by lia. split; [reflexivity|].
  unfold axw, ax0. rewrite floor_inj, clipZ_in by lia.
  rewrite on_axis_clip; [lra | lia|]. split; [change 0 with (inject_Z 0); apply inj_le; lia|].
  rewrite <- inj_sub1. apply inj_le. lia.
Qed.

Lemma bilinear_grid : forall im r c, nonempty im -> pixel im r c -> bilinear im (inject_Z c) (inject_Z r) == at_ im r c.
Proof.
  intros im r c NE [Pr Pc]. destruct (bilinear_axes im (inject_Z c) (inject_Z r) NE) as (_ & _ & _ & _ & ->).
  unfold ax1. destruct (axis_grid _ _ Pr) as [-> ->]. destruct (axis_grid _ _ Pc) as [-> ->]. ring.
Qed.

(** Linear in the image. *)
Lemma bilinear_linear : forall im1 im2 im a b x y, nonempty im ->
  rows im1 = rows im -> cols im1 = cols im -> rows im2 = rows im -> cols im2 = cols im ->
  (forall r c, pixel im r c -> at_ im r c == a * at_ im1 r c + b * at_ im2 r c) ->
  bilinear im x y == a * bilinear im1 x y + b * bilinear im2 x y.
Proof.
  intros im1 im2 im a b x y NE R1 C1 R2 C2 E.
  assert (NE1 : nonempty im1) by (destruct NE; split; congruence).
  assert (NE2 : nonempty im2) by (destruct NE; split; congruence).
  destruct (bilinear_axes im x y NE) as (P1 & P2 & P3 & P4 & ->).
  destruct (bilinear_axes im1 x y NE1) as (_ & _ & _ & _ & ->).
  destruct (bilinear_axes im2 x y NE2) as (_ & _ & _ & _ & ->).
  apply E in P1, P2, P3, P4. rewrite P1, P2, P3, P4, R1, C1, R2, C2. ring.
Qed.

(** Swapping the axes of the image swaps the coordinates. *)
Lemma bilinear_transpose : forall im x y, nonempty im ->
  bilinear (mkImage (cols im) (rows im) (fun r c => at_ im c r)) y x == bilinear im x y.
Proof.
  intros im x y NE. destruct (bilinear_axes im x y NE) as (_ & _ & _ & _ & ->).
  assert (NE' : nonempty (mkImage (cols im) (rows im) (fun r c => at_ im c r))) by (destruct NE; split; assumption).
  destruct (bilinear_axes _ y x NE') as (_ & _ & _ & _ & ->). cbn [rows cols at_]. ring.
Qed.

(** * Trilinear interpolation *)
Definition tx0 (n : Z) (x : Q) : Z := clipZ 0 (n - 1) (Qfloor x).
Definition tx1 (n : Z) (x : Q) : Z := clipZ 0 (n - 1) (Qceiling x).
Definition txw (x : Q) : Q := x - inject_Z (Qfloor x).

Lemma taxis_ok : forall n x, (1 <= n)%Z ->
  (0 <= tx0 n x < n)%Z /\ (0 <= tx1 n x < n)%Z /\ 0 <= txw x <= 1 /\
  clipQ 0 (inject_Z n - 1) x == (1 - txw x) * inject_Z (tx0 n x) + txw x * inject_Z (tx1 n x).
Proof.
  intros n x Hn. destruct (floor_spec x) as [F1 F2].
  assert (P : 0 <= inject_Z n - 1) by (rewrite <- inj_sub1; change 0 with (inject_Z 0); apply inj_le; lia).
  split; [pose proof (clipZ_range 0 (n - 1) (Qfloor x)); unfold tx0; lia|].
  split; [pose proof (clipZ_range 0 (n - 1) (Qceiling x)); unfold tx1; lia|].
  split; [unfold txw; lra|].
  destruct (clipQ_cases 0 (inject_Z n - 1) x P) as [[A ->]|[[A ->]|[A ->]]].
  - assert (B : (Qfloor x < 0)%Z) by (apply floor_lt; exact A).
    assert (E0 : tx0 n x = 0%Z) by (unfold tx0, clipZ; lia).
    assert (E1 : tx1 n x = 0%Z) by (unfold tx1, clipZ; destruct (ceiling_cases x) as [[_ ->]|[_ ->]]; lia).
    rewrite E0, E1. change (inject_Z 0) with 0. ring.
  - assert (B : (n - 1 <= Qfloor x)%Z) by (apply floor_le_mono; rewrite inj_sub1; lra).
    assert (E0 : tx0 n x = (n - 1)%Z) by (unfold tx0, clipZ; lia).
    assert (E1 : tx1 n x = (n - 1)%Z) by (unfold tx1, clipZ; destruct (ceiling_cases x) as [[_ ->]|[_ ->]]; lia).
    rewrite E0, E1, inj_sub1. ring.
  - assert (B : (0 <= Qfloor x < n)%Z) by (split; [apply floor_le_mono; apply A | apply floor_lt; lra]).
    assert (E0 : tx0 n x = Qfloor x) by (unfold tx0, clipZ; lia). rewrite E0. unfold txw.
    destruct (ceiling_cases x) as [[E C]|[E C]].
    + assert (E1 : tx1 n x = Qfloor x) by (unfold tx1, clipZ; lia). rewrite E1. lra.
    + assert (N : (Qfloor x < n - 1)%Z).
      { rewrite Zlt_Qlt, inj_sub1. lra. }
      assert (E1 : tx1 n x = (Qfloor x + 1)%Z) by (unfold tx1, clipZ; lia). rewrite E1, inj_add1. lra.
Qed.

Definition vnonempty (v : volume) : Prop := (1 <= vD v)%Z /\ (1 <= vH v)%Z /\ (1 <= vW v)%Z.

Definition lerp (w a b : Q) : Q := (1 - w) * a + w * b.

Lemma vgather_in : forall v d r c, voxel v d r c -> vgather v d r c = vat v d r c.
Proof. intros v d r c (A & B & C). unfold vgather. rewrite !gather_index_in by assumption. reflexivity. Qed.

Lemma trilinear_axes : forall v x y z, vnonempty v ->
  let X := txw x in let Y := txw y in let Z_ := txw z in
  let x0 := tx0 (vW v) x in let x1 := tx1 (vW v) x in
  let y0 := tx0 (vH v) y in let y1 := tx1 (vH v) y in
  let z0 := tx0 (vD v) z in let z1 := tx1 (vD v) z in
  (forall d r c, In d [z0; z1] -> In r [y0; y1] -> In c [x0; x1] -> voxel v d r c) /\
  trilinear v x y z ==
    lerp Z_ (lerp Y (lerp X (vat v z0 y0 x0) (vat v z0 y0 x1)) (lerp X (vat v z0 y1 x0) (vat v z0 y1 x1)))
            (lerp Y (lerp X (vat v z1 y0 x0) (vat v z1 y0 x1)) (lerp X (vat v z1 y1 x0) (vat v z1 y1 x1))).
Proof.
  intros v x y z (HD & HH & HW). cbv zeta.
  destruct (taxis_ok (vW v) x HW) as (X0 & X1 & _). destruct (taxis_ok (vH v) y HH) as (Y0 & Y1 & _).
  destruct (taxis_ok (vD v) z HD) as (Z0 & Z1 & _).
  assert (VX : forall d r c, In d [tx0 (vD v) z; tx1 (vD v) z] -> In r [tx0 (vH v) y; tx1 (vH v) y] ->
    In c [tx0 (vW v) x; tx1 (vW v) x] -> voxel v d r c).
  { intros d r c [<-|[<-|[]]] [<-|[<-|[]]] [<-|[<-|[]]]; repeat split; lia. }
  split; [exact VX|]. unfold trilinear. cbv zeta.
  fold (tx0 (vW v) x) (tx1 (vW v) x) (tx0 (vH v) y) (tx1 (vH v) y) (tx0 (vD v) z) (tx1 (vD v) z).
  fold (txw x) (txw y) (txw z).
  rewrite !vgather_in by (apply VX; cbn; auto). unfold lerp. ring.
Qed.

Lemma lerp_between : forall w a b lo hi, 0 <= w <= 1 -> lo <= a <= hi -> lo <= b <= hi -> lo <= lerp w a b <= hi.
Proof. intros. unfold lerp. split; nra. Qed.

Lemma trilinear_between : forall v x y z lo hi, vnonempty v -> vbounded lo hi v -> lo <= trilinear v x y z <= hi.
Proof.
  intros v x y z lo hi NE B. destruct (trilinear_axes v x y z NE) as [VX ->]. destruct NE as (HD & HH & HW).
  destruct (taxis_ok (vW v) x HW) as (_ & _ & WX & _). destruct (taxis_ok (vH v) y HH) as (_ & _ & WY & _).
  destruct (taxis_ok (vD v) z HD) as (_ & _ & WZ & _).
  repeat apply lerp_between; try assumption; apply B, VX; cbn; auto.
Qed.

Lemma trilinear_affine : forall v x y z a b c d, vnonempty v ->
  (forall k r i, voxel v k r i -> vat v k r i == a + b * inject_Z i + c * inject_Z r + d * inject_Z k) ->
  trilinear v x y z == a + b * clipQ 0 (inject_Z (vW v) - 1) x + c * clipQ 0 (inject_Z (vH v) - 1) y
                         + d * clipQ 0 (inject_Z (vD v) - 1) z.
Proof.
  intros v x y z a b c d NE E. destruct (trilinear_axes v x y z NE) as [VX ->]. destruct NE as (HD & HH & HW).
  destruct (taxis_ok (vW v) x HW) as (_ & _ & _ & ->). destruct (taxis_ok (vH v) y HH) as (_ & _ & _ & ->).
  destruct (taxis_ok (vD v) z HD) as (_ & _ & _ & ->). unfold lerp.
  rewrite !E by (apply VX; cbn; auto). ring.
Qed.

Lemma trilinear_local : forall v v' x y z, vnonempty v -> same_volume v v' -> trilinear v x y z == trilinear v' x y z.
Proof.
  intros v v' x y z NE (D & H & W & E). destruct (trilinear_axes v x y z NE) as [VX ->].
  assert (NE' : vnonempty v') by (destruct NE as (? & ? & ?); repeat split; congruence).
  destruct (trilinear_axes v' x y z NE') as [_ ->]. rewrite <- D, <- H, <- W. unfold lerp.
  rewrite !E by (apply VX; cbn; auto). reflexivity.
Qed.

Lemma txw_inj : forall i, txw (inject_Z i) == 0.
Proof. intros. unfold txw. rewrite floor_inj. lra. Qed.
Lemma tx0_inj : forall n i, (0 <= i < n)%Z -> tx0 n (inject_Z i) = i.
Proof. intros. unfold tx0. rewrite floor_inj. apply clipZ_in. lia. Qed.

Lemma trilinear_grid : forall v k r i, voxel v k r i ->
  trilinear v (inject_Z i) (inject_Z r) (inject_Z k) == vat v k r i.
Proof.
  intros v k r i (A & B & C).
  assert (NE : vnonempty v) by (repeat split; lia).
  destruct (trilinear_axes v (inject_Z i) (inject_Z r) (inject_Z k) NE) as [_ ->].
  unfold lerp. rewrite !txw_inj, !tx0_inj by assumption. ring.
Qed.

Lemma tx0_proper : forall n x y, x == y -> tx0 n x = tx0 n y.
Proof. intros n x y E. unfold tx0. rewrite E. reflexivity. Qed.
Lemma tx1_proper : forall n x y, x == y -> tx1 n x = tx1 n y.
Proof. intros n x y E. unfold tx1. rewrite E. reflexivity. Qed.
Lemma txw_proper : forall x y, x == y -> txw x == txw y.
Proof.
  intros x y E. unfold txw. assert (F : Qfloor x = Qfloor y) by (rewrite E; reflexivity). rewrite F.
  rewrite E. reflexivity.
Qed.

(** Either nothing changes under clamping or both neighbours are the edge. *)
Lemma taxis_clip : forall n x p, (1 <= n)%Z -> nearest 0 (inject_Z n - 1) x p ->
  p == x \/ (exists e, tx0 n x = e /\ tx1 n x = e /\ tx0 n p = e /\ tx1 n p = e).
Proof.
  intros n x p Hn (R & LO & HI & IN).
  destruct (Qlt_le_dec x 0) as [A|A]; [|destruct (Qlt_le_dec (inject_Z n - 1) x) as [B|B]].
  - right. exists 0%Z. specialize (LO A).
    assert (B : (Qfloor x < 0)%Z) by (apply floor_lt; exact A).
    rewrite (tx0_proper n p (inject_Z 0) LO), (tx1_proper n p (inject_Z 0) LO).
    unfold tx0, tx1. rewrite floor_inj. change (Qceiling (inject_Z 0)) with 0%Z. unfold clipZ.
    destruct (ceiling_cases x) as [[_ ->]|[_ ->]]; lia.
  - right. exists (n - 1)%Z. specialize (HI B).
    assert (F : (n - 1 <= Qfloor x)%Z) by (apply floor_le_mono; rewrite inj_sub1; lra).
    assert (E : p == inject_Z (n - 1)) by (rewrite inj_sub1; assumption).
    rewrite (tx0_proper n _ _ E), (tx1_proper n _ _ E).
    unfold tx0, tx1. destruct (ceiling_cases (inject_Z (n - 1))) as [[_ ->]|[K _]];
      [|rewrite floor_inj in K; lra]. rewrite floor_inj. unfold clipZ.
    destruct (ceiling_cases x) as [[_ ->]|[_ ->]]; lia.
  - left. apply IN. lra.
Qed.

Lemma trilinear_clamp : forall v x y z px py pz, vnonempty v ->
  nearest 0 (inject_Z (vW v) - 1) x px -> nearest 0 (inject_Z (vH v) - 1) y py ->
  nearest 0 (inject_Z (vD v) - 1) z pz ->
  trilinear v x y z == trilinear v px py pz.
Proof.
  intros v x y z px py pz NE Nx Ny Nz.
  destruct (trilinear_axes v x y z NE) as [_ ->]. destruct (trilinear_axes v px py pz NE) as [_ ->].
  destruct NE as (HD & HH & HW).
  assert (L : forall w w' a, lerp w a a == lerp w' a a) by (intros; unfold lerp; ring).
  assert (LX : forall r d, lerp (txw x) (vat v d r (tx0 (vW v) x)) (vat v d r (tx1 (vW v) x)) ==
                           lerp (txw px) (vat v d r (tx0 (vW v) px)) (vat v d r (tx1 (vW v) px))).
  { intros r d. destruct (taxis_clip _ _ _ HW Nx) as [E|(e & -> & -> & -> & ->)]; [|apply L].
    rewrite (tx0_proper _ _ _ E), (tx1_proper _ _ _ E). unfold lerp. rewrite (txw_proper _ _ E). reflexivity. }
  assert (LP : forall w a a' b b', a == a' -> b == b' -> lerp w a b == lerp w a' b').
  { intros w a a' b b' E1 E2. unfold lerp. rewrite E1, E2. reflexivity. }
  assert (LY : forall d, 
     lerp (txw y) (lerp (txw px) (vat v d (tx0 (vH v) y) (tx0 (vW v) px)) (vat v d (tx0 (vH v) y) (tx1 (vW v) px)))
                  (lerp (txw px) (vat v d (tx1 (vH v) y) (tx0 (vW v) px)) (vat v d (tx1 (vH v) y) (tx1 (vW v) px))) ==
     lerp (txw py) (lerp (txw px) (vat v d (tx0 (vH v) py) (tx0 (vW v) px)) (vat v d (tx0 (vH v) py) (tx1 (vW v) px)))
                  (lerp (txw px) (vat v d (tx1 (vH v) py) (tx0 (vW v) px)) (vat v d (tx1 (vH v) py) (tx1 (vW v) px)))).
  { intros d. destruct (taxis_clip _ _ _ HH Ny) as [E|(e & -> & -> & -> & ->)]; [|apply L].
    rewrite (tx0_proper _ _ _ E), (tx1_proper _ _ _ E). unfold lerp at 1 4. rewrite (txw_proper _ _ E). reflexivity. }
  transitivity (lerp (txw z)
     (lerp (txw py) (lerp (txw px) (vat v (tx0 (vD v) z) (tx0 (vH v) py) (tx0 (vW v) px)) (vat v (tx0 (vD v) z) (tx0 (vH v) py) (tx1 (vW v) px)))
                  (lerp (txw px) (vat v (tx0 (vD v) z) (tx1 (vH v) py) (tx0 (vW v) px)) (vat v (tx0 (vD v) z) (tx1 (vH v) py) (tx1 (vW v) px))))
     (lerp (txw py) (lerp (txw px) (vat v (tx1 (vD v) z) (tx0 (vH v) py) (tx0 (vW v) px)) (vat v (tx1 (vD v) z) (tx0 (vH v) py) (tx1 (vW v) px)))
                  (lerp (txw px) (vat v (tx1 (vD v) z) (tx1 (vH v) py) (tx0 (vW v) px)) (vat v (tx1 (vD v) z) (tx1 (vH v) py) (tx1 (vW v) px))))).
  - apply LP; rewrite <- LY; apply LP; apply LX.
  - destruct (taxis_clip _ _ _ HD Nz) as [E|(e & -> & -> & -> & ->)]; [|apply L].
    rewrite (tx0_proper _ _ _ E), (tx1_proper _ _ _ E). unfold lerp at 1 8. rewrite (txw_proper _ _ E). reflexivity.
Qed.
