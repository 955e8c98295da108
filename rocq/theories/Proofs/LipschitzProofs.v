(** The interpolated value does not move faster than the image. *)
From Coq Require Import List ZArith QArith Qround Qabs Bool Lia Lqa.
From Verif Require Import Prelude Model.Interp Spec.InterpSpec Spec.LipschitzSpec Proofs.InterpProofs.
Local Open Scope Q_scope.

(** [a] lies within [d] of zero. *)
Definition inside (d a : Q) : Prop := - d <= a <= d.

Lemma inside_abs : forall d a, inside d a <-> Qabs a <= d.
Proof. intros d a. unfold inside. rewrite Qabs_Qle_condition. reflexivity. Qed.

Lemma inside_add : forall d e a b, inside d a -> inside e b -> inside (d + e) (a + b).
Proof. unfold inside. intros. lra. Qed.

Lemma inside_scale : forall d a w, 0 <= w -> inside d a -> inside (w * d) (w * a).
Proof. unfold inside. intros d a w W [H1 H2]. split; nra. Qed.

Lemma inside_eq : forall d d' a a', d == d' -> a == a' -> inside d a -> inside d' a'.
Proof. unfold inside. intros d d' a a' E1 E2 H. rewrite <- E1, <- E2. exact H. Qed.

Section Axis.
Variables (n : Z) (f : Z -> Q) (D : Q).
Hypothesis N : (1 <= n)%Z.
Hypothesis D0 : 0 <= D.
Hypothesis ST : forall i, (0 <= i)%Z -> (i + 1 < n)%Z -> inside D (f (i + 1) - f i).

Definition along (x : Q) : Q := (1 - axw n x) * f (ax0 n x) + axw n x * f (ax1 n x).

Lemma far : forall k i, (0 <= i)%Z -> (i + Z.of_nat k < n)%Z -> inside (D * inject_Z (Z.of_nat k)) (f (i + Z.of_nat k) - f i).
Proof.
  induction k as [|k IH]; intros i I K.
  - change (Z.of_nat 0) with 0%Z. rewrite Z.add_0_r. unfold inside. change (inject_Z 0) with 0. lra.
  - specialize (IH i I ltac:(lia)). pose proof (ST (i + Z.of_nat k)%Z ltac:(lia) ltac:(lia)) as HS.
    replace (i + Z.of_nat (S k))%Z with (i + Z.of_nat k + 1)%Z by lia.
    replace (Z.of_nat (S k)) with (Z.of_nat k + 1)%Z by lia.
    eapply inside_eq; [| |exact (inside_add _ _ _ _ IH HS)]; [rewrite inj_add1; ring | ring].
Qed.

Lemma floor_mono : forall x y, x <= y -> (ax0 n x <= ax0 n y)%Z.
Proof. intros x y H. apply Qfloor_resp_le in H. unfold ax0, clipZ. lia. Qed.

Let pt (x : Q) : Q := clipQ 0 (inject_Z n - 1) x.

Lemma last_ge : 0 <= inject_Z n - 1.
Proof. rewrite <- inj_sub1. change 0 with (inject_Z 0). apply inj_le. lia. Qed.

Lemma pt_close : forall x y, x <= y -> 0 <= pt y - pt x <= y - x.
Proof.
  intros x y H. pose proof last_ge. unfold pt.
  destruct (clipQ_cases 0 (inject_Z n - 1) x last_ge) as [(A & ->)|[(A & ->)|(A & ->)]];
  destruct (clipQ_cases 0 (inject_Z n - 1) y last_ge) as [(B & ->)|[(B & ->)|(B & ->)]]; lra.
Qed.

Lemma along_ordered : forall x y, x <= y -> inside (D * (pt y - pt x)) (along y - along x).
Proof.
  intros x y H. unfold along.
  destruct (axis_ok n x N) as (A0 & A1 & W & C & P). destruct (axis_ok n y N) as (B0 & B1 & V & E & R).
  fold (pt x) in P. fold (pt y) in R. pose proof (floor_mono x y H) as F.
  destruct (Z.eq_dec (ax0 n x) (ax0 n y)) as [I|I].
  - assert (G : ax1 n x = ax1 n y) by (unfold ax1; rewrite I; reflexivity).
    assert (S : inside D (f (ax1 n x) - f (ax0 n x))).
    { destruct C as [C|[C _]]; rewrite C; [apply ST; lia | unfold inside; lra]. }
    pose proof (pt_close x y H) as PC.
    assert (WV : pt y - pt x == axw n y - axw n x) by (rewrite P, R, I; ring).
    eapply inside_eq; [| |apply (inside_scale D (f (ax1 n x) - f (ax0 n x)) (axw n y - axw n x)); [lra | exact S]].
    + rewrite WV. ring.
    + rewrite G, <- I. ring.
  - assert (X1 : ax1 n x = (ax0 n x + 1)%Z) by (unfold ax1, clipZ; lia).
    pose proof (ST (ax0 n x) ltac:(lia) ltac:(lia)) as S1.
    assert (S2 : inside D (f (ax1 n y) - f (ax0 n y))).
    { destruct E as [E|[E _]]; rewrite E; [apply ST; lia | unfold inside; lra]. }
    pose proof (far (Z.to_nat (ax0 n y - ax0 n x - 1)) (ax0 n x + 1) ltac:(lia) ltac:(lia)) as S3.
    rewrite Z2Nat.id in S3 by lia. replace (ax0 n x + 1 + (ax0 n y - ax0 n x - 1))%Z with (ax0 n y) in S3 by lia.
    assert (W1 : 0 <= 1 - axw n x) by lra. assert (V1 : 0 <= axw n y) by lra.
    pose proof (inside_add _ _ _ _ (inside_scale _ _ _ W1 S1) (inside_add _ _ _ _ S3 (inside_scale _ _ _ V1 S2))) as T.
    eapply inside_eq; [| |exact T].
    + rewrite P, R. unfold Zminus. rewrite !inject_Z_plus, !inject_Z_opp. ring.
    + rewrite X1. ring.
Qed.

Lemma along_lipschitz : forall x y, Qabs (along x - along y) <= D * Qabs (x - y).
Proof.
  assert (O : forall x y, x <= y -> Qabs (along x - along y) <= D * Qabs (x - y)).
  { intros x y H. rewrite (Qabs_Qminus x y), (Qabs_Qminus (along x)). rewrite (Qabs_pos (y - x)) by lra.
    pose proof (along_ordered x y H) as A. apply inside_abs in A. pose proof (pt_close x y H).
    eapply Qle_trans; [exact A|]. nra. }
  intros x y. destruct (Qlt_le_dec x y) as [L|L]; [apply O; lra|].
  rewrite (Qabs_Qminus x y), (Qabs_Qminus (along x)). apply O. exact L.
Qed.
End Axis.

(** * Both axes *)
Lemma bilinear_along : forall im x y, nonempty im ->
  bilinear im x y == (1 - axw (rows im) y) * along (cols im) (at_ im (ax0 (rows im) y)) x
                     + axw (rows im) y * along (cols im) (at_ im (ax1 (rows im) y)) x.
Proof. intros im x y NE. destruct (bilinear_axes im x y NE) as (_ & _ & _ & _ & ->). unfold along. ring. Qed.

Lemma move_x : forall im D x x' y, nonempty im -> 0 <= D -> across D im ->
  Qabs (bilinear im x y - bilinear im x' y) <= D * Qabs (x - x').
Proof.
  intros im D x x' y NE D0 A. rewrite (bilinear_along im x y NE), (bilinear_along im x' y NE). destruct NE as [N1 N2].
  destruct (axis_ok (rows im) y N1) as (R0 & R1 & W & _ & _).
  assert (L : forall r, (0 <= r < rows im)%Z ->
    inside (D * Qabs (x - x')) (along (cols im) (at_ im r) x - along (cols im) (at_ im r) x')).
  { intros r R. apply (proj2 (inside_abs _ _)). apply along_lipschitz; try assumption.
    intros i I1 I2. apply (proj2 (inside_abs _ _)). apply A; split; lia. }
  apply (proj1 (inside_abs _ _)). pose proof (L _ R0) as L0. pose proof (L _ R1) as L1.
  assert (W1 : 0 <= 1 - axw (rows im) y) by lra. assert (W2 : 0 <= axw (rows im) y) by lra.
  pose proof (inside_add _ _ _ _ (inside_scale _ _ _ W1 L0) (inside_scale _ _ _ W2 L1)) as T.
  eapply inside_eq; [| |exact T].
  - set (w := axw (rows im) y). ring.
  - ring.
Qed.

Lemma move_y : forall im D x y y', nonempty im -> 0 <= D -> down D im ->
  Qabs (bilinear im x y - bilinear im x y') <= D * Qabs (y - y').
Proof.
  intros im D x y y' NE D0 A. rewrite <- (bilinear_transpose im x y NE), <- (bilinear_transpose im x y' NE).
  apply move_x; [destruct NE; split; cbn [rows cols]; assumption | exact D0 |].
  intros r c P1 P2. cbn [at_]. destruct P1, P2. apply A; split; assumption.
Qed.

Theorem bilinear_lipschitz : forall im Dx Dy x y x' y', nonempty im -> 0 <= Dx -> 0 <= Dy -> across Dx im -> down Dy im ->
  Qabs (bilinear im x y - bilinear im x' y') <= Dx * Qabs (x - x') + Dy * Qabs (y - y').
Proof.
  intros im Dx Dy x y x' y' NE HX HY A B.
  assert (E : bilinear im x y - bilinear im x' y' == (bilinear im x y - bilinear im x' y) + (bilinear im x' y - bilinear im x' y')) by ring.
  rewrite E. eapply Qle_trans; [apply Qabs_triangle|]. apply Qplus_le_compat; [apply move_x | apply move_y]; assumption.
Qed.
