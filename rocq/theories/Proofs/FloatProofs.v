(** Exactness of binary64 on small dyadic numbers. *)
From Coq Require Import List Arith ZArith QArith Qround Qreals Bool Reals Lia Lra.
From Flocq Require Import Core IEEE754.BinarySingleNaN.
From Verif Require Import Prelude Model.Interp Model.Geometry.
Import ListNotations.
Local Open Scope Z_scope.

(** [x] is the finite float of value m / 2^k. *)
Definition dy (k : Z) (x : f64) (m : Z) : Prop :=
  is_finite x = true /\ B2R x = F2R (Float radix2 m (- k)).

(** Small enough to be represented exactly. *)
Definition small (k m : Z) : Prop := 0 <= k <= 1000 /\ Z.abs m < 2 ^ 53.

Lemma small_format : forall k m, small k m ->
  generic_format radix2 (SpecFloat.fexp 53 1024) (F2R (Float radix2 m (- k))).
Proof.
  intros k m [K M]. apply (generic_format_FLT radix2 (SpecFloat.emin 53 1024) 53).
  exists (Float radix2 m (- k)); [reflexivity | exact M |]. cbn [Fexp]. change (SpecFloat.emin 53 1024) with (-1074). lia.
Qed.

Lemma small_round : forall k m, small k m ->
  round radix2 (SpecFloat.fexp 53 1024) (round_mode mode_NE) (F2R (Float radix2 m (- k))) = F2R (Float radix2 m (- k)).
Proof. intros k m S. apply round_generic; [apply valid_rnd_round_mode | apply small_format; exact S]. Qed.

Lemma small_lt : forall k m, small k m -> Rlt_bool (Rabs (F2R (Float radix2 m (- k)))) (bpow radix2 1024) = true.
Proof.
  intros k m [K M]. apply Rlt_bool_true. rewrite <- F2R_Zabs.
  apply Rlt_le_trans with (F2R (Float radix2 (2 ^ 53) (- k))); [apply F2R_lt; exact M|].
  unfold F2R. cbn [Fnum Fexp]. replace (IZR (2 ^ 53)) with (bpow radix2 53) by (cbn; reflexivity).
  rewrite <- bpow_plus. apply bpow_le. lia.
Qed.

Lemma F2R_shift : forall k j m, 0 <= j -> F2R (Float radix2 m (- k)) = F2R (Float radix2 (m * 2 ^ j) (- (k + j))).
Proof.
  intros k j m J. unfold F2R. cbn [Fnum Fexp]. rewrite mult_IZR.
  replace (IZR (2 ^ j)) with (bpow radix2 j) by (rewrite <- (IZR_Zpower radix2) by exact J; reflexivity).
  rewrite Rmult_assoc, <- bpow_plus. f_equal. f_equal. lia.
Qed.

Lemma dy_lift : forall k j x m, 0 <= j -> dy k x m -> dy (k + j) x (m * 2 ^ j).
Proof. intros k j x m J [F E]. split; [exact F|]. rewrite E. apply F2R_shift. exact J. Qed.

Lemma dy_ofZ : forall z, Z.abs z < 2 ^ 53 -> dy 0 (f64_ofZ z) z.
Proof.
  intros z H. assert (S : small 0 z) by (split; [lia | exact H]).
  pose proof (binary_normalize_correct 53 1024 p64 l64 mode_NE z 0 false) as C. cbv zeta in C.
  change 0 with (- 0) in C at 1 3 5. 
  pose proof (small_round 0 z S) as R. pose proof (small_lt 0 z S) as L. cbn [Z.opp] in *.
  rewrite R, L in C. destruct C as (C1 & C2 & _). split; [exact C2 | exact C1].
Qed.

Lemma dy_plus : forall k x y a b, dy k x a -> dy k y b -> small k (a + b) ->
  dy k (@Bplus 53 1024 p64 l64 mode_NE x y) (a + b).
Proof.
  intros k x y a b [Fx Ex] [Fy Ey] S.
  pose proof (Bplus_correct 53 1024 p64 l64 mode_NE x y Fx Fy) as C. rewrite Ex, Ey in C.
  replace (F2R (Float radix2 a (- k)) + F2R (Float radix2 b (- k)))%R with (F2R (Float radix2 (a + b) (- k))) in C
    by (unfold F2R; cbn [Fnum Fexp]; rewrite plus_IZR; ring).
  rewrite (small_round k _ S), (small_lt k _ S) in C. destruct C as (C1 & C2 & _). split; [exact C2 | exact C1].
Qed.

Lemma dy_minus : forall k x y a b, dy k x a -> dy k y b -> small k (a - b) ->
  dy k (@Bminus 53 1024 p64 l64 mode_NE x y) (a - b).
Proof.
  intros k x y a b [Fx Ex] [Fy Ey] S.
  pose proof (Bminus_correct 53 1024 p64 l64 mode_NE x y Fx Fy) as C. rewrite Ex, Ey in C.
  replace (F2R (Float radix2 a (- k)) - F2R (Float radix2 b (- k)))%R with (F2R (Float radix2 (a - b) (- k))) in C
    by (unfold F2R; cbn [Fnum Fexp]; rewrite minus_IZR; ring).
  rewrite (small_round k _ S), (small_lt k _ S) in C. destruct C as (C1 & C2 & _). split; [exact C2 | exact C1].
Qed.

Lemma dy_mult : forall j k x y a b, dy j x a -> dy k y b -> small (j + k) (a * b) ->
  dy (j + k) (@Bmult 53 1024 p64 l64 mode_NE x y) (a * b).
Proof.
  intros j k x y a b [Fx Ex] [Fy Ey] S.
  pose proof (Bmult_correct 53 1024 p64 l64 mode_NE x y) as C. rewrite Ex, Ey in C.
  replace (F2R (Float radix2 a (- j)) * F2R (Float radix2 b (- k)))%R with (F2R (Float radix2 (a * b) (- (j + k)))) in C.
  2: { unfold F2R; cbn [Fnum Fexp]. rewrite mult_IZR. replace (- (j + k)) with (- j + - k) by lia. rewrite bpow_plus. ring. }
  rewrite (small_round _ _ S), (small_lt _ _ S) in C. destruct C as (C1 & C2 & _). rewrite Fx, Fy in C2.
  split; [exact C2 | exact C1].
Qed.

(** Division by a power of two. *)
Lemma dy_div : forall j k x y a, dy j x a -> 0 <= k -> dy 0 y (2 ^ k) -> small (j + k) a ->
  dy (j + k) (@Bdiv 53 1024 p64 l64 mode_NE x y) a.
Proof.
  intros j k x y a [Fx Ex] K [Fy Ey] S.
  assert (Y : B2R y = bpow radix2 k).
  { rewrite Ey. unfold F2R. cbn [Fnum Fexp Z.opp]. change (bpow radix2 0) with 1%R. rewrite Rmult_1_r.
    rewrite <- (IZR_Zpower radix2 k) by exact K. reflexivity. }
  assert (Y0 : B2R y <> 0%R) by (rewrite Y; apply Rgt_not_eq, bpow_gt_0).
  pose proof (Bdiv_correct 53 1024 p64 l64 mode_NE x y Y0) as C. rewrite Ex, Y in C.
  replace (F2R (Float radix2 a (- j)) / bpow radix2 k)%R with (F2R (Float radix2 a (- (j + k)))) in C.
  2: { unfold F2R; cbn [Fnum Fexp]. replace (- (j + k)) with (- j + - k) by lia. rewrite bpow_plus.
       rewrite (bpow_opp radix2 k). unfold Rdiv. ring. }
  rewrite (small_round _ _ S), (small_lt _ _ S) in C. destruct C as (C1 & C2 & _). rewrite Fx in C2.
  split; [exact C2 | exact C1].
Qed.

Lemma dy_opp : forall k x m, dy k x m -> dy k (@Bopp 53 1024 x) (- m).
Proof.
  intros k x m [F E]. split; [rewrite is_finite_Bopp; exact F|]. rewrite B2R_Bopp, E.
  unfold F2R. cbn [Fnum Fexp]. rewrite opp_IZR. ring.
Qed.

Lemma dy_ltb : forall k x y a b, dy k x a -> dy k y b -> f64_ltb x y = (a <? b).
Proof.
  intros k x y a b [Fx Ex] [Fy Ey]. unfold f64_ltb. rewrite Bcompare_correct by assumption. rewrite Ex, Ey.
  destruct (Z.ltb_spec a b) as [L|L].
  - rewrite Rcompare_Lt; [reflexivity | apply F2R_lt; exact L].
  - destruct (Rcompare_spec (F2R (Float radix2 a (- k))) (F2R (Float radix2 b (- k)))) as [H|H|H]; try reflexivity.
    apply lt_F2R in H. lia.
Qed.

(** The rational value of a float is its real value. *)
Lemma dyadic_R : forall m e, Q2R (dyadic m e) = F2R (Float radix2 m e).
Proof.
  intros m e. unfold dyadic, F2R. cbn [Fnum Fexp]. destruct (Z.leb_spec 0 e) as [H|H].
  - unfold Q2R, inject_Z. cbn [Qnum Qden]. rewrite mult_IZR. rewrite Rinv_1, Rmult_1_r.
    f_equal. rewrite <- (IZR_Zpower radix2) by exact H. reflexivity.
  - unfold Q2R. cbn [Qnum Qden]. f_equal.
    rewrite Z2Pos.id by (apply Z.pow_pos_nonneg; lia).
    replace e with (- (- e)) at 2 by lia. rewrite (bpow_opp radix2 (- e)). f_equal.
    rewrite <- (IZR_Zpower radix2) by lia. reflexivity.
Qed.

Lemma f_val_R : forall (x : f64), is_finite x = true -> exists q, f_val x = Some q /\ Q2R q = B2R x.
Proof.
  intros [s|s| |s m e H] F; try discriminate; cbn [f_val B2R].
  - exists 0%Q. split; [reflexivity|]. unfold Q2R. cbn. ring.
  - eexists. split; [reflexivity|]. apply dyadic_R.
Qed.

Lemma Qtrunc_comp : forall a b, (a == b)%Q -> Qtrunc a = Qtrunc b.
Proof.
  intros a b E. unfold Qtrunc. rewrite (Qfloor_comp _ _ E), (Qceiling_comp _ _ E).
  replace (Qle_bool 0 b) with (Qle_bool 0 a); [reflexivity|].
  destruct (Qle_bool 0 a) eqn:A, (Qle_bool 0 b) eqn:B; try reflexivity.
  - apply Qle_bool_iff in A. rewrite E in A. apply Qle_bool_iff in A. congruence.
  - apply Qle_bool_iff in B. rewrite <- E in B. apply Qle_bool_iff in B. congruence.
Qed.

Lemma dy_trunc : forall k x m, 0 <= k -> dy k x m -> 0 <= m -> n_trunc float64 x = Some (m / 2 ^ k).
Proof.
  intros k x m K [F E] M. destruct (f_val_R x F) as (q & V & Q). cbn [float64 n_trunc]. rewrite V. cbn [option_map]. f_equal.
  assert (P : 0 < 2 ^ k) by (apply Z.pow_pos_nonneg; lia).
  assert (EQ : (q == Qmake m (Z.to_pos (2 ^ k)))%Q).
  { apply eqR_Qeq. rewrite Q, E. rewrite <- dyadic_R. apply Qeq_eqR. unfold dyadic.
    destruct (Z.leb_spec 0 (- k)) as [H|H].
    - assert (k = 0) by lia. subst k. cbn. rewrite Z.mul_1_r. reflexivity.
    - rewrite Z.opp_involutive. reflexivity. }
  rewrite (Qtrunc_comp _ _ EQ). unfold Qtrunc.
  replace (Qle_bool 0 (m # Z.to_pos (2 ^ k))) with true by (symmetry; apply Qle_bool_iff; unfold Qle; cbn; lia).
  unfold Qfloor. rewrite Z2Pos.id by exact P. reflexivity.
Qed.

Lemma dy_max0 : forall k x m, 0 <= k -> dy k x m -> dy k (max0 float64 x) (Z.max 0 m).
Proof.
  intros k x m K D. unfold max0.
  assert (Z0 : dy k (f64_ofZ 0) 0).
  { pose proof (dy_lift 0 k (f64_ofZ 0) 0 K (dy_ofZ 0 ltac:(cbn; lia))) as H. exact H. }
  change (n_ltb float64 (n_ofZ float64 0) x) with (f64_ltb (f64_ofZ 0) x). rewrite (dy_ltb k _ _ 0 m Z0 D).
  destruct (Z.ltb_spec 0 m); [rewrite Z.max_r by lia; exact D | rewrite Z.max_l by lia; exact Z0].
Qed.
Lemma dy_min0 : forall k x m, 0 <= k -> dy k x m -> dy k (min0 float64 x) (Z.min 0 m).
Proof.
  intros k x m K D. unfold min0.
  assert (Z0 : dy k (f64_ofZ 0) 0).
  { pose proof (dy_lift 0 k (f64_ofZ 0) 0 K (dy_ofZ 0 ltac:(cbn; lia))) as H. exact H. }
  change (n_ltb float64 x (n_ofZ float64 0)) with (f64_ltb x (f64_ofZ 0)). rewrite (dy_ltb k _ _ m 0 D Z0).
  destruct (Z.ltb_spec m 0); [rewrite Z.min_r by lia; exact D | rewrite Z.min_l by lia; exact Z0].
Qed.
