(** Trilinear interpolation in binary32 (C131). *)
From Coq Require Import List ZArith QArith Qround Qreals Qabs Bool Reals Lia Lqa Lra Psatz.
From Flocq Require Import Core Relative Sterbenz IEEE754.BinarySingleNaN.
From Verif Require Import Prelude Model.Interp Model.Geometry Model.Render Model.InterpFloat Model.TriFloat.
From Verif Require Import Spec.InterpSpec Spec.InterpFloatSpec Spec.TriFloatSpec.
From Verif Require Import Proofs.InterpProofs Proofs.FloatProofs Proofs.RoundProofs Proofs.InterpFloatProofs Proofs.InterpBinary.
Local Open Scope R_scope.

(** * Corners *)
Lemma corner_iff : forall n x i, (1 <= n)%Z -> (corner n x i <-> i = tx0 n x \/ i = tx1 n x).
Proof.
  intros n x i N. destruct (floor_spec x) as [F1 F2].
  assert (L : (0 <= inject_Z n - 1)%Q) by (rewrite <- inj_sub1; change 0%Q with (inject_Z 0); apply inj_le; lia).
  assert (LT : forall a b, (inject_Z a < inject_Z b)%Q -> (a < b)%Z) by (intros a b H; rewrite <- Zlt_Qlt in H; exact H).
  assert (LE : forall a b, (inject_Z a <= inject_Z b)%Q -> (a <= b)%Z) by (intros a b H; rewrite <- Zle_Qle in H; exact H).
  assert (NN := inj_sub1 n).
  destruct (ceiling_cases x) as [[E C]|[E C]]; unfold tx0, tx1; rewrite C; set (k := Qfloor x) in *.
  - split.
    + intros (R & p & (P1 & P2 & P3 & P4) & P5 & P6). left. unfold clipZ.
      destruct (Qlt_le_dec x 0) as [H|H].
      * pose proof (P2 H). assert (i < 1)%Z by (apply LT; change (inject_Z 1) with 1%Q; lra).
        assert (k < 0)%Z by (apply LT; change (inject_Z 0) with 0%Q; lra). lia.
      * assert (0 <= k)%Z by (apply LE; change (inject_Z 0) with 0%Q; lra).
        destruct (Qlt_le_dec (inject_Z n - 1) x) as [G|G].
        -- pose proof (P3 G). assert (n - 2 < i)%Z by (apply LT; replace (n - 2)%Z with (n - 1 - 1)%Z by lia; rewrite inj_sub1, NN; lra).
           assert (n - 1 < k)%Z by (apply LT; rewrite NN; lra). lia.
        -- pose proof (P4 (conj H G)). assert (k <= n - 1)%Z by (apply LE; rewrite NN; lra).
           assert (k - 1 < i)%Z by (apply LT; rewrite inj_sub1; lra). assert (i < k + 1)%Z by (apply LT; rewrite inj_add1; lra). lia.
    + intros D. assert (i = clipZ 0 (n - 1) k) as -> by (destruct D; assumption). clear D.
      pose proof (clipZ_range 0 (n - 1) k ltac:(lia)) as R. split; [lia|].
      exists (inject_Z (clipZ 0 (n - 1) k)). split; [|split; lra].
      unfold nearest. pose proof (inj_le 0 _ (proj1 R)) as R1. pose proof (inj_le _ _ (proj2 R)) as R2. rewrite NN in R2. change (inject_Z 0) with 0%Q in R1.
      split; [split; lra|]. split; [|split]; intros H; unfold clipZ.
      * assert (k < 0)%Z by (apply LT; change (inject_Z 0) with 0%Q; lra).
        replace (Z.min (Z.max k 0) (n - 1)) with 0%Z by lia. reflexivity.
      * assert (n - 1 < k)%Z by (apply LT; rewrite NN; lra). replace (Z.min (Z.max k 0) (n - 1)) with (n - 1)%Z by lia. exact NN.
      * destruct H as [H G]. assert (0 <= k)%Z by (apply LE; change (inject_Z 0) with 0%Q; lra).
        assert (k <= n - 1)%Z by (apply LE; rewrite NN; lra). replace (Z.min (Z.max k 0) (n - 1)) with k by lia. lra.
  - split.
    + intros (R & p & (P1 & P2 & P3 & P4) & P5 & P6). unfold clipZ.
      destruct (Qlt_le_dec x 0) as [H|H].
      * pose proof (P2 H). assert (i < 1)%Z by (apply LT; change (inject_Z 1) with 1%Q; lra).
        assert (k < 0)%Z by (apply LT; change (inject_Z 0) with 0%Q; lra). lia.
      * assert (-1 < k)%Z by (apply LT; change (inject_Z (-1)) with (-1)%Q; lra).
        destruct (Qlt_le_dec (inject_Z n - 1) x) as [G|G].
        -- pose proof (P3 G). assert (n - 2 < i)%Z by (apply LT; replace (n - 2)%Z with (n - 1 - 1)%Z by lia; rewrite inj_sub1, NN; lra).
           assert (n - 1 < k + 1)%Z by (apply LT; rewrite NN, inj_add1; lra). lia.
        -- pose proof (P4 (conj H G)). assert (k < n - 1)%Z by (apply LT; rewrite NN; lra).
           assert (k - 1 < i)%Z by (apply LT; rewrite inj_sub1; lra).
           assert (i < k + 1 + 1)%Z by (apply LT; rewrite !inj_add1; lra). lia.
    + intros D. assert (R : (0 <= i <= n - 1)%Z) by (destruct D as [-> | ->]; apply clipZ_range; lia). split; [lia|].
      exists (clipQ 0 (inject_Z n - 1) x). split; [apply clipQ_nearest; exact L|].
      destruct (clipQ_cases 0 (inject_Z n - 1) x L) as [(A & ->)|[(A & ->)|((A & B) & ->)]].
      * assert (k < 0)%Z by (apply LT; change (inject_Z 0) with 0%Q; lra).
        assert (i = 0)%Z as -> by (unfold clipZ in D; lia). change (inject_Z 0) with 0%Q. split; lra.
      * assert (n - 1 < k + 1)%Z by (apply LT; rewrite NN, inj_add1; lra).
        assert (i = n - 1)%Z as -> by (unfold clipZ in D; lia). rewrite NN. split; lra.
      * assert (-1 < k)%Z by (apply LT; change (inject_Z (-1)) with (-1)%Q; lra).
        assert (k < n - 1)%Z by (apply LT; rewrite NN; lra).
        assert (DD : i = k \/ i = (k + 1)%Z) by (unfold clipZ in D; lia).
        destruct DD as [-> | ->]; rewrite ?inj_add1; split; lra.
Qed.

Lemma floor_tx0 : forall n x, (1 <= n <= 2 ^ 31)%Z -> finite x -> clipZ 0 (n - 1) (f32_floor x) = tx0 n (value x).
Proof.
  intros n x N F. unfold tx0, value. destruct x as [s|s| |s m e H]; try discriminate F; unfold f32_floor; cbn [f_val].
  - reflexivity.
  - unfold int32, clipZ. lia.
Qed.

Lemma ceil_tx1 : forall n x, (1 <= n <= 2 ^ 31)%Z -> finite x -> clipZ 0 (n - 1) (f32_ceil x) = tx1 n (value x).
Proof.
  intros n x N F. unfold tx1, value. destruct x as [s|s| |s m e H]; try discriminate F; unfold f32_ceil; cbn [f_val].
  - reflexivity.
  - unfold int32, clipZ. lia.
Qed.

(** * Rounding in the unit interval *)
Lemma float32_1 : float32 1.
Proof. apply (float32_Z 1). lia. Qed.

Lemma rn32_unit : forall t, 0 <= t <= 1 -> 0 <= rn32 t <= 1 /\ Rabs (rn32 t - t) <= u32.
Proof.
  intros t [H0 H1]. split.
  - split; [apply rn32_pos; exact H0|]. unfold rn32.
    apply round_le_generic; [apply fexp_correct; reflexivity | apply valid_rnd_round_mode | exact float32_1 | exact H1].
  - assert (V : Valid_exp (FLT_exp (-149) 24)) by (apply FLT_exp_valid; reflexivity).
    pose proof (error_le_half_ulp radix2 (FLT_exp (-149) 24) (fun x => negb (Z.even x)) t) as E.
    change (round radix2 (FLT_exp (-149) 24) (Znearest (fun x => negb (Z.even x))) t) with (rn32 t) in E.
    eapply Rle_trans; [exact E|].
    assert (U : ulp radix2 (FLT_exp (-149) 24) t <= ulp radix2 (FLT_exp (-149) 24) (bpow radix2 0)).
    { apply ulp_le; [exact V | apply FLT_exp_monotone |]. cbn [bpow]. rewrite !Rabs_pos_eq; lra. }
    rewrite ulp_bpow in U. change (FLT_exp (-149) 24 (0 + 1)) with (-23)%Z in U.
    assert (A : u32 = / 2 * bpow radix2 (-23)) by (change (/ 2) with (bpow radix2 (-1)); rewrite <- bpow_plus; reflexivity).
    rewrite A. lra.
Qed.

Lemma rn32_below : forall t c, float32 c -> Rabs t <= Rabs c -> Rabs (rn32 t) <= Rabs c.
Proof.
  intros t c F H. unfold rn32.
  apply abs_round_le_generic; [apply fexp_correct; reflexivity | apply valid_rnd_round_mode | | exact H].
  apply generic_format_abs. exact F.
Qed.

Lemma fits_unit : forall t, 0 <= t <= 1 -> fits t.
Proof.
  intros t H. unfold fits. rewrite Rabs_pos_eq by lra. apply Rle_lt_trans with 1; [lra|].
  change 1 with (bpow radix2 0). apply bpow_lt. lia.
Qed.

(** * The floor of a float *)
Lemma floor_float : forall t, float32 t -> float32 (IZR (Zfloor t)).
Proof.
  intros t F. assert (V : Valid_exp (FLT_exp (-149) 24)) by (apply FLT_exp_valid; reflexivity).
  replace (IZR (Zfloor t)) with (round radix2 (FIX_exp 0) Zfloor t).
  - apply generic_round_generic; [exact V | apply FIX_exp_valid | apply valid_rnd_DN | exact F].
  - unfold round, F2R, scaled_mantissa, cexp, FIX_exp. cbn. rewrite !Rmult_1_r. reflexivity.
Qed.

Lemma rep_floor : forall x, finite x -> rep (floor32 x) (IZR (Qfloor (value x))).
Proof.
  intros x F. assert (E : floor32 x = f32_ofZ (Qfloor (value x))) by (destruct x; try discriminate F; reflexivity).
  rewrite E. pose proof (value_R x F) as VR. rewrite <- floor_Q2R, VR.
  set (z := Zfloor (B2R x)). assert (FZ : float32 (IZR z)) by (apply floor_float, (generic_format_B2R 24 128)).
  pose proof (binary_normalize_correct 24 128 p32 l32 mode_NE z 0 false) as C. cbv zeta in C.
  assert (V : F2R (Float radix2 z 0) = IZR z) by (unfold F2R; cbn [Fnum Fexp bpow]; ring).
  rewrite V in C. fold (rn32 (IZR z)) in C. rewrite (rn32_exact _ FZ) in C.
  rewrite Rlt_bool_true in C; [destruct C as (C1 & C2 & _); split; [exact C2 | exact C1]|].
  pose proof (abs_B2R_le_emax_minus_prec 24 128 p32 x) as B. pose proof (Zfloor_lb (B2R x)) as L. pose proof (Zfloor_ub (B2R x)) as U.
  fold z in L, U. assert (1 < bpow radix2 (128 - 24)) by (change 1 with (bpow radix2 0); apply bpow_lt; lia).
  apply Rabs_def2b in B || apply Rabs_le_inv in B. apply Rabs_def1; lra.
Qed.

(** * Weights: [f] stands for a number of [0, 1] within [k] units of [A] *)
Definition is01 (k : R) (f : f32) (A : R) : Prop :=
  exists a, rep f a /\ 0 <= a <= 1 /\ 0 <= A <= 1 /\ Rabs (a - A) <= k * u32.

Lemma is01_up : forall j k f A, j <= k -> is01 j f A -> is01 k f A.
Proof.
  intros j k f A H (a & R & I & J & E). exists a. repeat split; try tauto; try apply R.
  eapply Rle_trans; [exact E|]. apply Rmult_le_compat_r; [apply u32_small | exact H].
Qed.

Lemma is01_frac : forall x, finite x -> is01 1 (fsub x (floor32 x)) (Q2R (txw (value x))).
Proof.
  intros x F. pose proof (rep_floor x F) as RF. pose proof (finite_rep x F) as RX.
  assert (E : Q2R (txw (value x)) = Q2R (value x) - IZR (Qfloor (value x))) by (unfold txw; rewrite Q2R_minus, Q2R_Z; reflexivity).
  assert (I : 0 <= Q2R (txw (value x)) <= 1).
  { rewrite E, <- floor_Q2R. pose proof (Zfloor_lb (Q2R (value x))). pose proof (Zfloor_ub (Q2R (value x))). lra. }
  destruct (rn32_unit _ I) as [J D]. rewrite E in *. exists (rn32 (Q2R (value x) - IZR (Qfloor (value x)))).
  split; [apply rep_sub; [exact RX | exact RF | apply fits_unit; exact J]|]. split; [exact J|]. split; [exact I|]. lra.
Qed.

Lemma is01_co : forall k f A, is01 k f A -> is01 (k + 1) (fsub (f32_ofZ 1) f) (1 - A).
Proof.
  intros k f A (a & R & I & J & E). assert (ONE : rep (f32_ofZ 1) 1) by (apply (rep_ofZ 1); lia).
  destruct (rn32_unit (1 - a) ltac:(lra)) as [K D]. exists (rn32 (1 - a)).
  split; [apply rep_sub; [exact ONE | exact R | apply fits_unit; exact K]|]. split; [exact K|]. split; [lra|].
  apply Rabs_le_inv in E. apply Rabs_le_inv in D. apply Rabs_le. lra.
Qed.

Lemma is01_mul : forall j k f g A B, is01 j f A -> is01 k g B -> is01 (j + k + 1) (fmul f g) (A * B).
Proof.
  intros j k f g A B (a & R & I & J & E) (b & R' & I' & J' & E').
  assert (P : forall c d, 0 <= c <= 1 -> 0 <= d <= 1 -> 0 <= c * d <= 1) by (intros; nra).
  destruct (rn32_unit (a * b) (P _ _ I I')) as [K D]. exists (rn32 (a * b)).
  split; [apply rep_mul; [exact R | exact R' | apply fits_unit; exact K]|]. split; [exact K|]. split; [apply P; assumption|].
  assert (X : Rabs (a * b - A * B) <= j * u32 + k * u32).
  { replace (a * b - A * B) with ((a - A) * b + A * (b - B)) by ring. eapply Rle_trans; [apply Rabs_triang|].
    rewrite !Rabs_mult, (Rabs_pos_eq b), (Rabs_pos_eq A) by lra.
    pose proof (Rabs_pos (a - A)). pose proof (Rabs_pos (b - B)).
    apply Rplus_le_compat; nra. }
  apply Rabs_le_inv in X. apply Rabs_le_inv in D. apply Rabs_le. lra.
Qed.

(** * Terms and their sum *)
Section Sum.
Variable M : R.
Variable Pz : Prop.
Hypothesis HM : 0 <= M.
Hypothesis BM : M <= bpow radix2 126.

Definition term (f : f32) (T W : R) : Prop :=
  exists t, rep f t /\ Rabs (t - T) <= 9 * (u32 * M) + e32 /\ Rabs T <= W * M /\ 0 <= W /\ (Pz -> 0 <= t).

Lemma big_fits : forall t, Rabs t <= 2 * M + 1 -> fits t.
Proof.
  intros t H. unfold fits.
  assert (B1 : bpow radix2 128 = 4 * bpow radix2 126) by (change 4 with (bpow radix2 2); rewrite <- bpow_plus; reflexivity).
  assert (B2 : 16 <= bpow radix2 126) by (change 16 with (bpow radix2 4); apply bpow_le; lia). lra.
Qed.

Lemma term_mul : forall p w c W, rep p c -> Rabs c <= M -> (Pz -> 0 <= c) -> is01 8 w W -> term (fmul p w) (c * W) W.
Proof.
  intros p w c W R C PC (a & R' & I & J & E). pose proof u32_small as US. pose proof e32_small as ES.
  assert (FC : float32 c) by (destruct R as [_ <-]; exact (generic_format_B2R 24 128 p)).
  assert (S : Rabs (c * a) <= Rabs c) by (rewrite Rabs_mult, (Rabs_pos_eq a) by lra; pose proof (Rabs_pos c); nra).
  exists (rn32 (c * a)).
  split; [apply rep_mul; [exact R | exact R' |]; apply big_fits; pose proof (rn32_below _ _ FC S); lra|].
  split; [|split; [|split; [lra|]]].
  - pose proof (proj1 rn32_rounds (c * a)) as D.
    assert (X : Rabs (c * a - c * W) <= 8 * (u32 * M)).
    { replace (c * a - c * W) with (c * (a - W)) by ring. rewrite Rabs_mult. pose proof (Rabs_pos c). pose proof (Rabs_pos (a - W)).
      apply Rle_trans with (M * (8 * u32)); [apply Rmult_le_compat; assumption | lra]. }
    assert (Y : u32 * Rabs (c * a) <= u32 * M) by (apply Rmult_le_compat_l; lra).
    apply Rabs_le_inv in X. apply Rabs_le_inv in D. apply Rabs_le. lra.
  - rewrite Rabs_mult, (Rabs_pos_eq W) by lra. rewrite Rmult_comm. apply Rmult_le_compat_l; lra.
  - intros P. apply rn32_pos. apply Rmult_le_pos; [exact (PC P) | lra].
Qed.

Definition acc (k : R) (f : f32) (S W : R) : Prop :=
  exists s, rep f s /\ Rabs (s - S) <= k * (12 * (u32 * M) + 4 * e32) /\ Rabs S <= W * M /\ (Pz -> 0 <= s).

Lemma acc_first : forall f T W, term f T W -> acc 1 f T W.
Proof.
  intros f T W (t & R & D & B & _ & P). exists t. split; [exact R|]. split; [|split; assumption].
  pose proof e32_small. assert (0 <= u32 * M) by (apply Rmult_le_pos; [apply u32_small | exact HM]). lra.
Qed.

Lemma acc_next : forall k f S W g T X, acc k f S W -> term g T X -> 1 <= k <= 8 -> W + X <= 1 -> acc (k + 1) (fadd f g) (S + T) (W + X).
Proof.
  intros k f S W g T X (s & R & D & B & P) (t & R' & D' & B' & X0 & P') K HW.
  pose proof u32_small as US. pose proof e32_small as ES.
  set (a := u32 * M) in *. assert (A0 : 0 <= a <= / 1024 * M) by (unfold a; split; [apply Rmult_le_pos; lra | apply Rmult_le_compat_r; lra]).
  set (q := 12 * a + 4 * e32) in *. assert (Q0 : 0 <= q) by (unfold q; lra).
  assert (KQ : k * q <= 8 * q) by (apply Rmult_le_compat_r; lra).
  assert (ST : Rabs (S + T) <= (W + X) * M) by (eapply Rle_trans; [apply Rabs_triang|]; lra).
  assert (ST1 : Rabs (S + T) <= M) by (eapply Rle_trans; [exact ST|]; rewrite <- (Rmult_1_l M) at 2; apply Rmult_le_compat_r; assumption).
  assert (E : Rabs (s + t - (S + T)) <= k * q + 9 * a + e32).
  { replace (s + t - (S + T)) with ((s - S) + (t - T)) by ring. eapply Rle_trans; [apply Rabs_triang|]. lra. }
  assert (SZ : Rabs (s + t) <= M + (8 * q + 9 * a + e32)).
  { replace (s + t) with ((S + T) + (s + t - (S + T))) by ring. eapply Rle_trans; [apply Rabs_triang|]. lra. }
  pose proof (proj1 rn32_rounds (s + t)) as N.
  assert (UM : u32 * Rabs (s + t) <= a + / 1024 * (8 * q + 9 * a + e32)).
  { apply Rle_trans with (u32 * (M + (8 * q + 9 * a + e32))); [apply Rmult_le_compat_l; lra|].
    rewrite Rmult_plus_distr_l. fold a. apply Rplus_le_compat_l, Rmult_le_compat_r; lra. }
  assert (E2 : Rabs (rn32 (s + t) - (S + T)) <= (k + 1) * q).
  { apply Rabs_le_inv in E. apply Rabs_le_inv in N. replace ((k + 1) * q) with (k * q + q) by ring. apply Rabs_le. unfold q in *. lra. }
  exists (rn32 (s + t)). split; [|split; [exact E2|split; [exact ST|]]].
  - apply rep_add; [exact R | exact R' |]. apply big_fits.
    replace (rn32 (s + t)) with ((s + t) + (rn32 (s + t) - (s + t))) by ring. eapply Rle_trans; [apply Rabs_triang|]. unfold q in *. lra.
  - intros Z. apply rn32_pos. pose proof (P Z). pose proof (P' Z). lra.
Qed.
End Sum.

(** * The computation *)
Section Compute.
Variables (v : fvolume) (x y z : f32) (M : R) (Pz : Prop).
Hypothesis SZ : wsize v.
Hypothesis FX : finite x.
Hypothesis FY : finite y.
Hypothesis FZ : finite z.
Hypothesis CR : corners v x y z (fun p => finite p /\ Rabs (B2R p) <= M /\ (Pz -> 0 <= B2R p)).
Hypothesis BM : M <= bpow radix2 126.

Lemma wgather_in : forall d r c, (0 <= d < wD v)%Z -> (0 <= r < wH v)%Z -> (0 <= c < wW v)%Z -> wgather v d r c = wat v d r c.
Proof. intros d r c D R C. unfold wgather. rewrite !gather_index_in by assumption. reflexivity. Qed.

Lemma tri_acc : 0 <= M /\ acc M Pz 8 (trilinear32 v x y z) (Q2R (trilinear (vvalues v) (value x) (value y) (value z))) 1.
Proof.
  destruct SZ as (SD & SH & SW).
  assert (CZ : forall i, i = tx0 (wD v) (value z) \/ i = tx1 (wD v) (value z) -> corner (wD v) (value z) i) by (intros i; apply corner_iff; lia).
  assert (CY : forall i, i = tx0 (wH v) (value y) \/ i = tx1 (wH v) (value y) -> corner (wH v) (value y) i) by (intros i; apply corner_iff; lia).
  assert (CX : forall i, i = tx0 (wW v) (value x) \/ i = tx1 (wW v) (value x) -> corner (wW v) (value x) i) by (intros i; apply corner_iff; lia).
  destruct (taxis_ok (wW v) (value x) (proj1 SW)) as (X0 & X1 & _). destruct (taxis_ok (wH v) (value y) (proj1 SH)) as (Y0 & Y1 & _).
  destruct (taxis_ok (wD v) (value z) (proj1 SD)) as (Z0 & Z1 & _).
  unfold trilinear32. cbv zeta. rewrite !floor_tx0, !ceil_tx1 by assumption.
  rewrite !wgather_in by assumption.
  unfold trilinear. cbn [vvalues vD vH vW].
  fold (tx0 (wW v) (value x)) (tx1 (wW v) (value x)) (tx0 (wH v) (value y)) (tx1 (wH v) (value y)) (tx0 (wD v) (value z)) (tx1 (wD v) (value z)).
  fold (txw (value x)) (txw (value y)) (txw (value z)). cbv zeta.
  rewrite !vgather_in by (repeat split; cbn [vvalues vD vH vW]; first [apply X0 | apply X1 | apply Y0 | apply Y1 | apply Z0 | apply Z1]).
  cbn [vvalues vat].
  assert (RP : forall d r c, corner (wD v) (value z) d -> corner (wH v) (value y) r -> corner (wW v) (value x) c ->
    rep (wat v d r c) (Q2R (value (wat v d r c))) /\ Rabs (Q2R (value (wat v d r c))) <= M /\ (Pz -> 0 <= Q2R (value (wat v d r c)))).
  { intros d r c D R C. destruct (CR d r c D R C) as (F & B & P). split; [apply finite_rep; exact F|]. rewrite (value_R _ F). split; assumption. }
  assert (HM : 0 <= M).
  { eapply Rle_trans; [apply Rabs_pos | apply (RP _ _ _ (CZ _ (or_introl eq_refl)) (CY _ (or_introl eq_refl)) (CX _ (or_introl eq_refl)))]. }
  split; [exact HM|].
  pose proof (is01_frac x FX) as AX. pose proof (is01_frac y FY) as AY. pose proof (is01_frac z FZ) as AZ.
  pose proof (is01_co _ _ _ AX) as BX. pose proof (is01_co _ _ _ AY) as BY. pose proof (is01_co _ _ _ AZ) as BZ.
  rewrite !Q2R_plus, !Q2R_mult, !Q2R_minus.
  replace (Q2R 1) with 1 by (symmetry; apply RMicromega.Q2R_1).
  set (a := Q2R (txw (value x))) in *. set (b := Q2R (txw (value y))) in *. set (c := Q2R (txw (value z))) in *.
  assert (IA : 0 <= a <= 1) by (destruct AX as (? & _ & _ & H & _); exact H).
  assert (IB : 0 <= b <= 1) by (destruct AY as (? & _ & _ & H & _); exact H).
  assert (IC : 0 <= c <= 1) by (destruct AZ as (? & _ & _ & H & _); exact H).
  assert (T : forall d r e w1 w2 w3 W1 W2 W3, corner (wD v) (value z) d -> corner (wH v) (value y) r -> corner (wW v) (value x) e ->
    is01 2 w1 W1 -> is01 2 w2 W2 -> is01 2 w3 W3 ->
    term M Pz (fmul (wat v d r e) (fmul (fmul w1 w2) w3)) (Q2R (value (wat v d r e)) * (W1 * W2 * W3)) (W1 * W2 * W3)).
  { intros d r e w1 w2 w3 W1 W2 W3 D R E I1 I2 I3. destruct (RP d r e D R E) as (R1 & R2 & R3).
    apply term_mul; try assumption. apply (is01_up (2 + 2 + 1 + 2 + 1)); [lra|]. apply is01_mul; [apply is01_mul|]; assumption. }
  apply (is01_up _ 2) in AX; [|lra]. apply (is01_up _ 2) in AY; [|lra]. apply (is01_up _ 2) in AZ; [|lra].
  apply (is01_up _ 2) in BX; [|lra]. apply (is01_up _ 2) in BY; [|lra]. apply (is01_up _ 2) in BZ; [|lra].
  assert (P : forall p q s, 0 <= p <= 1 -> 0 <= q <= 1 -> 0 <= s <= 1 -> 0 <= p * q * s).
  { intros p q s H1 H2 H3. apply Rmult_le_pos; [apply Rmult_le_pos|]; lra. }
  assert (Ja : 0 <= 1 - a <= 1) by lra. assert (Jb : 0 <= 1 - b <= 1) by lra. assert (Jc : 0 <= 1 - c <= 1) by lra.
  set (Wa := (1 - a) * (1 - b) * (1 - c)). set (Wb := a * (1 - b) * (1 - c)). set (Wc := (1 - a) * b * (1 - c)).
  set (Wd := a * b * (1 - c)). set (We := (1 - a) * (1 - b) * c). set (Wf := a * (1 - b) * c). set (Wg := (1 - a) * b * c). set (Wh := a * b * c).
  assert (ONE : Wa + Wb + Wc + Wd + We + Wf + Wg + Wh = 1) by (unfold Wa, Wb, Wc, Wd, We, Wf, Wg, Wh; ring).
  assert (0 <= Wa) by (apply P; assumption). assert (0 <= Wb) by (apply P; assumption).
  assert (0 <= Wc) by (apply P; assumption). assert (0 <= Wd) by (apply P; assumption).
  assert (0 <= We) by (apply P; assumption). assert (0 <= Wf) by (apply P; assumption).
  assert (0 <= Wg) by (apply P; assumption). assert (0 <= Wh) by (apply P; assumption).
  rewrite <- ONE. replace 8 with (1 + 1 + 1 + 1 + 1 + 1 + 1 + 1) by lra.
  repeat (apply acc_next; [exact HM | exact BM | | | lra | lra]); [apply acc_first; [exact HM|]|..]; apply T; auto.
Qed.
End Compute.

(** * Theorems *)
Lemma tri_error : forall v x y z M, wsize v -> finite x -> finite y -> finite z ->
  corners v x y z (fun p => finite p /\ Rabs (B2R p) <= M) -> M <= bpow radix2 126 ->
  finite (trilinear32 v x y z) /\
  Rabs (B2R (trilinear32 v x y z) - Q2R (trilinear (vvalues v) (value x) (value y) (value z))) <= bpow radix2 (-17) * M + bpow radix2 (-145).
Proof.
  intros v x y z M SZ FX FY FZ CR BM.
  destruct (tri_acc v x y z M False SZ FX FY FZ) as (HM & s & [F R] & E & _).
  { intros d r c D R C. destruct (CR d r c D R C). repeat split; try assumption. intros []. }
  { exact BM. }
  split; [exact F|]. rewrite R. eapply Rle_trans; [exact E|].
  assert (E1 : 32 * e32 = bpow radix2 (-145)) by (unfold e32; change 32 with (bpow radix2 5); rewrite bpow_shift; reflexivity).
  assert (E2 : 128 * u32 = bpow radix2 (-17)) by (unfold u32; change 128 with (bpow radix2 7); rewrite bpow_shift; reflexivity).
  assert (0 <= u32 * M) by (apply Rmult_le_pos; [apply u32_small | exact HM]). rewrite <- E1, <- E2. lra.
Qed.

Lemma tri_pos : forall v x y z, wsize v -> finite x -> finite y -> finite z ->
  corners v x y z (fun p => finite p /\ 0 <= B2R p <= bpow radix2 126) -> 0 <= B2R (trilinear32 v x y z).
Proof.
  intros v x y z SZ FX FY FZ CR.
  destruct (tri_acc v x y z (bpow radix2 126) True SZ FX FY FZ) as (_ & s & [_ R] & _ & _ & P).
  { intros d r c D R C. destruct (CR d r c D R C) as [F B]. split; [exact F|]. split; [rewrite Rabs_pos_eq; lra | intros _; lra]. }
  { apply Rle_refl. }
  rewrite R. apply P. exact I.
Qed.

Definition sum8 (a b c d e f g h : f32) : f32 := fadd (fadd (fadd (fadd (fadd (fadd (fadd a b) c) d) e) f) g) h.

Lemma finite_fadd : forall x y, finite (fadd x y) -> finite x /\ finite y.
Proof. exact finite_add. Qed.
Lemma finite_fmul : forall x y, finite (fmul x y) -> finite x /\ finite y.
Proof. exact finite_mul. Qed.

Lemma finite_sum8 : forall a b c d e f g h, finite (sum8 a b c d e f g h) ->
  finite a /\ finite b /\ finite c /\ finite d /\ finite e /\ finite f /\ finite g /\ finite h.
Proof.
  intros a b c d e f g h F. unfold sum8 in F.
  do 7 (apply finite_fadd in F; destruct F as [F ?]). repeat split; assumption.
Qed.

Lemma tri_sum8 : forall v x y z, wsize v -> finite x -> finite y -> finite z ->
  let p d r c := wat v d r c in
  let x0 := tx0 (wW v) (value x) in let x1 := tx1 (wW v) (value x) in
  let y0 := tx0 (wH v) (value y) in let y1 := tx1 (wH v) (value y) in
  let z0 := tx0 (wD v) (value z) in let z1 := tx1 (wD v) (value z) in
  exists wa wb wc wd we wf wg wh, trilinear32 v x y z =
    sum8 (fmul (p z0 y0 x0) wa) (fmul (p z0 y0 x1) wb) (fmul (p z0 y1 x0) wc) (fmul (p z0 y1 x1) wd)
         (fmul (p z1 y0 x0) we) (fmul (p z1 y0 x1) wf) (fmul (p z1 y1 x0) wg) (fmul (p z1 y1 x1) wh).
Proof.
  intros v x y z (SD & SH & SW) FX FY FZ. cbv zeta.
  destruct (taxis_ok (wW v) (value x) (proj1 SW)) as (X0 & X1 & _). destruct (taxis_ok (wH v) (value y) (proj1 SH)) as (Y0 & Y1 & _).
  destruct (taxis_ok (wD v) (value z) (proj1 SD)) as (Z0 & Z1 & _).
  unfold trilinear32. cbv zeta. rewrite !floor_tx0, !ceil_tx1 by assumption. rewrite !wgather_in by assumption.
  unfold sum8. do 8 eexists. reflexivity.
Qed.

Lemma tri_nan : forall v x y z, wsize v -> finite x -> finite y -> finite z ->
  finite (trilinear32 v x y z) -> corners v x y z finite.
Proof.
  intros v x y z SZ FX FY FZ F d r c D R C.
  destruct (tri_sum8 v x y z SZ FX FY FZ) as (wa & wb & wc & wd & we & wf & wg & wh & E). cbv zeta in E.
  rewrite E in F. clear E. apply finite_sum8 in F. destruct F as (Fa & Fb & Fc & Fd & Fe & Ff & Fg & Fh).
  apply finite_fmul in Fa, Fb, Fc, Fd, Fe, Ff, Fg, Fh. destruct SZ as (SD & SH & SW).
  apply corner_iff in D, R, C; try lia.
  destruct D as [-> | ->], R as [-> | ->], C as [-> | ->]; tauto.
Qed.

(** At a voxel every weight is exactly 0 or 1. *)
Lemma frac_int : forall x i, finite x -> B2R x = IZR i -> rep (fsub x (floor32 x)) 0 /\ Qfloor (value x) = i /\ Qceiling (value x) = i.
Proof.
  intros x i F E. pose proof (value_R x F) as VR. rewrite E in VR.
  assert (V : (value x == inject_Z i)%Q) by (apply eqR_Qeq; rewrite VR, Q2R_Z; reflexivity).
  assert (FL : Qfloor (value x) = i) by (rewrite (Qfloor_comp _ _ V); apply Qfloor_Z).
  split; [|split; [exact FL | rewrite (Qceiling_comp _ _ V); apply Qceiling_Z]].
  pose proof (rep_floor x F) as RF. pose proof (finite_rep x F) as RX. rewrite FL in RF. rewrite VR in RX.
  assert (Z0 : rn32 (IZR i - IZR i) = 0).
  { rewrite Rminus_diag_eq by reflexivity. apply rn32_exact. apply generic_format_0. }
  rewrite <- Z0. apply rep_sub; [exact RX | exact RF |]. rewrite Z0. apply fits_unit. lra.
Qed.

Lemma tri_grid : forall v x y z d r c, wsize v -> (0 <= d < wD v)%Z -> (0 <= r < wH v)%Z -> (0 <= c < wW v)%Z ->
  finite x -> finite y -> finite z -> B2R x = IZR c -> B2R y = IZR r -> B2R z = IZR d -> finite (wat v d r c) ->
  finite (trilinear32 v x y z) /\ B2R (trilinear32 v x y z) = B2R (wat v d r c).
Proof.
  intros v x y z d r c (SD & SH & SW) HD HR HC FX FY FZ EX EY EZ FP.
  destruct (frac_int x c FX EX) as (AX & X0 & X1). destruct (frac_int y r FY EY) as (AY & Y0 & Y1). destruct (frac_int z d FZ EZ) as (AZ & Z0 & Z1).
  unfold trilinear32. cbv zeta. rewrite !floor_tx0, !ceil_tx1 by assumption.
  unfold tx0, tx1. rewrite X0, X1, Y0, Y1, Z0, Z1, !clipZ_in by lia. rewrite wgather_in by assumption.
  assert (PV : rep (wat v d r c) (B2R (wat v d r c))) by (split; [exact FP | reflexivity]).
  set (p := wat v d r c) in *. set (b := B2R p) in *.
  assert (FB : float32 b) by exact (generic_format_B2R 24 128 p).
  assert (BB : Rabs b < bpow radix2 128) by exact (abs_B2R_lt_emax 24 128 p).
  assert (F0 : float32 0) by apply generic_format_0.
  assert (L0 : Rabs 0 < bpow radix2 128) by (rewrite Rabs_R0; apply bpow_gt_0).
  assert (L1 : Rabs 1 < bpow radix2 128) by (apply fits_unit; lra).
  assert (MUL : forall f g s t q, rep f s -> rep g t -> s * t = q -> float32 q -> Rabs q < bpow radix2 128 -> rep (fmul f g) q).
  { intros f g s t q Rf Rg Q FQ BQ. rewrite <- (rn32_exact q FQ), <- Q. apply rep_mul; try assumption. unfold fits. rewrite Q, (rn32_exact q FQ). exact BQ. }
  assert (ADD : forall f g s t q, rep f s -> rep g t -> s + t = q -> float32 q -> Rabs q < bpow radix2 128 -> rep (fadd f g) q).
  { intros f g s t q Rf Rg Q FQ BQ. rewrite <- (rn32_exact q FQ), <- Q. apply rep_add; try assumption. unfold fits. rewrite Q, (rn32_exact q FQ). exact BQ. }
  assert (ONE : rep (f32_ofZ 1) 1) by (apply (rep_ofZ 1); lia).
  assert (CO : forall f, rep f 0 -> rep (fsub (f32_ofZ 1) f) 1).
  { intros f Rf. assert (Q : rn32 (1 - 0) = 1) by (rewrite Rminus_0_r; apply rn32_exact, float32_1).
    rewrite <- Q. apply rep_sub; try assumption. unfold fits. rewrite Q. exact L1. }
  pose proof (CO _ AX) as BX. pose proof (CO _ AY) as BY. pose proof (CO _ AZ) as BZ.
  pose proof float32_1 as F1.
  assert (KEY : forall t0 t1 t2 t3 t4 t5 t6 t7, rep t0 b -> rep t1 0 -> rep t2 0 -> rep t3 0 -> rep t4 0 -> rep t5 0 -> rep t6 0 -> rep t7 0 ->
    rep (fadd (fadd (fadd (fadd (fadd (fadd (fadd t0 t1) t2) t3) t4) t5) t6) t7) b).
  { assert (S1 : forall f g, rep f b -> rep g 0 -> rep (fadd f g) b) by (intros f g H1 H2; apply (ADD f g b 0); try assumption; ring).
    intros. repeat (apply S1; [|assumption]). assumption. }
  assert (Z3 : forall f g h s t q, rep f s -> rep g t -> rep h q -> (s = 0 \/ s = 1) -> (t = 0 \/ t = 1) -> (q = 0 \/ q = 1) ->
    s * t * q = 0 -> rep (fmul p (fmul (fmul f g) h)) 0).
  { intros f g h s t q Rf Rg Rh S T Q E. apply (MUL _ _ b 0); try assumption; [|ring].
    apply (MUL _ _ (s * t) q); try assumption. apply (MUL _ _ s t); try assumption; try reflexivity;
      destruct S as [-> | ->], T as [-> | ->]; rewrite ?Rmult_0_l, ?Rmult_0_r, ?Rmult_1_l; assumption. }
  apply KEY.
  - apply (MUL _ _ b 1); try assumption; [|ring]. apply (MUL _ _ 1 1); try assumption; [|ring]. apply (MUL _ _ 1 1); try assumption; ring.
  - eapply Z3; eauto; ring.
  - eapply Z3; eauto; ring.
  - eapply Z3; eauto; ring.
  - eapply Z3; eauto; ring.
  - eapply Z3; eauto; ring.
  - eapply Z3; eauto; ring.
  - eapply Z3; eauto; ring.
Qed.

(** The exact value lies between the corners. *)
Lemma lerpR : forall w a b lo hi, 0 <= w <= 1 -> lo <= a <= hi -> lo <= b <= hi -> lo <= (1 - w) * a + w * b <= hi.
Proof. intros. split; nra. Qed.

Lemma tri_between : forall v x y z lo hi, wsize v ->
  corners v x y z (fun p => finite p /\ lo <= B2R p <= hi) ->
  lo <= Q2R (trilinear (vvalues v) (value x) (value y) (value z)) <= hi.
Proof.
  intros v x y z lo hi (SD & SH & SW) A.
  destruct (trilinear_axes (vvalues v) (value x) (value y) (value z)) as [_ E]; [repeat split; cbn; lia|].
  rewrite (Qeq_eqR _ _ E). clear E. cbn [vvalues vD vH vW vat].
  destruct (taxis_ok (wW v) (value x) (proj1 SW)) as (_ & _ & X & _). destruct (taxis_ok (wH v) (value y) (proj1 SH)) as (_ & _ & Y & _).
  destruct (taxis_ok (wD v) (value z) (proj1 SD)) as (_ & _ & Z & _).
  assert (U : forall w, (0 <= w <= 1)%Q -> 0 <= Q2R w <= 1).
  { intros w [H1 H2]. apply Qle_Rle in H1, H2. rewrite RMicromega.Q2R_0 in H1. rewrite RMicromega.Q2R_1 in H2. lra. }
  apply U in X, Y, Z.
  assert (P : forall d r c, d = tx0 (wD v) (value z) \/ d = tx1 (wD v) (value z) -> r = tx0 (wH v) (value y) \/ r = tx1 (wH v) (value y) ->
    c = tx0 (wW v) (value x) \/ c = tx1 (wW v) (value x) -> lo <= Q2R (value (wat v d r c)) <= hi).
  { intros d r c D R C. apply corner_iff in D, R, C; try lia. destruct (A d r c D R C) as [F B]. rewrite (value_R _ F). exact B. }
  unfold lerp. rewrite !Q2R_plus, !Q2R_mult, !Q2R_plus, !Q2R_mult, !Q2R_plus, !Q2R_mult, !Q2R_minus, !RMicromega.Q2R_1.
  repeat (apply lerpR; [assumption| |]); apply P; auto.
Qed.
