(** Interpolation in binary32. *)
From Coq Require Import List ZArith QArith Qround Qreals Qabs Bool Reals Lia Lqa Lra Psatz.
From Flocq Require Import Core Relative Sterbenz IEEE754.BinarySingleNaN.
From Verif Require Import Prelude Model.Interp Model.Geometry Model.Render Model.InterpFloat.
From Verif Require Import Spec.InterpSpec Spec.InterpFloatSpec.
From Verif Require Import Proofs.InterpProofs Proofs.FloatProofs Proofs.RoundProofs Proofs.InterpFloatProofs.
Local Open Scope R_scope.

(** * Rounding to binary32 *)
Definition rn32 (t : R) : R := round radix2 (SpecFloat.fexp 24 128) (round_mode mode_NE) t.
Definition u32 : R := bpow radix2 (-24).
Definition e32 : R := bpow radix2 (-150).

Lemma u32_small : 0 <= u32 <= / 1024.
Proof. unfold u32. split; [apply bpow_ge_0|]. change (/ 1024) with (bpow radix2 (-10)). apply bpow_le. lia. Qed.

Lemma e32_small : 0 <= e32 <= / 1024.
Proof. unfold e32. split; [apply bpow_ge_0|]. change (/ 1024) with (bpow radix2 (-10)). apply bpow_le. lia. Qed.

Lemma rn32_exact : forall t, float32 t -> rn32 t = t.
Proof. intros t F. unfold rn32. apply round_generic; [apply valid_rnd_round_mode | exact F]. Qed.

Lemma rn32_rounds : rounds u32 e32 rn32.
Proof.
  split.
  - intros t. destruct (error_N_FLT radix2 (-149) 24 ltac:(reflexivity) (fun x => negb (Z.even x)) t) as (ep & et & H1 & H2 & _ & H3).
    change (round radix2 (FLT_exp (-149) 24) (Znearest (fun x => negb (Z.even x))) t) with (rn32 t) in H3. rewrite H3.
    replace (t * (1 + ep) + et - t) with (ep * t + et) by ring.
    eapply Rle_trans; [apply Rabs_triang|]. rewrite Rabs_mult.
    assert (A : / 2 * bpow radix2 (- (24) + 1) = u32) by (change (/ 2) with (bpow radix2 (-1)); rewrite <- bpow_plus; reflexivity).
    assert (B : / 2 * bpow radix2 (-149) = e32) by (change (/ 2) with (bpow radix2 (-1)); rewrite <- bpow_plus; reflexivity).
    rewrite A in H1. rewrite B in H2. apply Rplus_le_compat; [|exact H2].
    apply Rmult_le_compat_r; [apply Rabs_pos | exact H1].
  - intros t F. rewrite (rn32_exact t F), Rminus_diag_eq, Rabs_R0 by reflexivity. apply e32_small.
Qed.

Lemma rn32_pos : forall t, 0 <= t -> 0 <= rn32 t.
Proof.
  intros t H. unfold rn32. apply round_ge_generic; [apply fexp_correct; reflexivity | apply valid_rnd_round_mode | | exact H].
  apply generic_format_0.
Qed.

(** * Floats and the numbers they stand for *)
Definition rep (x : f32) (a : R) : Prop := is_finite x = true /\ B2R x = a.
Definition fits (t : R) : Prop := Rabs t < bpow radix2 128.

Lemma rep_mul : forall x y a b, rep x a -> rep y b -> fits (rn32 (a * b)) ->
  rep (@Bmult 24 128 p32 l32 mode_NE x y) (rn32 (a * b)).
Proof.
  intros x y a b [Fx <-] [Fy <-] B. pose proof (Bmult_correct 24 128 p32 l32 mode_NE x y) as C. fold (rn32 (B2R x * B2R y)) in C.
  rewrite Rlt_bool_true in C by exact B. destruct C as (C1 & C2 & _). rewrite Fx, Fy in C2. split; [exact C2 | exact C1].
Qed.

Lemma rep_add : forall x y a b, rep x a -> rep y b -> fits (rn32 (a + b)) ->
  rep (@Bplus 24 128 p32 l32 mode_NE x y) (rn32 (a + b)).
Proof.
  intros x y a b [Fx <-] [Fy <-] B. pose proof (Bplus_correct 24 128 p32 l32 mode_NE x y Fx Fy) as C. fold (rn32 (B2R x + B2R y)) in C.
  rewrite Rlt_bool_true in C by exact B. destruct C as (C1 & C2 & _). split; [exact C2 | exact C1].
Qed.

Lemma rep_sub : forall x y a b, rep x a -> rep y b -> fits (rn32 (a - b)) ->
  rep (@Bminus 24 128 p32 l32 mode_NE x y) (rn32 (a - b)).
Proof.
  intros x y a b [Fx <-] [Fy <-] B. pose proof (Bminus_correct 24 128 p32 l32 mode_NE x y Fx Fy) as C. fold (rn32 (B2R x - B2R y)) in C.
  rewrite Rlt_bool_true in C by exact B. destruct C as (C1 & C2 & _). split; [exact C2 | exact C1].
Qed.

Lemma rep_ofZ : forall z, (Z.abs z < 2 ^ 24)%Z -> rep (f32_ofZ z) (IZR z).
Proof.
  intros z H. pose proof (binary_normalize_correct 24 128 p32 l32 mode_NE z 0 false) as C. cbv zeta in C.
  assert (V : F2R (Float radix2 z 0) = IZR z) by (unfold F2R; cbn [Fnum Fexp bpow]; ring).
  rewrite V in C. fold (rn32 (IZR z)) in C. rewrite (rn32_exact _ (float32_Z z H)) in C.
  rewrite Rlt_bool_true in C; [destruct C as (C1 & C2 & _); split; [exact C2 | exact C1]|].
  rewrite <- abs_IZR. apply Rlt_le_trans with (IZR (2 ^ 24)); [apply IZR_lt; exact H|].
  change (IZR (2 ^ 24)) with (bpow radix2 24). apply bpow_le. lia.
Qed.

Lemma value_R : forall x, finite x -> Q2R (value x) = B2R x.
Proof.
  intros [s|s| |s m e H] F; try discriminate F; unfold value; cbn [f_val B2R].
  - apply Q2R_0.
  - apply dyadic_R.
Qed.

Lemma value_float : forall x, finite x -> float32 (Q2R (value x)).
Proof. intros x F. rewrite (value_R x F). exact (generic_format_B2R 24 128 x). Qed.

Lemma finite_rep : forall x, finite x -> rep x (Q2R (value x)).
Proof. intros x F. split; [exact F | symmetry; apply value_R; exact F]. Qed.

Lemma rep_leb : forall x y a b, rep x a -> rep y b -> f32_leb x y = true <-> a <= b.
Proof.
  intros x y a b [Fx <-] [Fy <-]. unfold f32_leb. rewrite Bcompare_correct by assumption.
  destruct (Rcompare_spec (B2R x) (B2R y)) as [H|H|H]; (split; [intros K | intros K]); try lra; try reflexivity; discriminate K.
Qed.

Lemma rep_clip : forall lo hi x l h, rep lo (Q2R l) -> rep hi (Q2R h) -> (l <= h)%Q -> finite x ->
  rep (f32_clip lo hi x) (Q2R (clipQ l h (value x))).
Proof.
  intros lo hi x l h L H LH F. pose proof (finite_rep x F) as X.
  assert (N : f32_isnan x = false) by (destruct x; [reflexivity | discriminate F | discriminate F | reflexivity]).
  unfold f32_clip. rewrite N. cbv zeta. pose proof (Qle_Rle _ _ LH) as LHR.
  destruct (clipQ_cases l h (value x) LH) as [(A & ->)|[(A & ->)|((A & B) & ->)]].
  - apply Qlt_Rlt in A. destruct (f32_leb lo x) eqn:E1; [apply (rep_leb _ _ _ _ L X) in E1; lra|].
    rewrite (proj2 (rep_leb _ _ _ _ L H) LHR). exact L.
  - apply Qlt_Rlt in A. rewrite (proj2 (rep_leb _ _ _ _ L X)) by lra.
    destruct (f32_leb x hi) eqn:E1; [apply (rep_leb _ _ _ _ X H) in E1; lra | exact H].
  - apply Qle_Rle in A, B. rewrite (proj2 (rep_leb _ _ _ _ L X)) by lra. rewrite (proj2 (rep_leb _ _ _ _ X H)) by lra. exact X.
Qed.

Lemma floor_clip : forall n x, (1 <= n <= 2 ^ 24)%Z -> finite x -> clipZ 0 (n - 1) (f32_floor x) = ax0 n (value x).
Proof.
  intros n x N F. unfold ax0, value. destruct x as [s|s| |s m e H]; try discriminate F; unfold f32_floor; cbn [f_val].
  - reflexivity.
  - unfold int32, clipZ. lia.
Qed.

(** * The computation *)
Lemma near_fits : forall k S d a A M, near u32 k S d a A -> (k <= 8)%nat -> S <= M -> d <= M + 1 -> M <= bpow radix2 126 -> fits a.
Proof.
  intros k S d a A M N K HS HD HM. pose proof (near_size u32 _ _ _ _ _ N) as Z. pose proof (near_S u32 _ _ _ _ _ N) as P.
  pose proof (pow_small u32 u32_small k K) as PW. unfold fits.
  assert (B1 : bpow radix2 128 = 4 * bpow radix2 126) by (change 4 with (bpow radix2 2); rewrite <- bpow_plus; reflexivity).
  assert (B2 : 16 <= bpow radix2 126) by (change 16 with (bpow radix2 4); apply bpow_le; lia).
  assert ((1 + u32) ^ k * S <= 101 / 100 * S) by (apply Rmult_le_compat_r; assumption). lra.
Qed.

Section Compute.
Variables (im : fimage) (x y : f32) (M : R).
Hypothesis SZ : fsize im.
Hypothesis FX : finite x.
Hypothesis FY : finite y.
Hypothesis AR : around im x y (fun p => finite p /\ Rabs (B2R p) <= M).
Hypothesis BM : M <= bpow radix2 126.

Let V := values im.
Let rn (i : nat) : R -> R := rn32.

Lemma rep_weight : forall n z, (1 <= n <= 2 ^ 24)%Z -> finite z ->
  rep (@Bminus 24 128 p32 l32 mode_NE (f32_clip (f32_ofZ 0) (f32_ofZ (n - 1)) z) (f32_ofZ (ax0 n (value z))))
      (rn32 (Q2R (clipQ 0 (inject_Z n - 1) (value z)) - IZR (ax0 n (value z)))).
Proof.
  intros n z N F. destruct (axis_ok n (value z) (proj1 N)) as (A0 & _).
  destruct (weight_float n (value z) N (value_float z F)) as (WF & WR & WE).
  apply rep_sub.
  - apply rep_clip; [rewrite Q2R_0; apply (rep_ofZ 0); lia | | apply last_nonneg; lia | exact F].
    rewrite last_R, <- minus_IZR. apply rep_ofZ. lia.
  - apply rep_ofZ. lia.
  - rewrite WE, (rn32_exact _ WF). unfold fits. rewrite Rabs_pos_eq by lra.
    apply Rle_lt_trans with 1; [lra|]. change 1 with (bpow radix2 0). apply bpow_lt. lia.
Qed.

Lemma fgather : forall r c, (0 <= r < g_rows im)%Z -> (0 <= c < g_cols im)%Z -> ggather im r c = g_at im r c.
Proof. intros r c R C. unfold ggather. rewrite !gather_index_in by assumption. reflexivity. Qed.

Lemma compute_rep : rep (bilinear32 im x y) (bilinear_in (rounded rn) (real_image rn V) (Q2R (value x)) (Q2R (value y))).
Proof.
  destruct SZ as [SR SC]. assert (NE : nonempty V) by (split; cbn [V values rows cols]; lia).
  rewrite (rounded_axes rn V _ _ NE). cbn [V values rows cols at_]. unfold rn.
  destruct (axes_neighbours (g_rows im) (value y) (proj1 SR)) as (Y0 & Y1 & _).
  destruct (axes_neighbours (g_cols im) (value x) (proj1 SC)) as (X0 & X1 & _).
  unfold bilinear32, bilinear_in.
  cbn [binary32 num_t a_ofZ a_last a_clip a_floor a_add a_sub a_mul].
  rewrite !floor_clip by assumption.
  change (clipZ 0 (g_cols im - 1) (ax0 (g_cols im) (value x) + 1)) with (ax1 (g_cols im) (value x)).
  change (clipZ 0 (g_rows im - 1) (ax0 (g_rows im) (value y) + 1)) with (ax1 (g_rows im) (value y)).
  rewrite !fgather by (first [apply Y0 | apply Y1 | apply X0 | apply X1]).
  pose proof (AR _ _ Y0 X0) as (F00 & B00). pose proof (AR _ _ Y0 X1) as (F10 & B10).
  pose proof (AR _ _ Y1 X0) as (F01 & B01). pose proof (AR _ _ Y1 X1) as (F11 & B11).
  assert (HM : 0 <= M) by (eapply Rle_trans; [apply Rabs_pos | exact B00]).
  rewrite <- (value_R _ F00) in B00. rewrite <- (value_R _ F10) in B10. rewrite <- (value_R _ F01) in B01. rewrite <- (value_R _ F11) in B11.
  apply finite_rep in F00, F10, F01, F11.
  pose proof (rep_weight _ _ SC FX) as RX. pose proof (rep_weight _ _ SR FY) as RY.
  pose proof (rounded_weight u32 e32 rn (fun _ => rn32_rounds) 0 _ _ SC (value_float x FX)) as WX.
  pose proof (rounded_weight u32 e32 rn (fun _ => rn32_rounds) 1 _ _ SR (value_float y FY)) as WY.
  unfold rn in WX, WY.
  set (wx := rn32 (Q2R (clipQ 0 (inject_Z (g_cols im) - 1) (value x)) - IZR (ax0 (g_cols im) (value x)))) in *.
  set (wy := rn32 (Q2R (clipQ 0 (inject_Z (g_rows im) - 1) (value y)) - IZR (ax0 (g_rows im) (value y)))) in *.
  set (fx := @Bminus 24 128 p32 l32 mode_NE (f32_clip _ _ x) _) in *.
  set (fy := @Bminus 24 128 p32 l32 mode_NE (f32_clip _ _ y) _) in *.
  assert (ONE : rep (f32_ofZ 1) 1) by (apply (rep_ofZ 1); lia).
  assert (E1 : e32 <= / 1024 * / 1024).
  { unfold e32. change (/ 1024) with (bpow radix2 (-10)). rewrite <- bpow_plus. apply bpow_le. lia. }
  pose proof e32_small as ES. assert (EM : 0 <= e32 * M <= / 1024 * / 1024 * M) by (split; [apply Rmult_le_pos; lra | apply Rmult_le_compat_r; lra]).
  assert (F1 : forall k S d a A, near u32 k S d a A -> (k <= 8)%nat -> S <= 1 -> d <= 1 -> fits a).
  { intros k S d a A N K H1 H2. apply (near_fits k S d a A 1 N K H1); [lra|].
    change 1 with (bpow radix2 0). apply bpow_le. lia. }
  assert (FM : forall k S d a A, near u32 k S d a A -> (k <= 8)%nat -> S <= M -> d <= M + 1 -> fits a)
    by (intros k S d a A N K H1 H2; exact (near_fits k S d a A M N K H1 H2 BM)).
  set (WXq := Q2R (axw (g_cols im) (value x))) in *. set (WYq := Q2R (axw (g_rows im) (value y))) in *.
  assert (RG : forall a b, 0 <= a <= 1 -> 0 <= b <= 1 -> 0 <= a * b * M <= M).
  { intros a b HA HB. pose proof (w_range a b HA HB) as W. split; [apply Rmult_le_pos; lra|].
    rewrite <- (Rmult_1_l M) at 2. apply Rmult_le_compat_r; lra. }
  pose proof (n_1x u32 e32 rn u32_small e32_small (fun _ => rn32_rounds) _ _ WX 0) as N1X.
  pose proof (n_1y u32 e32 rn u32_small e32_small (fun _ => rn32_rounds) _ _ WY 0) as N1Y.
  pose proof (n_x u32 e32 u32_small e32_small _ _ WX) as NX.
  pose proof (n_y u32 e32 u32_small e32_small _ _ WY) as NY.
  pose proof (proj1 WX) as IX. pose proof (proj1 WY) as IY.
  pose proof (m_range _ IX) as JX. pose proof (m_range _ IY) as JY.
  unfold rn in N1X, N1Y.
  assert (R1X : rep (@Bminus 24 128 p32 l32 mode_NE (f32_ofZ 1) fx) (rn32 (1 - wx)))
    by (apply rep_sub; [exact ONE | exact RX | apply (F1 _ _ _ _ _ N1X); [lia | lra | lra]]).
  assert (R1Y : rep (@Bminus 24 128 p32 l32 mode_NE (f32_ofZ 1) fy) (rn32 (1 - wy)))
    by (apply rep_sub; [exact ONE | exact RY | apply (F1 _ _ _ _ _ N1Y); [lia | lra | lra]]).
  assert (T : forall f g p a b c A B, rep f a -> rep g b -> rep p c -> Rabs c <= M -> 0 <= A <= 1 -> 0 <= B <= 1 ->
    near u32 1 A (3 * e32) a A -> near u32 1 B (3 * e32) b B ->
    rep (@Bmult 24 128 p32 l32 mode_NE (@Bmult 24 128 p32 l32 mode_NE f g) p) (rn32 (rn32 (a * b) * c))).
  { intros f g p a b c A B Rf Rg Rp HC HA HB NA NB.
    pose proof (n_p u32 e32 rn u32_small e32_small (fun _ => rn32_rounds) 0 a A b B HA HB NA NB) as NP.
    pose proof (n_t u32 e32 M rn u32_small e32_small (fun _ => rn32_rounds) HM 0 _ A B c HA HB NP HC) as NT.
    unfold rn in NP, NT. pose proof (w_range A B HA HB) as WR. pose proof (RG A B HA HB) as WM.
    apply rep_mul; [apply rep_mul; [exact Rf | exact Rg | apply (F1 _ _ _ _ _ NP); [lia | lra | lra]] | exact Rp |].
    apply (FM _ _ _ _ _ NT); [lia | lra | lra]. }
  pose proof (T _ _ _ _ _ _ _ _ R1X R1Y F00 B00 JX JY N1X N1Y) as T00.
  pose proof (T _ _ _ _ _ _ _ _ RX R1Y F10 B10 IX JY NX N1Y) as T10.
  pose proof (T _ _ _ _ _ _ _ _ R1X RY F01 B01 JX IY N1X NY) as T01.
  pose proof (T _ _ _ _ _ _ _ _ RX RY F11 B11 IX IY NX NY) as T11.
  pose proof (n_s2 u32 e32 M rn u32_small e32_small (fun _ => rn32_rounds) _ _ _ _ _ _ WX WY HM B00 B10) as N2.
  pose proof (n_s3 u32 e32 M rn u32_small e32_small (fun _ => rn32_rounds) _ _ _ _ _ _ _ WX WY HM B00 B10 B01) as N3.
  pose proof (n_s4 u32 e32 M rn u32_small e32_small (fun _ => rn32_rounds) _ _ _ _ _ _ _ _ WX WY HM B00 B10 B01 B11) as N4.
  unfold s4, s3, s2, c00, c10, c01, c11, rn in N2, N3, N4.
  assert (S3 : (1 - WXq) * (1 - WYq) * M + WXq * (1 - WYq) * M + (1 - WXq) * WYq * M <= M).
  { pose proof (RG _ _ IX IY). replace M with ((1 - WXq) * (1 - WYq) * M + WXq * (1 - WYq) * M + (1 - WXq) * WYq * M + WXq * WYq * M) at 4 by ring. lra. }
  assert (S2 : (1 - WXq) * (1 - WYq) * M + WXq * (1 - WYq) * M <= M) by (pose proof (RG _ _ JX IY); lra).
  apply rep_add; [apply rep_add; [apply rep_add; [exact T00 | exact T10 |] | exact T01 |] | exact T11 |].
  - apply (FM _ _ _ _ _ N2); [lia | exact S2 | lra].
  - apply (FM _ _ _ _ _ N3); [lia | exact S3 | lra].
  - apply (FM _ _ _ _ _ N4); [lia | lra | lra].
Qed.
End Compute.

(** * Theorems *)
Lemma bpow_shift : forall a b, bpow radix2 a * bpow radix2 b = bpow radix2 (a + b).
Proof. intros. symmetry. apply bpow_plus. Qed.

Theorem binary32_error : forall im x y M, fsize im -> finite x -> finite y ->
  around im x y (fun p => finite p /\ Rabs (B2R p) <= M) -> M <= bpow radix2 126 ->
  finite (bilinear32 im x y) /\
  Rabs (B2R (bilinear32 im x y) - Q2R (bilinear (values im) (value x) (value y))) <= bpow radix2 (-21) * M + bpow radix2 (-144).
Proof.
  intros im x y M SZ FX FY AR BM. destruct (compute_rep im x y M SZ FX FY AR BM) as [F ->]. split; [exact F|].
  destruct SZ as [SR SC].
  assert (N0 : neighbour (g_rows im) (value y) (ax0 (g_rows im) (value y))) by (apply axes_neighbours; lia).
  assert (N1 : neighbour (g_cols im) (value x) (ax0 (g_cols im) (value x))) by (apply axes_neighbours; lia).
  assert (HM : 0 <= M) by (eapply Rle_trans; [apply Rabs_pos | apply (AR _ _ N0 N1)]).
  (* the sharper bound, with the underflow part absorbed *)
  assert (B : Rabs (bilinear_in (rounded (fun _ => rn32)) (real_image (fun _ => rn32) (values im)) (Q2R (value x)) (Q2R (value y))
              - Q2R (bilinear (values im) (value x) (value y))) <= ((1 + u32) ^ 7 - 1) * M + (40 * (e32 * M) + 40 * e32)).
  { apply (rounded_sharp u32 e32 M (fun _ => rn32) u32_small e32_small (fun _ => rn32_rounds) (values im) (value x) (value y)
             SR SC (value_float x FX) (value_float y FY)).
    intros r c NR NC. cbn [values at_]. destruct (AR r c NR NC) as [FP BP]. rewrite (value_R _ FP). exact BP. }
  eapply Rle_trans; [exact B|]. pose proof (pow7 u32 u32_small) as P7.
  assert (E1 : 40 * e32 <= bpow radix2 (-144)).
  { replace (bpow radix2 (-144)) with (64 * e32); [pose proof e32_small; lra|].
    unfold e32. change 64 with (bpow radix2 6). rewrite bpow_shift. reflexivity. }
  assert (E2 : 8 * u32 = bpow radix2 (-21)) by (unfold u32; change 8 with (bpow radix2 3); rewrite bpow_shift; reflexivity).
  assert (E3 : 80 * e32 <= u32).
  { apply Rle_trans with (bpow radix2 (-143)); [|unfold u32; apply bpow_le; lia].
    replace (bpow radix2 (-143)) with (128 * e32); [pose proof e32_small; lra|].
    unfold e32. change 128 with (bpow radix2 7). rewrite bpow_shift. reflexivity. }
  assert (((1 + u32) ^ 7 - 1) * M <= 75 / 10 * u32 * M) by (apply Rmult_le_compat_r; assumption).
  assert (80 * e32 * M <= u32 * M) by (apply Rmult_le_compat_r; assumption). rewrite <- E2. lra.
Qed.

Theorem binary32_pos : forall im x y, fsize im -> finite x -> finite y ->
  around im x y (fun p => finite p /\ 0 <= B2R p <= bpow radix2 126) -> 0 <= B2R (bilinear32 im x y).
Proof.
  intros im x y SZ FX FY AR.
  assert (AR' : around im x y (fun p => finite p /\ Rabs (B2R p) <= bpow radix2 126)).
  { intros r c NR NC. destruct (AR r c NR NC) as [F B]. split; [exact F|]. rewrite Rabs_pos_eq; lra. }
  destruct (compute_rep im x y _ SZ FX FY AR' (Rle_refl _)) as [_ ->]. destruct SZ as [SR SC].
  apply rounded_pos; try assumption; try (apply value_float; assumption).
  - intros _ t F. apply rn32_exact. exact F.
  - intros _. exact rn32_pos.
  - intros r c NR NC. cbn [values at_]. destruct (AR r c NR NC) as [F B]. rewrite (value_R _ F). lra.
Qed.

Theorem binary32_grid : forall im x y r c, fsize im -> (0 <= r < g_rows im)%Z -> (0 <= c < g_cols im)%Z ->
  finite x -> finite y -> B2R x = IZR c -> B2R y = IZR r ->
  around im x y (fun p => finite p /\ Rabs (B2R p) <= bpow radix2 126) -> B2R (bilinear32 im x y) = B2R (g_at im r c).
Proof.
  intros im x y r c SZ HR HC FX FY EX EY AR.
  destruct (compute_rep im x y _ SZ FX FY AR (Rle_refl _)) as [_ ->].
  rewrite (value_R x FX), (value_R y FY), EX, EY, <- !Q2R_Z.
  assert (V : (value x == inject_Z c)%Q) by (apply eqR_Qeq; rewrite (value_R x FX), EX, Q2R_Z; reflexivity).
  assert (W : (value y == inject_Z r)%Q) by (apply eqR_Qeq; rewrite (value_R y FY), EY, Q2R_Z; reflexivity).
  assert (GF : finite (g_at im r c)).
  { destruct SZ as [SR SC]. apply (AR r c); (split; [lia|]).
    - exists (inject_Z r). split; [|lra]. unfold nearest. rewrite W. pose proof (inj_le 0 r ltac:(lia)) as P1. pose proof (inj_le r (g_rows im - 1) ltac:(lia)) as P2.
      rewrite inj_sub1 in P2. change (inject_Z 0) with 0%Q in P1. repeat split; intros; lra.
    - exists (inject_Z c). split; [|lra]. unfold nearest. rewrite V. pose proof (inj_le 0 c ltac:(lia)) as P1. pose proof (inj_le c (g_cols im - 1) ltac:(lia)) as P2.
      rewrite inj_sub1 in P2. change (inject_Z 0) with 0%Q in P1. repeat split; intros; lra. }
  rewrite <- (value_R _ GF).
  apply (rounded_grid (fun _ => rn32) (fun _ t F => rn32_exact t F) (values im) r c).
  - destruct SZ. split; cbn [values rows cols]; lia.
  - split; assumption.
  - cbn [values at_]. apply value_float. exact GF.
Qed.

(** * Not a number *)
Lemma finite_mul : forall x y, finite (@Bmult 24 128 p32 l32 mode_NE x y) -> finite x /\ finite y.
Proof. unfold finite. intros [s|s| |s m e H] [t|t| |t n f G] F; try discriminate F; split; reflexivity. Qed.

Lemma finite_add : forall x y, finite (@Bplus 24 128 p32 l32 mode_NE x y) -> finite x /\ finite y.
Proof.
  unfold finite. intros [s|s| |s m e H] [t|t| |t n f G] F; try discriminate F; try (split; reflexivity).
  cbn in F. destruct (Bool.eqb s t); discriminate F.
Qed.

Theorem binary32_nan : forall im x y, fsize im -> finite x -> finite y ->
  finite (bilinear32 im x y) -> around im x y finite.
Proof.
  intros im x y [SR SC] FX FY F r c NR NC.
  destruct (axes_neighbours (g_rows im) (value y) (proj1 SR)) as (Y0 & Y1 & YA).
  destruct (axes_neighbours (g_cols im) (value x) (proj1 SC)) as (X0 & X1 & XA).
  unfold bilinear32, bilinear_in in F.
  cbn [binary32 num_t a_ofZ a_last a_clip a_floor a_add a_sub a_mul] in F.
  rewrite !floor_clip in F by assumption.
  change (clipZ 0 (g_cols im - 1) (ax0 (g_cols im) (value x) + 1)) with (ax1 (g_cols im) (value x)) in F.
  change (clipZ 0 (g_rows im - 1) (ax0 (g_rows im) (value y) + 1)) with (ax1 (g_rows im) (value y)) in F.
  rewrite !fgather in F by (first [apply Y0 | apply Y1 | apply X0 | apply X1]).
  apply finite_add in F. destruct F as [F F11]. apply finite_add in F. destruct F as [F F01].
  apply finite_add in F. destruct F as [F00 F10].
  apply finite_mul in F00, F10, F01, F11.
  destruct (YA r NR) as [->| ->], (XA c NC) as [->| ->]; [apply F00 | apply F10 | apply F01 | apply F11].
Qed.
