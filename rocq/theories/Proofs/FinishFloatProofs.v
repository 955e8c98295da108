(** Noise, mask and histogram in float arithmetic. *)
From Coq Require Import List Arith ZArith QArith Qreals Bool Reals Lia Lqa Lra.
From Flocq Require Import Core IEEE754.BinarySingleNaN.
From Verif Require Import Prelude Model.Interp Model.Geometry Model.Render Model.DataGen Model.InterpFloat Model.Hist Model.HistFloat Model.DrawFloat Model.MoveFloat Model.SampleFloat Model.FinishFloat.
From Verif Require Import Spec.RenderSpec Spec.InterpFloatSpec Spec.HistFloatSpec Spec.DrawFloatSpec Spec.KernelFloatSpec Spec.MoveFloatSpec Spec.SampleFloatSpec Spec.FinishFloatSpec.
From Verif Require Import Proofs.InterpProofs Proofs.FloatProofs Proofs.InterpFloatProofs Proofs.InterpBinary Proofs.DrawFloatProofs Proofs.PlaceFloatProofs Proofs.DrawnPixel Proofs.KernelError Proofs.KernelFloatProofs Proofs.KernelImage Proofs.MoveFloatProofs Proofs.HistFloatProofs Proofs.SampleFloatProofs.
Import ListNotations.
Local Open Scope R_scope.
Local Existing Instance p32.

Lemma real_0 : finite (f32_ofZ 0) /\ real (f32_ofZ 0) = 0.
Proof. exact (rep_real _ _ (rep_ofZ 0 ltac:(lia))). Qed.

Lemma real_255 : finite (f32_ofZ 255) /\ real (f32_ofZ 255) = 255.
Proof. exact (rep_real _ _ (rep_ofZ 255 ltac:(lia))). Qed.

Lemma clip_grey : forall x, f32_isnan x = false -> grey (f32_clip (f32_ofZ 0) (f32_ofZ 255) x).
Proof.
  intros x N. destruct real_0 as [F0 E0], real_255 as [F5 E5].
  destruct (clip_lies _ _ x F0 F5 ltac:(lra) N) as [F R]. cbn [fst snd] in R. rewrite E0, E5 in R. split; assumption.
Qed.

(** * Noise at one pixel *)
Section Noise.
Variables (fused : bool) (nu mean std z x : f32) (k : Z).
Hypotheses (WU : within (bpow radix2 100) nu) (NU : 0 <= real nu) (WM : within (bpow radix2 100) mean) (FS : finite std) (FZ : finite z).
Hypotheses (WX : within (bpow radix2 100) x) (K : bits23 k).

Let w := draw32 fused (f32_ofZ 0) nu k.

Lemma uniform_noise : finite w /\ 0 <= real w <= real nu /\ Rabs (real w - unit_of k * real nu) <= 3 * u * real nu + 2 * e32.
Proof.
  destruct real_0 as [F0 E0]. destruct WU as [FU BU].
  assert (B0 : Rabs (real (f32_ofZ 0)) <= bpow radix2 126) by (rewrite E0, Rabs_R0; apply bpow_ge_0).
  assert (B1 : Rabs (real nu) <= bpow radix2 126) by (eapply Rle_trans; [exact BU | apply bpow_le; lia]).
  assert (L : real (f32_ofZ 0) <= real nu) by lra.
  destruct (drawn_lies fused _ _ k F0 FU L B0 B1 K) as [F R]. cbn [fst snd] in R.
  pose proof (drawn_error fused _ _ k F0 FU L B0 B1 K) as E. fold w in F, R, E. rewrite E0 in *. rewrite Rabs_R0, (Rabs_pos_eq (real nu)), Rmax_right in E by exact NU.
  split; [exact F|]. split; [exact R|]. rewrite Rminus_0_r, Rplus_0_l in E. lra.
Qed.

Let s1 := real x + real w.
Let s2 := rn32 s1 + real mean.

Lemma shifted_rep : rep (plus32 (plus32 x w) mean) (rn32 s2) /\ Rabs (rn32 s2) <= bpow radix2 103.
Proof.
  destruct uniform_noise as (FW & RW & _). destruct WU as [FU BU], WM as [FM BM], WX as [FX BX].
  assert (T : forall a, bpow radix2 a + bpow radix2 a = bpow radix2 (a + 1)) by (intros a; rewrite bpow_plus; change (bpow radix2 1) with 2; ring).
  assert (B1 : Rabs s1 <= bpow radix2 101).
  { unfold s1. eapply Rle_trans; [apply Rabs_triang|]. change (bpow radix2 101) with (bpow radix2 (100 + 1)). rewrite <- T. apply Rplus_le_compat; [exact BX|]. rewrite Rabs_pos_eq by lra. rewrite Rabs_pos_eq in BU by exact NU. lra. }
  destruct (rn_bound s1 101 ltac:(lia) B1) as [B1' F1].
  assert (B2 : Rabs s2 <= bpow radix2 103).
  { unfold s2. eapply Rle_trans; [apply Rabs_triang|]. apply Rle_trans with (bpow radix2 101 + bpow radix2 101).
    - apply Rplus_le_compat; [exact B1'|]. eapply Rle_trans; [exact BM | apply bpow_le; lia].
    - rewrite T. apply bpow_le. lia. }
  destruct (rn_bound s2 103 ltac:(lia) B2) as [B2' F2].
  split; [|exact B2']. apply rep_add; [|apply real_rep; exact FM | exact F2].
  apply rep_add; [apply real_rep; exact FX | apply real_rep; exact FW | exact F1].
Qed.

Lemma noise_grey : grey (noise32 fused mean std w z x).
Proof.
  unfold noise32. apply clip_grey. destruct shifted_rep as [S _]. destruct (rep_real _ _ S) as [F _]. apply not_nan_madd; assumption.
Qed.

Lemma noise_error : let size := Rabs (real x) + real nu + Rabs (real mean) + Rabs (real z * real std) in
  size <= bpow radix2 101 ->
  Rabs (real (noise32 fused mean std w z x) - clipped true (real x + (unit_of k * real nu + real mean + real z * real std))) <=
    8 * u * size + bpow radix2 (-147).
Proof.
  intros size SB. destruct uniform_noise as (FW & RW & EW). destruct shifted_rep as [S SB2].
  assert (P0 : 0 <= Rabs (real z * real std)) by apply Rabs_pos. assert (X0 : 0 <= Rabs (real x)) by apply Rabs_pos. assert (M0 : 0 <= Rabs (real mean)) by apply Rabs_pos.
  assert (PB : Rabs (real z * real std) <= bpow radix2 101) by (unfold size in SB; lra).
  destruct (rn_bound _ 101 ltac:(lia) PB) as [PB' PF].
  set (p := moved_by fused (real z) (real std)).
  assert (EP : Rabs (p - real z * real std) <= u * Rabs (real z * real std) + e32).
  { unfold p, moved_by. destruct fused; [|apply rn32_err]. rewrite Rminus_diag_eq, Rabs_R0 by reflexivity. pose proof (proj1 e32_small). pose proof u_pos.
    assert (0 <= u * Rabs (real z * real std)) by (apply Rmult_le_pos; lra). lra. }
  assert (BP : Rabs p <= bpow radix2 101) by (unfold p, moved_by; destruct fused; assumption).
  assert (BS : Rabs (p + rn32 s2) <= bpow radix2 104).
  { eapply Rle_trans; [apply Rabs_triang|]. apply Rle_trans with (bpow radix2 103 + bpow radix2 103).
    - apply Rplus_le_compat; [eapply Rle_trans; [exact BP | apply bpow_le; lia] | exact SB2].
    - replace (bpow radix2 104) with (2 * bpow radix2 103) by (change 2 with (bpow radix2 1); rewrite <- bpow_plus; reflexivity). lra. }
  destruct (rn_bound _ 104 ltac:(lia) BS) as [_ SF].
  pose proof (rep_madd fused z std _ _ _ _ (real_rep z FZ) (real_rep std FS) S PF SF) as R. fold p in R.
  destruct (rep_real _ _ R) as [FR ER]. destruct (clip_255 _ FR) as [_ C]. unfold noise32.
  assert (C' : real (f32_clip (f32_ofZ 0) (f32_ofZ 255) (madd32 fused z std (plus32 (plus32 x w) mean))) = clampR true (rn32 (p + rn32 s2))) by (rewrite <- ER; exact C).
  rewrite C'. change (clipped true) with (clampR true). eapply Rle_trans; [apply clampR_lip|].
  pose proof (rn32_err s1) as E1. pose proof (rn32_err s2) as E2. pose proof (rn32_err (p + rn32 s2)) as E3.
  assert (A1 : Rabs s1 <= Rabs (real x) + real nu).
  { unfold s1. eapply Rle_trans; [apply Rabs_triang|]. rewrite (Rabs_pos_eq (real w)) by lra. lra. }
  pose proof (Rabs_triang (rn32 s1 - s1) s1) as N1. replace (rn32 s1 - s1 + s1) with (rn32 s1) in N1 by ring.
  assert (A2 : Rabs s2 <= Rabs (rn32 s1) + Rabs (real mean)) by (unfold s2; apply Rabs_triang).
  pose proof (Rabs_triang (rn32 s2 - s2) s2) as N2. replace (rn32 s2 - s2 + s2) with (rn32 s2) in N2 by ring.
  pose proof (Rabs_triang (p - real z * real std) (real z * real std)) as N3. replace (p - real z * real std + real z * real std) with p in N3 by ring.
  pose proof (Rabs_triang p (rn32 s2)) as N4. pose proof (proj1 e32_small) as E0.
  assert (TI : bpow radix2 (-147) = 8 * e32) by (unfold e32; change 8 with (bpow radix2 3); rewrite <- bpow_plus; reflexivity). rewrite TI.
  replace (rn32 (p + rn32 s2) - (real x + (unit_of k * real nu + real mean + real z * real std))) with
    ((rn32 (p + rn32 s2) - (p + rn32 s2)) + ((p - real z * real std) + ((rn32 s2 - s2) + ((rn32 s1 - s1) + (real w - unit_of k * real nu))))) by (unfold s2, s1; ring).
  eapply Rle_trans; [apply Rabs_triang|]. eapply Rle_trans; [apply Rplus_le_compat_l; apply Rabs_triang|].
  eapply Rle_trans; [do 2 apply Rplus_le_compat_l; apply Rabs_triang|]. eapply Rle_trans; [do 3 apply Rplus_le_compat_l; apply Rabs_triang|].
  unfold size. unfold u in *. lra.
Qed.
End Noise.

Lemma clamp_255 : forall t, 0 <= clipped true t <= 255.
Proof. intros t. unfold clipped, Rmin, Rmax. destruct (Rle_dec t 0); destruct (Rle_dec _ 255); lra. Qed.

(** Multiplied by a zero or one. *)
Lemma masked_value : forall x m, grey x -> finite m -> real m = 0 \/ real m = 1 -> grey (mult32 x m) /\ real (mult32 x m) = real x * real m.
Proof.
  intros x m [FX BX] FM M.
  assert (E : rn32 (real x * real m) = real x * real m).
  { destruct M as [-> | ->]; [rewrite Rmult_0_r; apply rn32_0|]. rewrite Rmult_1_r. apply round_generic; [apply valid_rnd_N | apply real_float; exact FX]. }
  assert (B : 0 <= real x * real m <= 255) by (destruct M as [-> | ->]; lra).
  assert (FI : fits (rn32 (real x * real m))).
  { rewrite E. apply small_fits. rewrite Rabs_pos_eq by lra. apply Rle_trans with (bpow radix2 8); [change (bpow radix2 8) with 256; lra | apply bpow_le; lia]. }
  pose proof (rep_mul _ _ _ _ (real_rep x FX) (real_rep m FM) FI) as R. rewrite E in R. destruct (rep_real _ _ R) as [F V]. fold (mult32 x m) in F, V.
  split; [split; [exact F|]; rewrite V; exact B | exact V].
Qed.

(** * One image *)
Section One.
Variables (fused : bool) (g : source32) (re : rest32) (pb : Z * Z) (k : key) (im : fimage).
Hypotheses (G : fair g) (NO : noise_ok re) (MO : mask_ok re) (IA : inside_area re pb).
Hypotheses (ROWS : g_rows im = fst pb) (COLS : g_cols im = snd pb).
Hypothesis WI : forall r c, (0 <= r < fst pb)%Z -> (0 <= c < snd pb)%Z -> within (bpow radix2 44) (g_at im r c).

Let before := masked32 re (noisy32 fused g re k im).

Lemma crop_shape : g_rows (crop32 (v_offset re) (v_image re) im) = fst (v_image re) /\ g_cols (crop32 (v_offset re) (v_image re) im) = snd (v_image re).
Proof. unfold crop32, slice_len. cbn [g_rows g_cols]. rewrite ROWS, COLS. destruct IA as (? & ? & ? & ? & ? & ?). split; lia. Qed.

Lemma noisy_at : forall r c, g_at (noisy32 fused g re k im) r c =
  noise32 fused (v_mean re) (v_std re) (draw32 fused (f32_ofZ 0) (v_uniform re) (s_bits g (Child k 0) (Z.to_nat (pixels_of re)) (index_of re r c)))
    (bell_at g re k r c) (g_at im (r + fst (v_offset re)) (c + snd (v_offset re))).
Proof. intros r c. destruct crop_shape as [E1 E2]. unfold noisy32. cbn [g_at]. rewrite E1, E2. reflexivity. Qed.

Lemma noisy_grey : grey_image (v_image re) (noisy32 fused g re k im).
Proof.
  destruct crop_shape as [E1 E2]. split; [exact E1|]. split; [exact E2|]. intros r c R C. rewrite noisy_at.
  destruct NO as (N1 & N2 & N3 & N4). destruct IA as (I1 & I2 & I3 & I4 & I5 & I6). destruct G as [G1 G2].
  destruct (WI (r + fst (v_offset re)) (c + snd (v_offset re)) ltac:(lia) ltac:(lia)) as [FX BX].
  apply noise_grey; [exact N1 | exact N2 | exact N3 | exact N4 | apply G2 | | apply G1].
  split; [exact FX|]. eapply Rle_trans; [exact BX | apply bpow_le; lia].
Qed.

Lemma before_at : forall r c, (0 <= r < fst (v_image re))%Z -> (0 <= c < snd (v_image re))%Z ->
  grey (g_at before r c) /\ real (g_at before r c) = open_at re r c * real (g_at (noisy32 fused g re k im) r c).
Proof.
  intros r c R C. destruct noisy_grey as (_ & _ & A). specialize (A r c R C). unfold before, masked32, open_at. destruct (v_mask re) as [m|] eqn:EM.
  - cbn [g_at]. destruct (MO m EM r c R C) as [FM VM]. destruct (masked_value _ _ A FM VM) as [V1 V2]. split; [exact V1|]. rewrite V2. ring.
  - split; [exact A|]. ring.
Qed.

Lemma before_grey : grey_image (v_image re) before.
Proof.
  destruct noisy_grey as (A & B & _). split; [|split].
  - unfold before, masked32. destruct (v_mask re); exact A.
  - unfold before, masked32. destruct (v_mask re); exact B.
  - intros r c R C. apply before_at; assumption.
Qed.

Lemma open_range : forall r c, (0 <= r < fst (v_image re))%Z -> (0 <= c < snd (v_image re))%Z -> 0 <= open_at re r c <= 1.
Proof. intros r c R C. unfold open_at. destruct (v_mask re) as [m|] eqn:EM; [|lra]. destruct (MO m EM r c R C) as [_ [-> | ->]]; lra. Qed.

Lemma before_error : forall r c s e a, (0 <= r < fst (v_image re))%Z -> (0 <= c < snd (v_image re))%Z ->
  let x := g_at im (r + fst (v_offset re)) (c + snd (v_offset re)) in
  Rabs (real x - s) <= e -> Rabs (real x) <= 2 * a -> 2 * a <= bpow radix2 44 -> noise_size g re k r c <= bpow radix2 100 ->
  Rabs (real (g_at before r c) - open_at re r c * clipped true (s + noise_at g re k r c)) <=
    e + 8 / 16777216 * (2 * a + noise_size g re k r c) + bpow radix2 (-147).
Proof.
  intros r c s e a R C x E X A N. destruct (before_at r c R C) as [_ ->]. rewrite noisy_at. fold x.
  destruct NO as (N1 & N2 & N3 & N4). destruct IA as (I1 & I2 & I3 & I4 & I5 & I6). destruct G as [G1 G2].
  destruct (WI (r + fst (v_offset re)) (c + snd (v_offset re)) ltac:(lia) ltac:(lia)) as [FX BX]. fold x in FX, BX.
  assert (WX : within (bpow radix2 100) x) by (split; [exact FX|]; eapply Rle_trans; [exact BX | apply bpow_le; lia]).
  pose proof (noise_error fused (v_uniform re) (v_mean re) (v_std re) (bell_at g re k r c) x
    (s_bits g (Child k 0) (Z.to_nat (pixels_of re)) (index_of re r c)) N1 N2 N3 N4 (G2 _ _ _) WX (G1 _ _ _)) as NE. cbv zeta in NE.
  fold (noise_at g re k r c) in NE.
  assert (SZ : Rabs (real x) + real (v_uniform re) + Rabs (real (v_mean re)) + Rabs (real (bell_at g re k r c) * real (v_std re)) = Rabs (real x) + noise_size g re k r c) by (unfold noise_size; ring).
  rewrite SZ in NE. set (y := noise32 _ _ _ _ _ _) in *.
  assert (B : Rabs (real x) + noise_size g re k r c <= bpow radix2 101).
  { replace (bpow radix2 101) with (bpow radix2 100 + bpow radix2 100) by (replace (bpow radix2 101) with (2 * bpow radix2 100) by (change 2 with (bpow radix2 1); rewrite <- bpow_plus; reflexivity); ring).
    apply Rplus_le_compat; [apply WX | exact N]. }
  specialize (NE B). pose proof (open_range r c R C) as O.
  rewrite <- Rmult_minus_distr_l, Rabs_mult, (Rabs_pos_eq (open_at re r c)) by lra.
  assert (T : Rabs (real y - clipped true (s + noise_at g re k r c)) <= e + 8 / 16777216 * (2 * a + noise_size g re k r c) + bpow radix2 (-147)).
  { replace (real y - clipped true (s + noise_at g re k r c)) with
      ((real y - clipped true (real x + noise_at g re k r c)) + (clipped true (real x + noise_at g re k r c) - clipped true (s + noise_at g re k r c))) by ring.
    eapply Rle_trans; [apply Rabs_triang|]. change (clipped true) with (clampR true) in *. pose proof (clampR_lip true (real x + noise_at g re k r c) (s + noise_at g re k r c)) as L.
    replace (real x + noise_at g re k r c - (s + noise_at g re k r c)) with (real x - s) in L by ring. unfold u in NE. lra. }
  pose proof (Rabs_pos (real y - clipped true (s + noise_at g re k r c))).
  apply Rle_trans with (1 * Rabs (real y - clipped true (s + noise_at g re k r c))); [apply Rmult_le_compat_r; lra | lra].
Qed.

Lemma finished_grey : forall out, finished32 fused g re k im out -> grey_image (v_image re) out /\ delivered re before out.
Proof.
  intros out F. pose proof before_grey as BG. unfold finished32, delivered in *. destruct (v_histogram re) as [h|].
  - fold before in F. destruct BG as (B1 & B2 & B3). split.
    + destruct F as (cs & ct & _ & _ & E1 & E2 & E3). split; [rewrite E1; exact B1|]. split; [rewrite E2; exact B2|].
      intros r c _ _. rewrite E3. assert (L : (0 <= level32 before cs ct r c <= 255)%Z) by (unfold level32; cbv zeta; apply clipZ_range; lia).
      destruct (rep_real _ _ (rep_ofZ (level32 before cs ct r c) ltac:(lia))) as [F V]. split; [exact F|]. rewrite V.
      split; [apply (IZR_le 0) | apply (IZR_le _ 255)]; lia.
    + intros N H r c R C. destruct IA as (I1 & I2 & I3 & I4 & I5 & I6).
      apply (hist_exact (pixels_of re) before h out); [|exact N | exact H | exact F].
      unfold intensities. rewrite B1, B2. split; [exact I3|]. split; [exact I4|]. split; [reflexivity|].
      intros a b [A B]. rewrite B1 in A. rewrite B2 in B. destruct (B3 a b A B) as [FF V]. split; [exact FF|].
      assert (C5 : Q2R 255 = 255) by exact (Q2R_Z 255). split; apply Rle_Qle; [rewrite Q2R_0 | rewrite C5]; apply V.
  - subst out. split; [exact BG | reflexivity].
Qed.
End One.

(** * Particles of a tame specification *)
Lemma offset_below : forall r c row, in_patch r c row -> Rabs (Q2R (inject_Z row - c)) <= IZR r + 1.
Proof.
  intros r c row [A B]. apply Qle_Rle in A. apply Qlt_Rlt in B. rewrite Q2R_plus, Q2R_1, !Q2R_Z, plus_IZR in B. rewrite Q2R_Z, minus_IZR in A.
  rewrite Q2R_minus, Q2R_Z. apply Rabs_le. lra.
Qed.

Lemma one_axis : forall r c row d, (1 <= r)%Z -> in_patch r c row -> finite d -> 5 / 14 * (IZR r + 1) <= real d ->
  Q2R ((2 * (inject_Z row - c) / value d) * (2 * (inject_Z row - c) / value d)) <= 32.
Proof.
  intros r c row d R I F D. pose proof (offset_below r c row I) as O. assert (R1 : 1 <= IZR r) by (apply (IZR_le 1); exact R).
  assert (D0 : 0 < real d) by lra. assert (NZ : ~ (value d == 0)%Q).
  { intros E. apply Qeq_eqR in E. rewrite Q2R_0 in E. unfold real in D0. lra. }
  rewrite Q2R_mult, Q2R_div' by exact NZ. rewrite Q2R_mult, Q2R_2. fold (real d). set (o := Q2R (inject_Z row - c)) in *.
  assert (B : Rabs (2 * o / real d) <= 28 / 5).
  { unfold Rdiv. rewrite !Rabs_mult, (Rabs_pos_eq 2), (Rabs_pos_eq (/ real d)) by (try apply Rlt_le, Rinv_0_lt_compat; lra).
    apply (Rmult_le_reg_r (real d)); [exact D0|]. rewrite Rmult_assoc, Rinv_l by lra. lra. }
  rewrite <- (Rabs_pos_eq (_ * _)) by apply sq_pos. rewrite Rabs_mult. pose proof (Rabs_pos (2 * o / real d)).
  apply Rle_trans with (28 / 5 * (28 / 5)); [apply Rmult_le_compat; lra | lra].
Qed.

Lemma tame_moderate : forall sp rad dr ir rr lasty lastx row col p, (1 <= rad)%Z -> tame sp rad ->
  In dr (t_diameters sp) -> In ir (t_intensities sp) -> In rr (t_rhos sp) -> within_ranges dr ir rr p -> moderate lasty lastx rad row col p.
Proof.
  intros sp rad dr ir rr lasty lastx row col p R (T1 & T2 & T3) I1 I2 I3 (W1 & W2 & W3 & W4 & W5).
  rewrite Forall_forall in T1, T2, T3. specialize (T1 _ I1). specialize (T2 _ I2). specialize (T3 _ I3).
  destruct T1 as (_ & _ & D1 & _ & _). destruct T2 as (_ & _ & _ & A1 & A2). destruct T3 as (_ & _ & R1 & _ & R2).
  destruct W1 as [X1 X2], W2 as [Y1 Y2], W3 as [Z1 Z2]. assert (C5 : Q2R 255 = 255) by exact (Q2R_Z 255). assert (C2 : Q2R (1 # 2) = / 2) by (unfold Q2R; cbn; lra).
  split; [|split].
  - apply Rle_Qle. rewrite C5. fold (real (q_amp p)). lra.
  - split; apply Rle_Qle; fold (real (q_rho p)); rewrite ?Q2R_opp, C2; lra.
  - intros J1 J2. apply Rle_Qle. unfold spread. rewrite Q2R_plus. change (Q2R 64) with (Q2R (inject_Z 64)). rewrite Q2R_Z.
    pose proof (one_axis rad _ _ (q_dx p) R J2 X1 ltac:(lra)). pose proof (one_axis rad _ _ (q_dy p) R J1 Y1 ltac:(lra)). lra.
Qed.
