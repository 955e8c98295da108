(** Property C112: moving the particles in float arithmetic. *)
From Coq Require Import List Arith ZArith QArith Qround Qreals Qabs Qminmax Bool Reals Lia Lqa Lra.
From Flocq Require Import Core IEEE754.BinarySingleNaN.
From Verif Require Import Prelude Model.Interp Model.Geometry Model.Render Model.InterpFloat Model.HistFloat Model.DrawFloat Model.MoveFloat.
From Verif Require Import Spec.RenderSpec Spec.InterpFloatSpec Spec.DrawFloatSpec Spec.KernelFloatSpec Spec.MoveFloatSpec.
From Verif Require Import Proofs.InterpProofs Proofs.RenderProofs Proofs.FloatProofs Proofs.RoundProofs Proofs.InterpFloatProofs Proofs.InterpBinary Proofs.DrawFloatProofs Proofs.PlaceFloatProofs Proofs.DrawnPixel Proofs.KernelFloatProofs Proofs.KernelImage Proofs.MoveFloatProofs.
From Verif Require Import Properties.DrawFloatProps.
Import ListNotations.
Local Open Scope R_scope.

(** * C112 *)
(** The second position is the first one plus the displacement by the flow sampled
    next to where the particle is, up to rounding. *)
Theorem C112_moved : forall recip pb f dt rx ry y x M, flow_within M f -> M <= bpow radix2 20 -> bounds_ok pb ->
  within (bpow radix2 24) y -> within (bpow radix2 24) x ->
  within (bpow radix2 20) dt -> within (bpow radix2 20) rx -> within (bpow radix2 20) ry ->
  let (y', x') := second_position32 recip pb f dt rx ry (y, x) in
  let ay := steps (h_H f) (fst pb) in let ax := steps (h_W f) (snd pb) in
  finite y' /\ finite x' /\
  exists qy qx, sampled_at ay y qy /\ sampled_at ax x qx /\
    Rabs (real y' - arrives ay y (bilinear (chan1 (flow_of f)) qx qy) ry dt) <= drift ay y M ry dt /\
    Rabs (real x' - arrives ax x (bilinear (chan0 (flow_of f)) qx qy) rx dt) <= drift ax x M rx dt.
Proof. intros. apply moved; assumption. Qed.
Print Assumptions C112_moved.

(** In a uniform flow the displacement is the same everywhere, to a five-hundredth
    of a pixel on images of up to 4096 pixels and displacements of up to 128. *)
Theorem C112_uniform : forall recip pb f dt rx ry y x M u0 v0, uniform32 u0 v0 f -> flow_within M f -> M <= bpow radix2 20 -> bounds_ok pb ->
  within 4096 y -> within 4096 x ->
  within (bpow radix2 20) dt -> within (bpow radix2 20) rx -> within (bpow radix2 20) ry ->
  M * Rabs (real ry) * Rabs (real dt) <= 128 * Q2R (steps (h_H f) (fst pb)) ->
  M * Rabs (real rx) * Rabs (real dt) <= 128 * Q2R (steps (h_W f) (snd pb)) ->
  let (y', x') := second_position32 recip pb f dt rx ry (y, x) in
  Rabs (real y' - real y - real v0 * real ry * real dt * IZR (fst pb) / IZR (h_H f)) <= / 500 /\
  Rabs (real x' - real x - real u0 * real rx * real dt * IZR (snd pb) / IZR (h_W f)) <= / 500.
Proof.
  intros recip pb f dt rx ry y x M u0 v0 U F BM B WY WX WT WRX WRY DY DX. destruct F as (FH & FW & FA). destruct B as [B1 B2].
  assert (W4 : forall z, within 4096 z -> within (bpow radix2 24) z).
  { intros z [F Z]. split; [exact F|]. eapply Rle_trans; [exact Z|]. change 4096 with (bpow radix2 12). apply bpow_le. lia. }
  pose proof (moved recip pb f dt rx ry y x M (conj FH (conj FW FA)) BM (conj B1 B2) (W4 _ WY) (W4 _ WX) WT WRX WRY) as K.
  destruct (second_position32 recip pb f dt rx ry (y, x)) as [y' x']. destruct K as (_ & _ & qy & qx & _ & _ & K1 & K2).
  destruct (uniform_value u0 v0 f qx qy U ltac:(lia) ltac:(lia)) as [E0 E1]. unfold arrives in K1, K2. rewrite E0 in K2. rewrite E1 in K1.
  destruct WY as [_ WY]. destruct WX as [_ WX].
  assert (TI : bpow radix2 (-70) <= / 1048576) by (change (/ 1048576) with (bpow radix2 (-20)); apply bpow_le; lia).
  assert (G : forall n b z (s r : R), (1 <= n < 2 ^ 24)%Z -> (1 <= b < 2 ^ 24)%Z -> Rabs z <= 4096 -> s <= 128 * Q2R (steps n b) ->
    Rabs (r) <= 5 / 16777216 * Rabs z + 1 / 1048576 * (s / Q2R (steps n b)) + bpow radix2 (-70) -> Rabs r <= / 500).
  { intros n b z s r N B Z S R. pose proof (steps_range n b N B) as RG. pose proof (bpow_gt_0 radix2 (-24)). set (c := Q2R (steps n b)) in *.
    assert (s / c <= 128) by (apply Rmult_le_reg_r with c; [lra|]; replace (s / c * c) with s by (field; lra); exact S). lra. }
  assert (Q : forall (v r t : R) n b, (1 <= n)%Z -> (1 <= b)%Z -> v * r * t * IZR b / IZR n = v * r * t / Q2R (steps n b)).
  { intros v r t n b N B. rewrite steps_R by exact B. field. split; apply IZR_neq; lia. }
  rewrite !Q by lia. split.
  - apply (G (h_H f) (fst pb) (real y) (M * Rabs (real ry) * Rabs (real dt)) _ FH B1 WY DY).
    replace (real y' - real y - _) with (real y' - (real y + real v0 * real ry * real dt / Q2R (steps (h_H f) (fst pb)))) by ring. exact K1.
  - apply (G (h_W f) (snd pb) (real x) (M * Rabs (real rx) * Rabs (real dt)) _ FW B2 WX DX).
    replace (real x' - real x - _) with (real x' - (real x + real u0 * real rx * real dt / Q2R (steps (h_W f) (snd pb)))) by ring. exact K2.
Qed.
Print Assumptions C112_uniform.

(** Where there is no flow and the scales are powers of two, nothing moves at all. *)
Theorem C112_still : forall recip pb f dt rx ry y x, (forall r c, (0 <= r < h_H f)%Z -> (0 <= c < h_W f)%Z -> finite (h_u f r c) /\ finite (h_v f r c)) ->
  uniform32 (f32_ofZ 0) (f32_ofZ 0) f -> (1 <= h_H f < 2 ^ 24)%Z -> (1 <= h_W f < 2 ^ 24)%Z -> bounds_ok pb ->
  dyadic_scale (h_H f) (fst pb) -> dyadic_scale (h_W f) (snd pb) ->
  within (bpow radix2 24) y -> within (bpow radix2 24) x -> finite dt -> finite rx -> finite ry ->
  (real y = 0 \/ bpow radix2 (-100) <= Rabs (real y)) -> (real x = 0 \/ bpow radix2 (-100) <= Rabs (real x)) ->
  let (y', x') := second_position32 recip pb f dt rx ry (y, x) in
  finite y' /\ finite x' /\ real y' = real y /\ real x' = real x.
Proof.
  intros recip pb f dt rx ry y x FA U H W [P1 P2] [k1 K1] [k2 K2] WY WX FT FRX FRY SY SX. cbn [second_position32 update32].
  destruct (scaled_ok (h_H f) (fst pb) y H P1 WY) as [[S1 _] _]. destruct (scaled_ok (h_W f) (snd pb) x W P2 WX) as [[S3 _] _].
  assert (Z0 : real (f32_ofZ 0) = 0) by (unfold real; rewrite <- Q2R_0; apply Qeq_eqR; vm_compute; reflexivity).
  assert (U0 : rep (bilinear32 (hchan0 f) (mult32 x (scale32 (h_W f) (snd pb))) (mult32 y (scale32 (h_H f) (fst pb)))) 0).
  { apply no_speed; [split; cbn [hchan0 g_rows g_cols]; lia | exact S3 | exact S1|]. intros r c R C. split; [apply (FA r c R C)|]. rewrite <- Z0. apply (U r c R C). }
  assert (V0 : rep (bilinear32 (hchan1 f) (mult32 x (scale32 (h_W f) (snd pb))) (mult32 y (scale32 (h_H f) (fst pb)))) 0).
  { apply no_speed; [split; cbn [hchan1 g_rows g_cols]; lia | exact S3 | exact S1|]. intros r c R C. split; [apply (FA r c R C)|]. rewrite <- Z0. apply (U r c R C). }
  destruct (still_coord recip (h_H f) (fst pb) y _ ry dt k1 H P1 WY FRY FT V0 ltac:(tauto) K1) as [Y1 Y2].
  destruct (still_coord recip (h_W f) (snd pb) x _ rx dt k2 W P2 WX FRX FT U0 ltac:(tauto) K2) as [X1 X2].
  split; [exact Y1|]. split; [exact X1|]. split; [exact Y2 | exact X2].
Qed.
Print Assumptions C112_still.

(** With other scales the two images of a pair without flow may differ: a particle
    in the middle of 14 by 14 pixels over a flow field of 2 by 2. *)
Definition calm : flow32 := mkFlow32 2 2 (fun _ _ => f32_ofZ 0) (fun _ _ => f32_ofZ 0).
Definition middle : f32 * f32 := (f32_ofZ 7, f32_ofZ 7).
Definition spark (p : f32 * f32) : particle32 := mkP32 (fst p) (snd p) (f32_ofZ 2) (f32_ofZ 2) (f32_ofZ 0) (f32_ofZ 255).
Definition stays (recip : bool) : f32 * f32 := second_position32 recip (14, 14)%Z calm (f32_ofZ 1) (f32_ofZ 1) (f32_ofZ 1) middle.

Lemma stays_value : forall recip, finite (fst (stays recip)) /\ finite (snd (stays recip)) /\
  (value (fst (stays recip)) == 14680063 # 2097152)%Q /\ (value (snd (stays recip)) == 14680063 # 2097152)%Q.
Proof. intros [|]; repeat split; vm_compute; reflexivity. Qed.

Lemma inside : forall last p, far 14 3 last -> (3 <= value p <= 10)%Q -> (drawn_at last 3 p == value p)%Q.
Proof.
  intros last p (_ & A & _) [B C]. unfold drawn_at. change (inject_Z 14) with 14%Q in A. change (inject_Z 3) with 3%Q in *.
  rewrite (Q.max_r 3 (value p)) by exact B. apply Q.min_r. Lqa.lra.
Qed.

Lemma spark_ok : forall p, finite (fst p) -> finite (snd p) -> placed (spark p) /\ ordinary (spark p).
Proof.
  intros p F1 F2. split; [split; assumption|]. unfold ordinary, finite. repeat split; vm_compute; first [reflexivity | discriminate].
Qed.

Lemma exp_tail : 2 / 255 + 1 / 1000 <= exp (- (9 / 2)).
Proof.
  assert (S : forall n, (15 / 16) ^ n <= exp (- (INR n / 16))).
  { induction n as [|n IH]; [cbn [INR pow]; replace (- (0 / 16)) with 0 by field; rewrite exp_0; lra|]. rewrite S_INR. cbn [pow].
    replace (- ((INR n + 1) / 16)) with (- / 16 + - (INR n / 16)) by field. rewrite exp_plus. apply Rmult_le_compat; [lra | apply pow_le; lra | | exact IH].
    pose proof (exp_ineq1_le (- / 16)). lra. }
  specialize (S 72%nat). replace (INR 72 / 16) with (9 / 2) in S by (rewrite INR_IZR_INZ; cbn; lra). eapply Rle_trans; [|exact S].
  cbn [pow]. lra.
Qed.

Theorem C112_still_refuted : exists pb f p, bounds_ok pb /\ flow_within 0 f /\ uniform32 (f32_ofZ 0) (f32_ofZ 0) f /\
  within 14 (fst p) /\ within 14 (snd p) /\
  forall recip ex eps im im', 0 <= eps <= / 1048576 -> exp_within eps ex -> exp_unit ex ->
    drawn32 ex [spark p] (fst pb) (snd pb) 2 false im ->
    drawn32 ex [spark (second_position32 recip pb f (f32_ofZ 1) (f32_ofZ 1) (f32_ofZ 1) p)] (fst pb) (snd pb) 2 false im' ->
    exists row col, (0 <= row < fst pb)%Z /\ (0 <= col < snd pb)%Z /\ real (g_at im row col) >= 2 /\ real (g_at im' row col) = 0.
Proof.
  exists (14, 14)%Z, calm, middle.
  assert (Z0 : real (f32_ofZ 0) = 0) by (unfold real; rewrite <- Q2R_0; apply Qeq_eqR; vm_compute; reflexivity).
  assert (V7 : (value (f32_ofZ 7) == 7)%Q) by (vm_compute; reflexivity). assert (F7 : finite (f32_ofZ 7)) by (vm_compute; reflexivity).
  assert (R7 : within 14 (f32_ofZ 7)) by (split; [exact F7|]; assert (RV : real (f32_ofZ 7) = 7) by (unfold real; rewrite <- (Q2R_Z 7); apply Qeq_eqR; exact V7); rewrite RV, Rabs_pos_eq by lra; lra).
  split; [split; cbn [fst snd]; lia|].
  split; [split; [cbn [calm h_H]; lia|]; split; [cbn [calm h_W]; lia|]; intros r c _ _; cbn [calm h_u h_v]; rewrite Z0, Rabs_R0; split; (split; [vm_compute; reflexivity | lra])|].
  split; [intros r c _ _; split; reflexivity|]. split; [exact R7|]. split; [exact R7|].
  intros recip ex eps im im' EPS EX EU D D'. change (second_position32 recip (14, 14)%Z calm (f32_ofZ 1) (f32_ofZ 1) (f32_ofZ 1) middle) with (stays recip) in D'.
  cbn [fst snd] in *. exists 7%Z, 10%Z. split; [lia|]. split; [lia|].
  assert (MD : (0 <= 2)%Q) by Lqa.lra. assert (RO : radius_of 2 3) by (unfold radius_of; change (inject_Z 3) with 3%Q; Lqa.lra). assert (RM : room 14 14 3) by (unfold room; lia).
  destruct (lasts 14 14 2 3 MD RO RM) as [L1 _]. set (last := lastc 14 3) in *.
  destruct (spark_ok middle F7 F7) as [PL OR]. destruct (stays_value recip) as (FY & FX & VY & VX). destruct (spark_ok (stays recip) FY FX) as [PL' OR'].
  assert (D7 : (drawn_at last 3 (f32_ofZ 7) == 7)%Q) by (rewrite inside by (exact L1 || (rewrite V7; Lqa.lra)); exact V7).
  split.
  - destruct (picture_pixel ex eps [spark middle] 14 14 2 3 false im 7 10 ltac:(lra) EX EU MD RO ltac:(lia) RM ltac:(auto) ltac:(auto) ltac:(cbn; lia) D ltac:(lia) ltac:(lia)) as (n & s & t & a & PI & _ & E).
    fold last in PI. unfold real. cbn [clipped] in E.
    inversion PI as [|p ps n' s' t' a' IY IX PN|p ps n' s' t' a' NI PN]; subst.
    + inversion PN; subst. cbn [Nat.pred grow] in E. change (Q2R (grow 0)) with (Q2R 1) in E. rewrite Q2R_1 in E.
      assert (A : Q2R (value (q_amp (spark middle))) = 255) by (rewrite <- (Q2R_Z 255); apply Qeq_eqR; vm_compute; reflexivity).
      assert (SH : shine (spark middle) (inject_Z 7 - drawn_at last 3 (q_y (spark middle))) (inject_Z 10 - drawn_at last 3 (q_x (spark middle))) = 255 * exp (- (9 / 2))).
      { unfold shine. rewrite A. f_equal. f_equal. transitivity (Q2R (- (9 # 2))); [apply Qeq_eqR; unfold mahalanobis; cbn [spark middle fst snd q_y q_x]; rewrite D7; vm_compute; reflexivity | rewrite Q2R_opp; unfold Q2R; cbn; lra]. }
      assert (SP : Q2R (spread (spark middle) (inject_Z 7 - drawn_at last 3 (q_y (spark middle))) (inject_Z 10 - drawn_at last 3 (q_x (spark middle)))) = 9).
      { rewrite <- (Q2R_Z 9). apply Qeq_eqR. unfold spread. cbn [spark middle fst snd q_y q_x]. rewrite D7. vm_compute. reflexivity. }
      assert (FT : Q2R (fatness (spark middle)) = 1) by (rewrite <- Q2R_1; apply Qeq_eqR; vm_compute; reflexivity).
      rewrite SH in E. unfold tolerance in E. rewrite A, SP, FT in E. pose proof exp_tail as X.
      assert (T : / 2 ^ 150 <= / 1000000).
      { rewrite tiny_e32. unfold e32. apply Rle_trans with (bpow radix2 (-20)); [apply bpow_le; lia|]. change (bpow radix2 (-20)) with (/ 1048576). lra. }
      apply Rabs_le_inv in E. lra.
    + exfalso. apply NI. cbn [spark middle fst snd q_y q_x]. unfold in_patch. rewrite D7. split; vm_compute; split; (reflexivity || discriminate).
  - destruct (picture_pixel ex eps [spark (stays recip)] 14 14 2 3 false im' 7 10 ltac:(lra) EX EU MD RO ltac:(lia) RM ltac:(auto) ltac:(auto) ltac:(cbn; lia) D' ltac:(lia) ltac:(lia)) as (n & s & t & a & PI & _ & E).
    fold last in PI. unfold real. cbn [clipped] in E.
    inversion PI as [|p ps n' s' t' a' IY IX PN|p ps n' s' t' a' NI PN]; subst.
    + exfalso. cbn [spark q_x snd] in IX. assert (DX : (drawn_at last 3 (snd (stays recip)) == 14680063 # 2097152)%Q) by (rewrite inside by (exact L1 || (rewrite VX; split; vm_compute; discriminate)); exact VX).
      unfold in_patch in IX. rewrite DX in IX. vm_compute in IX. destruct IX as [I1 I2]. first [discriminate I2 | discriminate I1 | (apply I2; reflexivity) | (apply I1; reflexivity)].
    + inversion PN; subst. rewrite Rmult_0_r, Rplus_0_r, Rminus_0_r in E. pose proof (Rabs_pos (Q2R (value (g_at im' 7%Z 10%Z)))) as P.
      destruct (Req_dec (Q2R (value (g_at im' 7%Z 10%Z))) 0) as [X|X]; [exact X|]. apply Rabs_pos_lt in X. lra.
Qed.
Print Assumptions C112_still_refuted.

(** A uniform flow of half a grid step per unit of time over 16 by 16 grid points
    and 32 by 32 pixels. *)
Definition breeze : flow32 := mkFlow32 16 16 (fun _ _ => whole_or_small 1 (-1)) (fun _ _ => f32_ofZ (-3)).
Example C112_case : uniform32 (whole_or_small 1 (-1)) (f32_ofZ (-3)) breeze /\ flow_within 3 breeze /\ bounds_ok (32, 32)%Z /\
  within 4096 (f32_ofZ 20) /\ within 4096 (whole_or_small 21 (-2)) /\ dyadic_scale 16 32 /\
  let (y', x') := second_position32 false (32, 32)%Z breeze (f32_ofZ 1) (f32_ofZ 1) (f32_ofZ 1) (f32_ofZ 20, whole_or_small 21 (-2)) in
  (value y' == 14)%Q /\ (value x' == 25 # 4)%Q.
Proof.
  assert (V1 : real (whole_or_small 1 (-1)) = / 2) by (unfold real; transitivity (Q2R (1 # 2)); [apply Qeq_eqR; vm_compute; reflexivity | unfold Q2R; cbn; lra]).
  assert (V2 : real (f32_ofZ (-3)) = -3) by (unfold real; rewrite <- (Q2R_Z (-3)); apply Qeq_eqR; vm_compute; reflexivity).
  assert (V3 : real (f32_ofZ 20) = 20) by (unfold real; rewrite <- (Q2R_Z 20); apply Qeq_eqR; vm_compute; reflexivity).
  assert (V4 : real (whole_or_small 21 (-2)) = 21 / 4) by (unfold real; transitivity (Q2R (21 # 4)); [apply Qeq_eqR; vm_compute; reflexivity | unfold Q2R; cbn; lra]).
  split; [intros r c _ _; split; reflexivity|].
  split; [split; [cbn [breeze h_H]; lia|]; split; [cbn [breeze h_W]; lia|]; intros r c _ _; cbn [breeze h_u h_v]; rewrite V1, V2; split;
    (split; [vm_compute; reflexivity | unfold Rabs; destruct (Rcase_abs _); lra])|].
  split; [split; cbn [fst snd]; lia|].
  split; [split; [vm_compute; reflexivity | rewrite V3, Rabs_pos_eq by lra; lra]|].
  split; [split; [vm_compute; reflexivity | rewrite V4, Rabs_pos_eq by lra; lra]|].
  split; [exists (-1)%Z; rewrite steps_R by lia; cbn [bpow]; change (Z.pow_pos radix2 1) with 2%Z; lra|].
  split; vm_compute; reflexivity.
Qed.
