(** Property C111: float images against the mathematical picture. *)
From Coq Require Import List Arith ZArith QArith Qround Qreals Qabs Qminmax Bool Reals Lia Lqa Lra.
From Flocq Require Import IEEE754.BinarySingleNaN.
From Verif Require Import Prelude Model.Interp Model.Geometry Model.Render Model.InterpFloat Model.HistFloat Model.DrawFloat.
From Verif Require Import Spec.RenderSpec Spec.InterpFloatSpec Spec.DrawFloatSpec Spec.KernelFloatSpec.
From Verif Require Import Proofs.InterpProofs Proofs.RenderProofs Proofs.FloatProofs Proofs.RoundProofs Proofs.InterpFloatProofs Proofs.InterpBinary Proofs.DrawFloatProofs Proofs.PlaceFloatProofs Proofs.DrawnPixel Proofs.KernelFloatProofs Proofs.KernelImage.
From Verif Require Import Properties.DrawFloatProps.
Import ListNotations.
Local Open Scope R_scope.

(** * C111 *)
(** What a particle adds to a pixel is its Gaussian, up to a rounding that grows
    with the distance and as the kernel thins out. *)
Theorem C111_contribution : forall ex eps H W r lasty lastx p row col v, 0 <= eps <= 1 -> exp_within eps ex ->
  (1 <= r)%Z -> room H W r -> far H r lasty -> far W r lastx -> placed p -> ordinary p ->
  adds ex lasty lastx r p row col (Some v) ->
  let dy := (inject_Z row - drawn_at lasty r (q_y p))%Q in
  let dx := (inject_Z col - drawn_at lastx r (q_x p))%Q in
  finite v /\ Rabs (Q2R (value v) - shine p dy dx) <= tolerance eps p dy dx /\
  (exp_unit ex -> (0 <= value v <= value (q_amp p))%Q).
Proof.
  intros ex eps H W r lasty lastx p row col v EPS EX R1 RM FY FX PL OR A dy dx.
  destruct (contribution ex eps lasty lastx H W r p row col v EPS EX R1 RM FY FX PL OR A) as (K1 & K2 & K3).
  split; [exact K1|]. split; [exact K2|]. intros U. destruct (K3 U) as [L1 L2].
  split; apply Rle_Qle; [rewrite Q2R_0|]; [exact L1 | exact L2].
Qed.
Print Assumptions C111_contribution.

(** A pixel is the sum of the Gaussians of the particles around it, clipped if
    asked for, up to what may be missing of each and the rounding of the sum. *)
Theorem C111_image : forall ex eps ps H W maxd r clip im, 0 <= eps <= 1 -> exp_within eps ex -> exp_unit ex ->
  (0 <= maxd)%Q -> radius_of maxd r -> (1 <= r)%Z -> room H W r -> Forall placed ps -> Forall ordinary ps ->
  (Z.of_nat (List.length ps) <= 2 ^ 23)%Z -> drawn32 ex ps H W maxd clip im ->
  exists lasty lastx, far H r lasty /\ far W r lastx /\
    forall row col, (0 <= row < H)%Z -> (0 <= col < W)%Z ->
    exists n s t a, picture eps lasty lastx r row col ps n s t a /\
      finite (g_at im row col) /\
      Rabs (Q2R (value (g_at im row col)) - clipped clip s) <= t + (Q2R (grow (Nat.pred n)) - 1) * a.
Proof.
  intros ex eps ps H W maxd r clip im EPS EX EU MD RO R1 RM PL OR N D. exists (lastc H r), (lastc W r).
  destruct (lasts H W maxd r MD RO RM) as [F1 F2]. split; [exact F1|]. split; [exact F2|]. intros row col A B.
  exact (picture_pixel ex eps ps H W maxd r clip im row col EPS EX EU MD RO R1 RM PL OR N D A B).
Qed.
Print Assumptions C111_image.

(** With an exponential good to 2^-20, sixteen particles on a pixel, correlations
    up to a half and patches of eight standard deviations: a third of a grey level. *)
Theorem C111_grey : forall ex eps ps H W maxd r clip im, 0 <= eps <= / 1048576 -> exp_within eps ex -> exp_unit ex ->
  (0 <= maxd)%Q -> radius_of maxd r -> (1 <= r)%Z -> room H W r -> Forall placed ps -> Forall ordinary ps ->
  (Z.of_nat (List.length ps) <= 2 ^ 23)%Z -> drawn32 ex ps H W maxd clip im ->
  exists lasty lastx, far H r lasty /\ far W r lastx /\
    forall row col, (0 <= row < H)%Z -> (0 <= col < W)%Z -> Forall (moderate lasty lastx r row col) ps ->
    exists n s t a, picture eps lasty lastx r row col ps n s t a /\
      ((n <= 16)%nat -> Rabs (Q2R (value (g_at im row col)) - clipped clip s) <= / 3).
Proof.
  intros ex eps ps H W maxd r clip im EPS EX EU MD RO R1 RM PL OR N D. exists (lastc H r), (lastc W r).
  destruct (lasts H W maxd r MD RO RM) as [F1 F2]. split; [exact F1|]. split; [exact F2|]. intros row col A B MO.
  destruct (picture_pixel ex eps ps H W maxd r clip im row col ltac:(lra) EX EU MD RO R1 RM PL OR N D A B) as (n & s & t & a & PI & _ & E).
  exists n, s, t, a. split; [exact PI|]. intros N16. eapply Rle_trans; [exact E|].
  destruct (picture_moderate _ _ _ _ _ _ _ _ _ _ _ EPS PI OR MO) as [T A'].
  pose proof (grow_small n N16) as G. assert (I16 : INR n <= 16) by (replace 16 with (INR 16) by (cbn; lra); apply le_INR; exact N16).
  assert (GA : (Q2R (grow (Nat.pred n)) - 1) * a <= / 1000000 * (16 * 255)).
  { apply Rle_trans with (/ 1000000 * a); [apply Rmult_le_compat_r; lra | apply Rmult_le_compat_l; lra]. }
  lra.
Qed.
Print Assumptions C111_grey.

(** Two particles on an image of 6 by 6, drawn with a correctly rounded exponential. *)
Definition leaning : particle32 := mkP32 (f32_ofZ 2) (whole_or_small 5 (-1)) (f32_ofZ 2) (f32_ofZ 3) (whole_or_small 1 (-1)) (f32_ofZ 200).
Definition upright : particle32 := mkP32 (f32_ofZ 2) (f32_ofZ 3) (f32_ofZ 2) (f32_ofZ 2) (f32_ofZ 0) (f32_ofZ 100).

Lemma far_drawn : forall last p, far 6 1 last -> (1 <= value p <= 4)%Q -> (drawn_at last 1 p == value p)%Q.
Proof.
  intros last p (_ & A & _) [B C]. unfold drawn_at. change (inject_Z 6) with 6%Q in A. change (inject_Z 1) with 1%Q in *.
  rewrite (Q.max_r 1 (value p)) by exact B. apply Q.min_r. Lqa.lra.
Qed.

Lemma ordinary_pair : Forall ordinary [leaning; upright] /\ Forall placed [leaning; upright].
Proof.
  split; (constructor; [|constructor; [|constructor]]); unfold ordinary, placed, finite;
    repeat split; vm_compute; first [reflexivity | discriminate].
Qed.

Example C111_case : exp_within (/ 8388608) ex_rn /\ exp_unit ex_rn /\ radius_of (2 # 3) 1 /\ room 6 6 1 /\
  Forall placed [leaning; upright] /\ Forall ordinary [leaning; upright] /\
  (exists im, drawn32 ex_rn [leaning; upright] 6 6 (2 # 3) true im) /\
  forall lasty lastx, far 6 1 lasty -> far 6 1 lastx ->
    Forall (moderate lasty lastx 1 2 3) [leaning; upright] /\
    exists n s t a, picture (/ 8388608) lasty lastx 1 2 3 [leaning; upright] n s t a /\ n = 2%nat /\ a = 300 /\ s = 200 * exp (- / 6) + 100.
Proof.
  destruct ex_rn_ok as [E1 E2]. destruct ordinary_pair as [O P]. split; [exact E1|]. split; [exact E2|].
  split; [unfold radius_of; change (inject_Z 1) with 1%Q; Lqa.lra|]. split; [unfold room; lia|]. split; [exact P|]. split; [exact O|]. split.
  { set (us := flat_map (scatter_one32 ex_rn 6 6 1) [leaning; upright]).
    exists (@mkGimage binary32 6 6 (fun row col => f32_clip (f32_ofZ 0) (f32_ofZ 255) (g_at (forwards 6 6 us) row col))).
    exists (forwards 6 6 us). split; [apply forwards_scattered | reflexivity]. }
  intros lasty lastx FY FX.
  assert (VL1 : (value (q_y leaning) == 2)%Q) by (vm_compute; reflexivity). assert (VL2 : (value (q_x leaning) == 5 # 2)%Q) by (vm_compute; reflexivity).
  assert (VU1 : (value (q_y upright) == 2)%Q) by (vm_compute; reflexivity). assert (VU2 : (value (q_x upright) == 3)%Q) by (vm_compute; reflexivity).
  assert (D1 : (drawn_at lasty 1 (q_y leaning) == 2)%Q) by (rewrite far_drawn by (exact FY || (rewrite VL1; Lqa.lra)); exact VL1).
  assert (D2 : (drawn_at lastx 1 (q_x leaning) == 5 # 2)%Q) by (rewrite far_drawn by (exact FX || (rewrite VL2; Lqa.lra)); exact VL2).
  assert (D3 : (drawn_at lasty 1 (q_y upright) == 2)%Q) by (rewrite far_drawn by (exact FY || (rewrite VU1; Lqa.lra)); exact VU1).
  assert (D4 : (drawn_at lastx 1 (q_x upright) == 3)%Q) by (rewrite far_drawn by (exact FX || (rewrite VU2; Lqa.lra)); exact VU2).
  split.
  - constructor; [|constructor; [|constructor]]; (split; [vm_compute; discriminate|]); (split; [split; vm_compute; discriminate|]); intros _ _;
      unfold spread; rewrite ?D1, ?D2, ?D3, ?D4; vm_compute; discriminate.
  - do 4 eexists. split; [apply pic_in; [| |apply pic_in; [| |apply pic_nil]]; unfold in_patch; rewrite ?D1, ?D2, ?D3, ?D4; split; (reflexivity || (vm_compute; discriminate))|].
    split; [reflexivity|]. split.
    + assert (A1 : Q2R (value (q_amp leaning)) = 200) by (rewrite <- (Q2R_Z 200); apply Qeq_eqR; vm_compute; reflexivity).
      assert (A2 : Q2R (value (q_amp upright)) = 100) by (rewrite <- (Q2R_Z 100); apply Qeq_eqR; vm_compute; reflexivity). rewrite A1, A2. lra.
    + unfold shine.
      assert (A1 : Q2R (value (q_amp leaning)) = 200) by (rewrite <- (Q2R_Z 200); apply Qeq_eqR; vm_compute; reflexivity).
      assert (A2 : Q2R (value (q_amp upright)) = 100) by (rewrite <- (Q2R_Z 100); apply Qeq_eqR; vm_compute; reflexivity). rewrite A1, A2.
      assert (M1 : Q2R (- (mahalanobis (exactly leaning) (inject_Z 2 - drawn_at lasty 1 (q_y leaning)) (inject_Z 3 - drawn_at lastx 1 (q_x leaning)) / 2)) = - / 6).
      { transitivity (Q2R (- (1 # 6))); [apply Qeq_eqR; unfold mahalanobis; rewrite D1, D2; vm_compute; reflexivity | rewrite Q2R_opp; unfold Q2R; cbn; lra]. }
      assert (M2 : Q2R (- (mahalanobis (exactly upright) (inject_Z 2 - drawn_at lasty 1 (q_y upright)) (inject_Z 3 - drawn_at lastx 1 (q_x upright)) / 2)) = 0).
      { transitivity (Q2R 0); [apply Qeq_eqR; unfold mahalanobis; rewrite D3, D4; vm_compute; reflexivity | exact Q2R_0]. }
      rewrite M1, M2, exp_0. lra.
Qed.
