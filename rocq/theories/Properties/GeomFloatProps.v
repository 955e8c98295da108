(** Property C117: the geometry of the synthetic sampler in float arithmetic. *)
From Coq Require Import List Arith ZArith QArith Qround Qreals Qabs Qminmax Bool Reals Lia Lqa Lra.
From Flocq Require Import Core IEEE754.BinarySingleNaN.
From Verif Require Import Prelude Model.Interp Model.Apply Model.Geometry Model.DataGen Model.Render Model.InterpFloat Model.HistFloat Model.DrawFloat Model.MoveFloat Model.SampleFloat Model.FinishFloat Model.AdaptFloat Model.SceneFloat.
From Verif Require Import Spec.InterpSpec Spec.RenderSpec Spec.GeometrySpec Spec.InterpFloatSpec Spec.LipschitzSpec Spec.DrawFloatSpec Spec.KernelFloatSpec Spec.MoveFloatSpec Spec.SampleFloatSpec Spec.FinishFloatSpec Spec.SceneFloatSpec.
From Verif Require Import Proofs.FloatGeometry Proofs.InterpFloatProofs Proofs.InterpBinary Proofs.KernelImage Proofs.SampleFloatProofs Proofs.AdaptFloatProofs Proofs.GeomFloatProofs.
From Verif Require Import Properties.GeometryProps Properties.SampleFloatProps Properties.FinishFloatProps Properties.AdaptFloatProps Properties.SceneFloatProps.
From Verif Require Import Spec.AdaptFloatSpec Spec.GeomFloatSpec.
Import ListNotations.
Local Open Scope R_scope.

(** * C117 *)

(** The area reaches upstream and downstream of the image as far as particles
    move, short of little more than one pixel; the image is inside the area, or
    sticks out by one pixel; and the area has no more than the patch of a particle
    to spare. *)
Theorem C117_margins : forall c g, plausible c -> construct float64 c = Ok g -> forall y,
  (0 <= sel y (o_off g))%Z /\ (sel y (o_off g) + sel y (g_image c) <= sel y (o_pb g) + 1)%Z /\
  (upstream y c * double (g_res c) - (1048577 # 1048576) < inject_Z (sel y (o_off g)))%Q /\
  (downstream y c * double (g_res c) - (1048577 # 1048576) < inject_Z (sel y (o_pb g) - sel y (o_off g) - sel y (g_image c)))%Q /\
  (inject_Z (sel y (o_pb g)) <= inject_Z (sel y (g_image c)) + (upstream y c + downstream y c) * double (g_res c) + 3 * double (g_maxd c) + 3)%Q.
Proof.
  intros c g P E y. pose proof (geom_margins c g P E y) as GM. cbv beta zeta in GM. destruct GM as (M0 & M1 & M2 & M3 & M4). split; [exact M0|]. split; [exact M1|].
  assert (T : Q2R (1048577 # 1048576) = 1 + / 1048576) by (unfold Q2R; cbn [Qnum Qden]; lra). assert (T3 : Q2R 3 = 3) by exact (Q2R_Z 3).
  split; [apply Rlt_Qlt; rewrite Q2R_minus, Q2R_mult, T, Q2R_Z; exact M2|].
  split; [apply Rlt_Qlt; rewrite Q2R_minus, Q2R_mult, T, Q2R_Z; exact M3|].
  apply Rle_Qle. rewrite !Q2R_plus, !Q2R_mult, !Q2R_plus, !Q2R_Z, T3. exact M4.
Qed.
Print Assumptions C117_margins.

(** The image starts where it was asked to start in the flow field, up to one and a
    half grid steps and a pixel. *)
Theorem C117_place : forall c g, plausible c -> construct float64 c = Ok g -> forall y,
  (Qabs (image_start y c g - double (sel y (g_off c)) * double (sel y (o_res g))) <= (3 # 2) + double (sel y (o_res g)) / double (g_res c))%Q.
Proof.
  intros c g P E y. pose proof (geom_place c g P E y) as G. cbv beta zeta in G. destruct (res_R c P) as [_ RHO].
  assert (RN : ~ (double (g_res c) == 0)%Q) by (intros H; apply Qeq_eqR in H; rewrite Q2R_0 in H; pose proof (bpow_gt_0 radix2 (-20)); lra).
  assert (T : Q2R (3 # 2) = 3 / 2) by (unfold Q2R; cbn [Qnum Qden]; lra).
  apply Rle_Qle. rewrite Q2R_plus, Q2R_div, T by exact RN. rewrite <- Q2R_mult, <- Q2R_minus in G. revert G. set (d := (image_start y c g - _)%Q). intros G.
  apply Qabs_case; intros _; [eapply Rle_trans; [apply Rle_abs | exact G]|]. rewrite Q2R_opp. eapply Rle_trans; [|exact G]. rewrite <- Rabs_Ropp. apply Rle_abs.
Qed.
Print Assumptions C117_place.

(** What the adapter is given is what C115 and C116 ask of it. *)
Theorem C117_ready : forall c g batch pixels, plausible c -> construct float64 c = Ok g ->
  let a := adapter64_of c g batch pixels in
  usual a /\ reach (4 * IZR (Z.max (fst (g_ffshape c)) (snd (g_ffshape c))) + 2) a /\ (fst (covered a) <= 8388608)%Q /\ (snd (covered a) <= 8388608)%Q /\
  (forall f, h_H f = fst (g_ffshape c) -> h_W f = snd (g_ffshape c) -> pad_room a f) /\
  ((3 <= image_span true c * double (fst (o_res g)))%Q -> (1 <= fst (covered a))%Q) /\ ((3 <= image_span false c * double (snd (o_res g)))%Q -> (1 <= snd (covered a))%Q).
Proof.
  intros c g batch pixels P E a. destruct (res_R c P) as [_ RHO]. assert (RP : 0 < Q2R (double (g_res c))) by (pose proof (bpow_gt_0 radix2 (-20)); lra).
  assert (RN : ~ (double (g_res c) == 0)%Q) by (intros H; apply Qeq_eqR in H; rewrite Q2R_0 in H; lra).
  destruct (geom_sizes c g P E true) as (Y1 & Y2 & Y3 & Y4 & Y5 & Y6 & Y7 & Y8 & Y9 & Y10 & Y11 & Y12).
  destruct (geom_sizes c g P E false) as (X1 & X2 & X3 & X4 & X5 & X6 & X7 & X8 & X9 & X10 & X11 & X12). cbn [sel] in *. cbv beta zeta in Y9, Y10, Y11, Y12, X9, X10, X11, X12.
  pose proof (axis_reals c P true) as (_ & _ & _ & _ & N2 & _). pose proof (axis_reals c P false) as (_ & _ & _ & _ & N2' & _). cbn [sel] in N2, N2'.
  assert (LM : forall p q, IZR p <= IZR (Z.max p q)) by (intros p q; apply IZR_le; lia). assert (LM' : forall p q, IZR q <= IZR (Z.max p q)) by (intros p q; apply IZR_le; lia).
  pose proof (LM (fst (g_ffshape c)) (snd (g_ffshape c))) as L1. pose proof (LM' (fst (g_ffshape c)) (snd (g_ffshape c))) as L2.
  assert (E8 : Q2R 8388608 = 8388608) by exact (Q2R_Z 8388608). assert (E3 : Q2R 3 = 3) by exact (Q2R_Z 3). assert (E1 : Q2R 1 = 1) by exact (Q2R_Z 1).
  assert (IL : forall y, Q2R (image_span y c) = IZR (sel y (g_image c)) / Q2R (double (g_res c))) by (intros y; unfold image_span; rewrite Q2R_div, Q2R_Z by exact RN; reflexivity).
  assert (CV : forall n, 2 <= n -> forall r x, 0 < r -> 3 <= n / Q2R (double (g_res c)) * r -> (n - 1 - / 1000) / Q2R (double (g_res c)) * r <= x -> 1 <= x).
  { intros n N r x R A B. eapply Rle_trans; [|exact B]. apply Rle_trans with (/ 3 * (n / Q2R (double (g_res c)) * r)); [lra|].
    replace (/ 3 * (n / Q2R (double (g_res c)) * r)) with (/ 3 * n * (/ Q2R (double (g_res c)) * r)) by (unfold Rdiv; ring).
    replace ((n - 1 - / 1000) / Q2R (double (g_res c)) * r) with ((n - 1 - / 1000) * (/ Q2R (double (g_res c)) * r)) by (unfold Rdiv; ring).
    apply Rmult_le_compat_r; [apply Rmult_le_pos; [apply Rlt_le, Rinv_0_lt_compat; exact RP | lra] | lra]. }
  assert (OP : forall x, ordinary x -> 0 < Q2R (double x)) by (intros x O; destruct (ordinary_R _ O) as [_ O1]; pose proof (bpow_gt_0 radix2 (-20)); lra).
  destruct P as (PO & PT & _).
  split.
  { split; [split; [exact PO | split; [exact X1 | exact Y1]]|]. split; [split; [exact Y2 | exact X2]|]. split; [split; [exact Y3 | exact X3]|].
    split; [split; [exact Y4 | exact X4]|]. split; [split; [exact Y5 | exact X5]|]. split; [split; [exact Y6 | exact X6]|].
    split; [|split; [exact Y7 | exact X7]]. destruct PT as (T1 & T2 & T3). split; [exact T1|]. cbn [a adapter64_of b_dt]. rewrite Qabs_pos by exact T2. exact T3. }
  split.
  { unfold reach. cbv beta zeta. cbn [a adapter64_of b_pbo b_off b_image b_rx b_ry b_res b_pb]. repeat rewrite Q2R_plus. repeat rewrite Q2R_mult. rewrite !Q2R_div, !Q2R_Z by exact RN. split; [eapply Rle_trans; [exact Y9 | lra]|]. split; [eapply Rle_trans; [exact X9 | lra]|]. split; [eapply Rle_trans; [exact Y10 | lra] | eapply Rle_trans; [exact X10 | lra]]. }
  split; [apply Rle_Qle; cbn [a adapter64_of covered fst b_pb b_res b_ry]; rewrite Q2R_mult, Q2R_div, Q2R_Z, E8 by exact RN; exact Y12|].
  split; [apply Rle_Qle; cbn [a adapter64_of covered snd b_pb b_res b_rx]; rewrite Q2R_mult, Q2R_div, Q2R_Z, E8 by exact RN; exact X12|].
  split; [intros f F1 F2; split; [rewrite F1; exact Y8 | rewrite F2; exact X8]|].
  split; intros H; apply Qle_Rle in H; rewrite E3, Q2R_mult, IL in H; apply Rle_Qle; rewrite E1; cbn [a adapter64_of covered fst snd b_pb b_res b_ry b_rx]; rewrite Q2R_mult, Q2R_div, Q2R_Z by exact RN.
  - exact (CV _ N2 _ _ (OP _ Y1) H Y11).
  - exact (CV _ N2' _ _ (OP _ X1) H X11).
Qed.
Print Assumptions C117_ready.

(** From the arguments of the constructor to the images: for uniform flows of the
    configured shape, every particle moves what is reported, but for one factor per
    axis and rounding. *)
Theorem C117_uniform : forall eps ex w fused recip s sp re c g batch rad M fs, plausible c -> construct float64 c = Ok g ->
  let a := adapter64_of c g batch true in
  (3 <= image_span true c * double (fst (o_res g)))%Q -> (3 <= image_span false c * double (snd (o_res g)))%Q -> fs <> [] ->
  Forall (fun f => flow_within M f /\ (exists u v, uniform32 u v f) /\ h_H f = fst (g_ffshape c) /\ h_W f = snd (g_ffshape c)) fs -> M <= bpow radix2 19 ->
  setup eps ex s (spec_for a sp) (rest_for a re) (o_pb g) (to_f32 (snd (o_res g))) (to_f32 (fst (o_res g))) [] rad ->
  forall k pairs reps, scene32 ex w fused recip s sp re a k fs pairs reps ->
  exists rho_y rho_x, stretch (inject_Z (fst (o_pb g)) / double (g_res c)) (fst (covered a)) rho_y /\ stretch (inject_Z (snd (o_pb g)) / double (g_res c)) (snd (covered a)) rho_x /\
  forall i o1 o2, nth_error pairs i = Some (o1, o2) ->
    exists o ps1 ps2, nth_error reps i = Some o /\ h_H o = fst (o_out g) /\ h_W o = snd (o_out g) /\
      sampled fused recip s (spec_for a sp) (rest_for a re) (o_pb g) (to_f32 (snd (o_res g))) (to_f32 (fst (o_res g))) k i ps1 ps2 /\
      let key_i := Child (Child k 0) i in
      pictured eps s (rest_for a re) (o_pb g) rad (Child key_i 4) ps1 o1 /\ pictured eps s (rest_for a re) (o_pb g) rad (Child key_i 5) ps2 o2 /\
      Forall2 (follows rho_y rho_x o) ps1 ps2.
Proof.
  intros eps ex w fused recip s sp re c g batch rad M fs P E a IY IX NE FW M19 ST k pairs reps SC.
  destruct (C117_ready c g batch true P E) as (U & RB & CY & CX & PR & LY & LX). fold a in U, RB, CY, CX, PR, LY, LX.
  apply (C116_uniform eps ex w fused recip s sp re a rad _ M fs U RB eq_refl (conj (LY IY) CY) (conj (LX IX) CX) NE); try assumption.
  eapply Forall_impl; [|exact FW]. cbv beta. intros f (F1 & F2 & F3 & F4). split; [exact F1|]. split; [exact F2|]. apply PR; assumption.
Qed.
Print Assumptions C117_uniform.

(** An image of 256 by 128 pixels in a flow field of 90 by 80 length units. *)
Definition dyadic_geom : geom float64 :=
  match construct float64 dyadic_cfg with
  | Ok g => g
  | Err _ => mkGeom float64 (f64_ofZ 0, f64_ofZ 0) (0, 0)%Z (0, 0)%Z (f64_ofZ 0, f64_ofZ 0) (0, 0)%Z (0, 0)%Z (f64_ofZ 0, f64_ofZ 0) (f64_ofZ 0, f64_ofZ 0)
  end.
Lemma dyadic_accepted : construct float64 dyadic_cfg = Ok dyadic_geom.
Proof. unfold dyadic_geom. destruct (ok_test (construct float64 dyadic_cfg) (fun _ => true)) as (g & E & _); [vm_cast_no_check (eq_refl true)|]. rewrite E. reflexivity. Qed.
Lemma dyadic_plausible : plausible dyadic_cfg.
Proof.
  split; [split; [vm_compute; reflexivity | split; vm_compute; discriminate]|]. split; [split; [vm_compute; reflexivity | split; vm_compute; discriminate]|].
  split; [split; [vm_compute; reflexivity | split; vm_compute; discriminate]|]. split; [vm_compute; reflexivity|].
  intros [|]; unfold plausible_axis; (split; [repeat split; vm_compute; reflexivity|]); (split; [vm_compute; discriminate|]); (split; [split; vm_compute; discriminate|]); repeat split; vm_compute; try discriminate; reflexivity.
Qed.
Example C117_case : plausible dyadic_cfg /\ construct float64 dyadic_cfg = Ok dyadic_geom /\
  o_off dyadic_geom = (9, 9)%Z /\ o_pb dyadic_geom = (269, 137)%Z /\
  (3 <= image_span true dyadic_cfg * double (fst (o_res dyadic_geom)))%Q /\ (3 <= image_span false dyadic_cfg * double (snd (o_res dyadic_geom)))%Q.
Proof.
  split; [exact dyadic_plausible|]. split; [exact dyadic_accepted|]. split; [vm_compute; reflexivity|]. split; [vm_compute; reflexivity|].
  split; vm_compute; discriminate.
Qed.

(** Batches of three from this geometry, with the noise and the mask of C114 and a
    uniform flow. *)
Definition wind : flow32 := mkFlow32 100 90 (fun _ _ => f32_ofZ 1) (fun _ _ => f32_ofZ (-1)).
Example C117_case_batch :
  let a := adapter64_of dyadic_cfg dyadic_geom 3 true in
  Forall (fun f => flow_within 1 f /\ (exists u v, uniform32 u v f) /\ h_H f = fst (g_ffshape dyadic_cfg) /\ h_W f = snd (g_ffshape dyadic_cfg)) [wind] /\ 1 <= bpow radix2 19 /\
  setup (/ 8388608) ex_rn halves (spec_for a plain) (rest_for a (FinishFloatProps.usual None)) (o_pb dyadic_geom) (to_f32 (snd (o_res dyadic_geom))) (to_f32 (fst (o_res dyadic_geom))) [] 1 /\
  forall w, exists pairs reps, scene32 ex_rn w true false halves plain (FinishFloatProps.usual None) a (Seed 3) [wind] pairs reps.
Proof.
  intros a. destruct (C114_case None) as ((S1 & S2 & S3 & S4 & S5 & S6 & S7 & S8 & S9 & S10 & S11 & _) & _).
  destruct (C117_ready dyadic_cfg dyadic_geom 3 true dyadic_plausible dyadic_accepted) as (U & _ & CY & CX & _).
  assert (TW : forall x, finite x -> (- 4 <= value x)%Q -> (value x <= 4)%Q -> within (bpow radix2 20) x).
  { intros x F A B. split; [exact F|]. unfold real. apply Qle_Rle in A, B. change (- 4)%Q with (inject_Z (-4)) in A. change 4%Q with (inject_Z 4) in B. rewrite Q2R_Z in A, B.
    change (bpow radix2 20) with 1048576. apply Rabs_le. lra. }
  assert (NN : exists n, num64 (o_pb dyadic_geom) (snd (v_density (FinishFloatProps.usual None))) = Some n /\ (n <= 2 ^ 23)%Z).
  { assert (B : match num64 (o_pb dyadic_geom) (snd (v_density (FinishFloatProps.usual None))) with Some n => (n <=? 2 ^ 23)%Z | None => false end = true) by (vm_compute; reflexivity).
    destruct (num64 (o_pb dyadic_geom) _) as [n|]; [|discriminate]. exists n. split; [reflexivity|]. apply Z.leb_le. exact B. }
  destruct NN as (n & EN & LN).
  split.
  { constructor; [|constructor]. split; [split; [cbn; lia|]; split; [cbn; lia|]|split; [|split; reflexivity]].
    - intros r c _ _. assert (R1 : rep (f32_ofZ 1) 1) by exact (rep_ofZ 1 ltac:(lia)). assert (R2 : rep (f32_ofZ (-1)) (-1)) by exact (rep_ofZ (-1) ltac:(lia)). cbn [wind h_u h_v].
      unfold real. rewrite !value_R by (apply R1 || apply R2). rewrite (proj2 R1), (proj2 R2). split; (split; [apply R1 || apply R2|]); [rewrite Rabs_pos_eq; lra | rewrite Rabs_left; lra].
    - exists (f32_ofZ 1), (f32_ofZ (-1)). intros r c _ _. split; reflexivity. }
  split; [change (bpow radix2 19) with 524288; lra|].
  split.
  { split; [exact S1|]. split; [exact S2|]. split; [exact S3|]. split; [exact S4|]. split.
    - destruct S5 as (P1 & P2 & P3 & P4 & P5 & P6 & P7 & P8 & P9 & _). repeat (split; [assumption|]). apply TW; [vm_compute; reflexivity | vm_compute; discriminate | vm_compute; discriminate].
    - split; [exact S6|]. split.
      { intros m E r c _ _. cbn [FinishFloatProps.usual rest_for v_mask] in E. injection E as <-. cbn [checker g_at]. pose proof (Z.mod_pos_bound (r + c) 2 ltac:(lia)) as MB.
        destruct (rep_real _ _ (rep_ofZ ((r + c) mod 2) ltac:(lia))) as [F V]. split; [exact F|]. rewrite V. assert (C : ((r + c) mod 2 = 0 \/ (r + c) mod 2 = 1)%Z) by lia.
        destruct C as [-> | ->]; [left | right]; reflexivity. }
      split; [unfold inside_area; vm_compute; repeat split; discriminate|]. split; [exact S9|]. split; [exact S10|]. split; [exact S11|]. split; [unfold room; vm_compute; repeat split; try discriminate|].
      split; [apply TW; [vm_compute; reflexivity | vm_compute; discriminate | vm_compute; discriminate]|].
      split; [apply TW; [vm_compute; reflexivity | vm_compute; discriminate | vm_compute; discriminate]|].
      split; [constructor|]. intros m E. cbn [rest_for v_density] in E. rewrite EN in E. injection E as <-. exact LN. }
  intros w. refine (C116_total ex_rn w true false halves plain (FinishFloatProps.usual None) a (Seed 3) [wind] n U CY CX _ EN). discriminate.
Qed.
