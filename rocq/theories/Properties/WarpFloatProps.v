(** C118: warping an image in float arithmetic. *)
From Coq Require Import List Arith ZArith QArith Qround Qreals Qabs Bool Reals Lia Lqa Lra.
From Flocq Require Import Core IEEE754.BinarySingleNaN.
From Verif Require Import Prelude Model.Interp Model.Geometry Model.Render Model.InterpFloat Model.HistFloat Model.DrawFloat Model.MoveFloat Model.SampleFloat Model.Apply Model.WarpFloat.
From Verif Require Import Spec.InterpSpec Spec.WarpSpec Spec.LipschitzSpec Spec.InterpFloatSpec Spec.MoveFloatSpec Spec.WarpFloatSpec.
From Verif Require Import Proofs.InterpProofs Proofs.WarpProofs Proofs.InterpFloatProofs Proofs.InterpBinary Proofs.MoveFloatProofs Proofs.SampleFloatProofs Proofs.WarpFloatProofs.
From Verif Require Import Properties.InterpFloatProps.
Import ListNotations.
Local Open Scope R_scope.

(** Forward: how far a pixel may be off.  [l] is any list with the pixels that
    land near (r, c); the rest of the image has no say, whatever it holds. *)
Theorem C118_forward : forall fz im f dt D r c l, (1 <= g_rows im)%Z -> (1 <= g_cols im)%Z ->
  IZR (g_rows im) + 3 * D <= IZR (2 ^ 23) -> IZR (g_cols im) + 3 * D <= IZR (2 ^ 23) -> travels D im f dt -> fpixel im r c ->
  catches im f dt r c l -> (forall y x, fpixel im y x -> In (y, x) l -> finite (g_at im y x)) ->
  (Z.of_nat (List.length l) <= 2 ^ 23)%Z -> light im l <= bpow radix2 125 ->
  g_rows (forward32 fz im f dt) = g_rows im /\ g_cols (forward32 fz im f dt) = g_cols im /\
  finite (g_at (forward32 fz im f dt) r c) /\
  Rabs (real (g_at (forward32 fz im f dt) r c) - Q2R (at_ (forward (values im) (flow_of f) (value dt)) r c)) <=
    ((1 + / 16777216) ^ (List.length l + 4) - 1 + slip (g_cols im) D + slip (g_rows im) D) * light im l
    + INR (List.length l) * (light im l + 1) * bpow radix2 (-147) /\
  ((forall y x, fpixel im y x -> In (y, x) l -> 0 <= real (g_at im y x)) -> 0 <= real (g_at (forward32 fz im f dt) r c)).
Proof.
  intros fz im f dt D r c l SR SC DR DC TR PX CA FL LL LB.
  destruct (fold_size fz im f dt (all_pixels (g_rows im) (g_cols im)) (blank im)) as [A1 A2]. rewrite <- forward_fold in A1, A2.
  split; [exact A1|]. split; [exact A2|]. exact (forward_pixel fz im f dt D r c l SR SC DR DC TR PX CA FL LL LB).
Qed.
Print Assumptions C118_forward.

(** The light of the whole image, when at most [n] pixels land near any one. *)
Theorem C118_total : forall fz im f dt D n, (1 <= g_rows im)%Z -> (1 <= g_cols im)%Z ->
  IZR (g_rows im) + 3 * D <= IZR (2 ^ 23) -> IZR (g_cols im) + 3 * D <= IZR (2 ^ 23) -> travels D im f dt ->
  (forall y x, fpixel im y x -> finite (g_at im y x) /\ 0 <= real (g_at im y x)) ->
  (forall r c, fpixel im r c -> exists l, catches im f dt r c l /\ (List.length l <= n)%nat) -> (Z.of_nat n <= 2 ^ 23)%Z ->
  Q2R (total (values im)) <= bpow radix2 125 ->
  Rabs (Q2R (total (values (forward32 fz im f dt))) - Q2R (total (forward (values im) (flow_of f) (value dt)))) <=
    25 * ((1 + / 16777216) ^ (n + 4) - 1 + slip (g_cols im) D + slip (g_rows im) D) * Q2R (total (values im))
    + INR n * (25 * Q2R (total (values im)) + IZR (g_rows im * g_cols im)) * bpow radix2 (-147).
Proof. exact forward_total32. Qed.
Print Assumptions C118_total.

(** As long as nothing leaves the image, hardly any light is lost or made. *)
Theorem C118_conserved : forall fz im f dt D n, (1 <= g_rows im)%Z -> (1 <= g_cols im)%Z ->
  IZR (g_rows im) + 3 * D <= IZR (2 ^ 23) -> IZR (g_cols im) + 3 * D <= IZR (2 ^ 23) -> travels D im f dt ->
  (forall y x, fpixel im y x -> finite (g_at im y x) /\ 0 <= real (g_at im y x)) ->
  (forall r c, fpixel im r c -> exists l, catches im f dt r c l /\ (List.length l <= n)%nat) -> (Z.of_nat n <= 2 ^ 23)%Z ->
  Q2R (total (values im)) <= bpow radix2 125 ->
  (forall r c, fpixel im r c -> 0 <= IZR c + real (h_u f r c) * real dt <= IZR (g_cols im) - 1 /\ 0 <= IZR r + real (h_v f r c) * real dt <= IZR (g_rows im) - 1) ->
  Rabs (Q2R (total (values (forward32 fz im f dt))) - Q2R (total (values im))) <=
    25 * ((1 + / 16777216) ^ (n + 4) - 1 + slip (g_cols im) D + slip (g_rows im) D) * Q2R (total (values im))
    + INR n * (25 * Q2R (total (values im)) + IZR (g_rows im * g_cols im)) * bpow radix2 (-147).
Proof.
  intros fz im f dt D n SR SC DR DC TR FP CN NB TB IN.
  pose proof (forward_total32 fz im f dt D n SR SC DR DC TR FP CN NB TB) as E.
  assert (NE : nonempty (values im)) by (split; assumption).
  rewrite (Qeq_eqR _ _ (forward_conserves (values im) (flow_of f) (value dt) NE ltac:(
    intros r c O; destruct (IN r c O) as [[A1 A2] [B1 B2]]; cbn [values rows cols]; unfold moved_x, moved_y; cbn [flow_of fu fv];
    unfold real in A1, A2, B1, B2;
    split; (split; [apply Rle_Qle; rewrite Q2R_0 | apply Rle_Qle; rewrite last_R]); rewrite Q2R_plus, Q2R_mult, Q2R_Z; lra))) in E. exact E.
Qed.
Print Assumptions C118_conserved.

(** A way of whole pixels: the picture is moved without any error. *)
Theorem C118_forward_shift : forall fz im f dt dx dy r c, (1 <= g_rows im <= 2 ^ 22)%Z -> (1 <= g_cols im <= 2 ^ 22)%Z ->
  (Z.abs dx <= 2 ^ 22 /\ Z.abs dy <= 2 ^ 22)%Z -> shifts im f dt dx dy -> fpixel im r c ->
  (forall y x, fpixel im y x -> finite (g_at im y x)) ->
  finite (g_at (forward32 fz im f dt) r c) /\
  (fpixel im (r - dy) (c - dx) -> real (g_at (forward32 fz im f dt) r c) = real (g_at im (r - dy) (c - dx))) /\
  (~ fpixel im (r - dy) (c - dx) -> real (g_at (forward32 fz im f dt) r c) = 0).
Proof. exact shift_pixel. Qed.
Print Assumptions C118_forward_shift.

(** Backward: the error of the interpolation, and what the place it is taken at
    is off times how fast the image changes. *)
Theorem C118_backward : forall fz im f dt D M Dx Dy r c, fsize im -> travels D im f dt -> D <= bpow radix2 100 ->
  pixels_within M im -> M <= bpow radix2 126 -> (0 <= Dx)%Q -> (0 <= Dy)%Q -> across Dx (values im) -> down Dy (values im) -> fpixel im r c ->
  finite (g_at (backward32 fz im f dt) r c) /\
  Rabs (real (g_at (backward32 fz im f dt) r c) - Q2R (at_ (backward (values im) (flow_of f) (value dt)) r c)) <=
    bpow radix2 (-21) * M + bpow radix2 (-144) + Q2R Dx * slip (g_cols im) D + Q2R Dy * slip (g_rows im) D.
Proof.
  intros fz im f dt D M Dx Dy r c SZ [FT TR] BD PW BM HX HY AX AY [R C]. destruct (TR r c (conj R C)) as (FU & BU & FV & BV).
  pose proof SZ as [SR SC].
  destruct (comes_from_ok (fuse_x fz) c (h_u f r c) dt D ltac:(lia) FU FT BU BD) as [FX EX].
  destruct (comes_from_ok (fuse_y fz) r (h_v f r c) dt D ltac:(lia) FV FT BV BD) as [FY EY].
  cbn [backward32 g_at backward at_]. set (x := comes_from32 (fuse_x fz) c (h_u f r c) dt) in *. set (y := comes_from32 (fuse_y fz) r (h_v f r c) dt) in *.
  assert (AR : around im x y (fun p => finite p /\ Rabs (B2R p) <= M)).
  { intros r' c' NR NC. apply neighbour_in in NR, NC. destruct (PW r' c' (conj NR NC)) as [F B]. split; [exact F|]. unfold real in B. rewrite (value_R _ F) in B. exact B. }
  destruct (binary32_error im x y M SZ FX FY AR BM) as [F _]. split; [exact F|].
  unfold real at 1. rewrite (value_R _ F).
  eapply Rle_trans; [exact (C104_float im x y _ _ Dx Dy M SZ FX FY AR BM HX HY AX AY)|].
  rewrite <- (value_R x FX), <- (value_R y FY). fold (real x) (real y). rewrite !Q2R_minus, !Q2R_mult, !Q2R_Z. cbn [flow_of fu fv]. fold (real (h_u f r c)) (real (h_v f r c)) (real dt).
  assert (EX' : Rabs (real x - (IZR c - real (h_u f r c) * real dt)) <= slip (g_cols im) D).
  { eapply Rle_trans; [exact EX|]. unfold slip. apply Rplus_le_compat_r. apply Rmult_le_compat_l; [lra|]. apply Rplus_le_compat_r. apply IZR_le. lia. }
  assert (EY' : Rabs (real y - (IZR r - real (h_v f r c) * real dt)) <= slip (g_rows im) D).
  { eapply Rle_trans; [exact EY|]. unfold slip. apply Rplus_le_compat_r. apply Rmult_le_compat_l; [lra|]. apply Rplus_le_compat_r. apply IZR_le. lia. }
  apply Qle_Rle in HX, HY. rewrite Q2R_0 in HX, HY.
  pose proof (Rmult_le_compat_l _ _ _ HX EX'). pose proof (Rmult_le_compat_l _ _ _ HY EY'). lra.
Qed.
Print Assumptions C118_backward.

(** The range of the pixels is hardly left, and no pixel becomes negative. *)
Theorem C118_backward_range : forall fz im f dt D lo hi M r c, fsize im -> travels D im f dt -> D <= bpow radix2 100 ->
  (forall y x, fpixel im y x -> finite (g_at im y x) /\ lo <= real (g_at im y x) <= hi) -> - M <= lo -> hi <= M -> M <= bpow radix2 126 -> fpixel im r c ->
  lo - (bpow radix2 (-21) * M + bpow radix2 (-144)) <= real (g_at (backward32 fz im f dt) r c) <= hi + (bpow radix2 (-21) * M + bpow radix2 (-144)) /\
  (0 <= lo -> 0 <= real (g_at (backward32 fz im f dt) r c)).
Proof.
  intros fz im f dt D lo hi M r c SZ [FT TR] BD PW L H BM [R C]. destruct (TR r c (conj R C)) as (FU & BU & FV & BV).
  pose proof SZ as [SR SC].
  destruct (comes_from_ok (fuse_x fz) c (h_u f r c) dt D ltac:(lia) FU FT BU BD) as [FX _].
  destruct (comes_from_ok (fuse_y fz) r (h_v f r c) dt D ltac:(lia) FV FT BV BD) as [FY _].
  cbn [backward32 g_at]. set (x := comes_from32 (fuse_x fz) c (h_u f r c) dt) in *. set (y := comes_from32 (fuse_y fz) r (h_v f r c) dt) in *.
  assert (AR : around im x y (fun p => finite p /\ lo <= B2R p <= hi)).
  { intros r' c' NR NC. apply neighbour_in in NR, NC. destruct (PW r' c' (conj NR NC)) as [F B]. split; [exact F|]. unfold real in B. rewrite (value_R _ F) in B. exact B. }
  assert (F : finite (bilinear32 im x y)).
  { refine (proj1 (binary32_error im x y M SZ FX FY _ BM)). intros r' c' NR NC. destruct (AR r' c' NR NC) as [F B]. split; [exact F | apply Rabs_le; lra]. }
  unfold real. rewrite (value_R _ F). split; [exact (C103_range im x y lo hi M SZ FX FY AR L H BM)|].
  intros P. apply C103_not_negative; try assumption. intros r' c' NR NC. destruct (AR r' c' NR NC) as [F' B]. split; [exact F' | lra].
Qed.
Print Assumptions C118_backward_range.

(** A way of whole pixels: no error. *)
Theorem C118_backward_shift : forall fz im f dt dx dy r c, (1 <= g_rows im <= 2 ^ 22)%Z -> (1 <= g_cols im <= 2 ^ 22)%Z ->
  (Z.abs dx <= 2 ^ 22 /\ Z.abs dy <= 2 ^ 22)%Z -> shifts im f dt dx dy -> fpixel im r c ->
  (forall y x, fpixel im y x -> finite (g_at im y x) /\ Rabs (real (g_at im y x)) <= bpow radix2 126) ->
  fpixel im (r - dy) (c - dx) -> real (g_at (backward32 fz im f dt) r c) = real (g_at im (r - dy) (c - dx)).
Proof.
  intros fz im f dt dx dy r c SR SC BD [FT SH] [R C] PW [R' C']. destruct (SH r c (conj R C)) as (FU & EU & FV & EV).
  assert (SZ : fsize im) by (split; lia).
  destruct (comes_from_int (fuse_x fz) c (h_u f r c) dt dx ltac:(lia) FU FT EU ltac:(lia) ltac:(lia)) as [FX VX].
  destruct (comes_from_int (fuse_y fz) r (h_v f r c) dt dy ltac:(lia) FV FT EV ltac:(lia) ltac:(lia)) as [FY VY].
  cbn [backward32 g_at]. set (x := comes_from32 (fuse_x fz) c (h_u f r c) dt) in *. set (y := comes_from32 (fuse_y fz) r (h_v f r c) dt) in *.
  assert (AR : around im x y (fun p => finite p /\ Rabs (B2R p) <= bpow radix2 126)).
  { intros r' c' NR NC. apply neighbour_in in NR, NC. destruct (PW r' c' (conj NR NC)) as [F B]. split; [exact F|]. unfold real in B. rewrite (value_R _ F) in B. exact B. }
  destruct (binary32_error im x y _ SZ FX FY AR (Rle_refl _)) as [F _].
  unfold real. rewrite (value_R _ F), (value_R _ (proj1 (PW _ _ (conj R' C')))). exact (C103_at_pixels im x y _ _ SZ R' C' FX FY VX VY AR).
Qed.
Print Assumptions C118_backward_shift.

(** * What does not hold *)
Definition no_fusing : fusing := mkFusing false false (fun _ _ => false).
Definition row_image (W : Z) (g : Z -> f32) : fimage := @mkGimage binary32 1 W (fun _ c => g c).

(** Light is not conserved exactly. *)
Definition third : f32 := f32_of 5592405 (-24).
Definition one_dot : fimage := row_image 2 (fun c => if (c =? 0)%Z then f32_of 11184813 (-20) else f32_ofZ 0).
Definition drift_right : flow32 := mkFlow32 1 2 (fun _ c => if (c =? 0)%Z then third else f32_ofZ 0) (fun _ _ => f32_ofZ 0).

Theorem C118_conserved_refuted : exists fz im f dt, (forall y x, fpixel im y x -> finite (g_at im y x) /\ 0 <= real (g_at im y x)) /\
  (forall r c, fpixel im r c -> 0 <= IZR c + real (h_u f r c) * real dt <= IZR (g_cols im) - 1 /\ 0 <= IZR r + real (h_v f r c) * real dt <= IZR (g_rows im) - 1) /\
  ~ (total (values (forward32 fz im f dt)) == total (values im))%Q.
Proof.
  assert (V1 : real (f32_ofZ 1) = 1) by (apply (rep_real _ _ (rep_ofZ 1 ltac:(lia)))).
  assert (V0 : real (f32_ofZ 0) = 0) by (apply (rep_real _ _ (rep_ofZ 0 ltac:(lia)))).
  assert (V3 : 0 <= real third <= 1).
  { unfold real. split; [rewrite <- Q2R_0 | rewrite <- Q2R_1]; apply Qle_Rle, Qle_bool_iff; vm_compute; reflexivity. }
  exists no_fusing, one_dot, drift_right, (f32_ofZ 1). split; [|split].
  - intros y x _. cbn [one_dot row_image g_at]. destruct (x =? 0)%Z; [|split; [vm_compute; reflexivity | rewrite V0; lra]].
    split; [vm_compute; reflexivity|]. unfold real. rewrite <- Q2R_0. apply Qle_Rle, Qle_bool_iff. vm_compute. reflexivity.
  - intros r c [R C]. cbn [one_dot row_image g_rows g_cols] in *. assert (r = 0%Z) by lia. subst r. cbn [drift_right h_u h_v]. rewrite V0, V1.
    assert (c = 0 \/ c = 1)%Z as [-> | ->] by lia; cbn [Z.eqb]; rewrite ?V0; lra.
  - intros E. apply Qeq_bool_iff in E. vm_compute in E. discriminate E.
Qed.
Print Assumptions C118_conserved_refuted.

(** One velocity that is not a number, at a black pixel, spoils a pixel in
    another corner of the image. *)
Definition lost : flow32 := mkFlow32 1 5 (fun _ c => if (c =? 4)%Z then B754_nan else f32_ofZ 0) (fun _ _ => f32_ofZ 0).
Definition grey : fimage := row_image 5 (fun c => if (c =? 4)%Z then f32_ofZ 0 else f32_ofZ 7).

Theorem C118_velocity_refuted : exists fz im f dt, finite dt /\ (forall y x, fpixel im y x -> finite (g_at im y x)) /\
  (forall y x, fpixel im y x -> (y, x) <> (0, 4)%Z -> real (h_u f y x) = 0 /\ real (h_v f y x) = 0 /\ finite (h_u f y x) /\ finite (h_v f y x)) /\
  real (g_at im 0 4) = 0 /\ ~ finite (g_at (forward32 fz im f dt) 0 0).
Proof.
  assert (V0 : real (f32_ofZ 0) = 0) by (apply (rep_real _ _ (rep_ofZ 0 ltac:(lia)))).
  exists no_fusing, grey, lost, (f32_ofZ 1). split; [vm_compute; reflexivity|]. split; [|split; [|split]].
  - intros y x _. cbn [grey row_image g_at]. destruct (x =? 4)%Z; vm_compute; reflexivity.
  - intros y x [Y X] N. cbn [grey row_image g_rows g_cols] in *. assert (y = 0%Z) by lia. subst y. cbn [lost h_u h_v].
    destruct (Z.eqb_spec x 4) as [->|]; [contradiction N; reflexivity|]. rewrite V0. repeat split; vm_compute; reflexivity.
  - exact V0.
  - intros F. assert (B : is_finite (g_at (forward32 no_fusing grey lost (f32_ofZ 1)) 0 0) = false) by (vm_compute; reflexivity).
    unfold finite in F. congruence.
Qed.
Print Assumptions C118_velocity_refuted.

(** * Cases *)
(** A ramp of 3 x 4 pixels that drifts by a third of a pixel per unit of time. *)
Definition slope : fimage := @mkGimage binary32 3 4 (fun r c => f32_ofZ (Z.abs r mod 3 + 2 * (Z.abs c mod 4))).
Definition breeze : flow32 := mkFlow32 3 4 (fun _ _ => third) (fun _ _ => Bopp third).

Lemma third_real : 0 <= real third <= / 2 /\ real (Bopp third) = - real third.
Proof.
  split.
  - unfold real. split; [rewrite <- Q2R_0 | replace (/ 2) with (Q2R (1 # 2)) by (unfold Q2R; cbn; lra)]; apply Qle_Rle, Qle_bool_iff; vm_compute; reflexivity.
  - assert (F : finite third) by (vm_compute; reflexivity). unfold real. rewrite (value_R third F), value_R by (unfold finite; rewrite is_finite_Bopp; exact F). apply B2R_Bopp.
Qed.

Lemma slope_pixel : forall r c, finite (g_at slope r c) /\ 0 <= real (g_at slope r c) <= 8.
Proof.
  intros r c. cbn [slope g_at]. pose proof (Z.mod_pos_bound (Z.abs r) 3 ltac:(lia)). pose proof (Z.mod_pos_bound (Z.abs c) 4 ltac:(lia)).
  set (k := (Z.abs r mod 3 + 2 * (Z.abs c mod 4))%Z) in *. assert (B : (0 <= k <= 8)%Z) by (unfold k; lia).
  destruct (rep_real _ _ (rep_ofZ k ltac:(lia))) as [F V]. split; [exact F|]. rewrite V. split; apply IZR_le; lia.
Qed.

Lemma breeze_travels : travels 1 slope breeze (f32_ofZ 2).
Proof.
  destruct (rep_real _ _ (rep_ofZ 2 ltac:(lia))) as [F V]. destruct third_real as [T N]. split; [exact F|]. intros r c _. cbn [breeze h_u h_v]. rewrite V, N.
  split; [vm_compute; reflexivity|]. split; [apply Rabs_le; lra|]. split; [vm_compute; reflexivity | apply Rabs_le; lra].
Qed.

Definition everywhere : list (Z * Z) := list_prod [0; 1; 2]%Z [0; 1; 2; 3]%Z.
Lemma everywhere_catches : forall f dt r c, catches slope f dt r c everywhere.
Proof.
  intros f dt r c y x [Y X] _. cbn [slope g_rows g_cols] in *. apply in_prod_iff. cbn [In]. split; lia.
Qed.

Lemma light_small : forall l, light slope l <= 8 * INR (List.length l).
Proof.
  induction l as [|[y x] l IH]; unfold light in *; [cbn; lra|]. cbn [fold_right List.length fst snd]. rewrite S_INR. destruct (slope_pixel y x) as [_ B]. rewrite Rabs_pos_eq by lra. lra.
Qed.

Example C118_case : forall r c, fpixel slope r c ->
  (1 <= g_rows slope)%Z /\ (1 <= g_cols slope)%Z /\ IZR (g_rows slope) + 3 * 1 <= IZR (2 ^ 23) /\ IZR (g_cols slope) + 3 * 1 <= IZR (2 ^ 23) /\
  travels 1 slope breeze (f32_ofZ 2) /\ catches slope breeze (f32_ofZ 2) r c everywhere /\
  (forall y x, fpixel slope y x -> finite (g_at slope y x) /\ 0 <= real (g_at slope y x)) /\
  (Z.of_nat (List.length everywhere) <= 2 ^ 23)%Z /\ light slope everywhere <= bpow radix2 125 /\ Q2R (total (values slope)) <= bpow radix2 125.
Proof.
  intros r c _. cbn [slope g_rows g_cols]. change (2 ^ 23)%Z with 8388608%Z. split; [lia|]. split; [lia|]. split; [lra|]. split; [lra|].
  split; [exact breeze_travels|]. split; [apply everywhere_catches|]. split; [intros y x _; destruct (slope_pixel y x) as [F B]; split; [exact F | lra]|].
  assert (P : 96 <= bpow radix2 125) by (apply Rle_trans with (bpow radix2 7); [cbn; lra | apply bpow_le; lia]).
  split; [cbn; lia|]. split.
  - eapply Rle_trans; [apply light_small|]. cbn [everywhere list_prod List.map List.app List.length INR]. lra.
  - eapply Rle_trans; [|exact P]. change 96 with (IZR 96). rewrite <- Q2R_Z. apply Qle_Rle, Qle_bool_iff. vm_compute. reflexivity.
Qed.

Example C118_case_backward : fsize slope /\ travels 1 slope breeze (f32_ofZ 2) /\ 1 <= bpow radix2 100 /\
  pixels_within 8 slope /\ 8 <= bpow radix2 126 /\ across 2 (values slope) /\ down 1 (values slope) /\ fpixel slope 1 2.
Proof.
  split; [split; cbn; lia|]. split; [exact breeze_travels|]. split; [replace 1 with (bpow radix2 0) by reflexivity; apply bpow_le; lia|].
  split; [intros r c _; destruct (slope_pixel r c) as [F B]; split; [exact F | rewrite Rabs_pos_eq; lra]|].
  split; [replace 8 with (bpow radix2 3) by reflexivity; apply bpow_le; lia|].
  assert (RC : forall r c, (0 <= r < 3)%Z -> (0 <= c < 4)%Z -> (r = 0 \/ r = 1 \/ r = 2)%Z /\ (c = 0 \/ c = 1 \/ c = 2 \/ c = 3)%Z) by (intros; lia).
  split; [|split; [|split; cbn; lia]].
  - intros r c [R C] [_ C']. cbn [values slope rows cols g_rows g_cols] in R, C, C'. destruct (RC r c R C) as [[-> | [-> | ->]] [-> | [-> | [-> | ->]]]]; try lia; apply Qle_bool_iff; vm_compute; reflexivity.
  - intros r c [R C] [R' _]. cbn [values slope rows cols g_rows g_cols] in R, C, R'. destruct (RC r c R C) as [[-> | [-> | ->]] [-> | [-> | [-> | ->]]]]; try lia; apply Qle_bool_iff; vm_compute; reflexivity.
Qed.

(** Half a unit of time at two columns and minus four rows per unit. *)
Definition steps : flow32 := mkFlow32 3 4 (fun _ _ => f32_ofZ 2) (fun _ _ => f32_ofZ (-4)).
Example C118_case_shift : shifts slope steps (f32_of 1 (-1)) 1 (-2) /\ fpixel slope 0 2 /\ fpixel slope (0 - -2) (2 - 1) /\
  (value (g_at (forward32 no_fusing slope steps (f32_of 1 (-1))) 0 2) == 4)%Q /\ (value (g_at (backward32 no_fusing slope steps (f32_of 1 (-1))) 0 2) == 4)%Q.
Proof.
  assert (H : real (f32_of 1 (-1)) = / 2).
  { unfold real. replace (/ 2) with (Q2R (1 # 2)) by (unfold Q2R; cbn; lra). apply Qeq_eqR, Qeq_bool_iff. vm_compute. reflexivity. }
  split.
  - split; [vm_compute; reflexivity|]. intros r c _. cbn [steps h_u h_v]. destruct (rep_real _ _ (rep_ofZ 2 ltac:(lia))) as [F2 V2]. destruct (rep_real _ _ (rep_ofZ (-4) ltac:(lia))) as [F4 V4].
    rewrite V2, V4, H. repeat split; try assumption; lra.
  - split; [split; cbn; lia|]. split; [split; cbn; lia|]. split; apply Qeq_bool_iff; vm_compute; reflexivity.
Qed.
