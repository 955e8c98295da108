(** Properties C103, C104: interpolation in float arithmetic, and how much it
    matters where exactly one samples. *)
From Coq Require Import List ZArith QArith Qround Qreals Qabs Bool Reals Lia Lqa Lra.
From Flocq Require Import Core IEEE754.BinarySingleNaN.
From Verif Require Import Prelude Model.Interp Model.Geometry Model.Render Model.InterpFloat.
From Verif Require Import Spec.InterpSpec Spec.InterpFloatSpec Spec.LipschitzSpec.
From Verif Require Import Proofs.InterpProofs Proofs.InterpFloatProofs Proofs.InterpBinary Proofs.LipschitzProofs.
Local Open Scope R_scope.

(** * C103 *)
(** However each operation rounds -- in particular with products fused into the
    additions -- the result is close to the exact interpolation. *)
Theorem C103_any_rounding : forall u e M rn im x y, 0 <= u <= / 1024 -> 0 <= e <= / 1024 ->
  (forall i, rounds u e (rn i)) ->
  (1 <= rows im <= 2 ^ 24)%Z -> (1 <= cols im <= 2 ^ 24)%Z -> float32 (Q2R x) -> float32 (Q2R y) ->
  (forall r c, neighbour (rows im) y r -> neighbour (cols im) x c -> Rabs (Q2R (at_ im r c)) <= M) ->
  Rabs (bilinear_in (rounded rn) (mkGimage (rows im) (cols im) (fun r c => Q2R (at_ im r c) : num_t (rounded rn))) (Q2R x) (Q2R y)
        - Q2R (bilinear im x y)) <= 8 * u * M + 40 * e * (1 + M).
Proof. intros u e M rn im x y U E RN R1 C1 FX FY P. exact (rounded_error u e M rn U E RN im x y R1 C1 FX FY P). Qed.
Print Assumptions C103_any_rounding.

(** In binary32: no overflow, and an error of about 2^-21 of the largest pixel
    that has a say. *)
Theorem C103_binary32 : forall im x y M, fsize im -> finite x -> finite y ->
  around im x y (fun p => finite p /\ Rabs (B2R p) <= M) -> M <= bpow radix2 126 ->
  finite (bilinear32 im x y) /\
  Rabs (B2R (bilinear32 im x y) - Q2R (bilinear (values im) (value x) (value y))) <= bpow radix2 (-21) * M + bpow radix2 (-144).
Proof. exact binary32_error. Qed.
Print Assumptions C103_binary32.

(** Hardly outside the range of the pixels that have a say. *)
Theorem C103_range : forall im x y lo hi M, fsize im -> finite x -> finite y ->
  around im x y (fun p => finite p /\ lo <= B2R p <= hi) -> - M <= lo -> hi <= M -> M <= bpow radix2 126 ->
  lo - (bpow radix2 (-21) * M + bpow radix2 (-144)) <= B2R (bilinear32 im x y) <= hi + (bpow radix2 (-21) * M + bpow radix2 (-144)).
Proof.
  intros im x y lo hi M SZ FX FY A L H B.
  assert (A' : around im x y (fun p => finite p /\ Rabs (B2R p) <= M)).
  { intros r c NR NC. destruct (A r c NR NC) as [F G]. split; [exact F | apply Rabs_le; lra]. }
  destruct (binary32_error im x y M SZ FX FY A' B) as [_ E].
  assert (BT : lo <= Q2R (bilinear (values im) (value x) (value y)) <= hi).
  { apply exact_between; [destruct SZ; split; cbn [values rows cols]; lia|].
    intros r c NR NC. cbn [values at_]. destruct (A r c NR NC) as [F G]. rewrite (value_R _ F). exact G. }
  apply Rabs_le_inv in E. lra.
Qed.
Print Assumptions C103_range.

(** Intensities that are not negative stay so. *)
Theorem C103_not_negative : forall im x y, fsize im -> finite x -> finite y ->
  around im x y (fun p => finite p /\ 0 <= B2R p <= bpow radix2 126) -> 0 <= B2R (bilinear32 im x y).
Proof. exact binary32_pos. Qed.
Print Assumptions C103_not_negative.

(** At the place of a pixel, that pixel without any error. *)
Theorem C103_at_pixels : forall im x y r c, fsize im -> (0 <= r < g_rows im)%Z -> (0 <= c < g_cols im)%Z ->
  finite x -> finite y -> B2R x = IZR c -> B2R y = IZR r ->
  around im x y (fun p => finite p /\ Rabs (B2R p) <= bpow radix2 126) -> B2R (bilinear32 im x y) = B2R (g_at im r c).
Proof. exact binary32_grid. Qed.
Print Assumptions C103_at_pixels.

(** A pixel that is not finite spoils every point it has a say in, also with
    weight zero, and nothing else does. *)
Theorem C103_spoilt : forall im x y, fsize im -> finite x -> finite y ->
  around im x y (fun p => finite p -> Rabs (B2R p) <= bpow radix2 126) ->
  (finite (bilinear32 im x y) <-> around im x y finite).
Proof.
  intros im x y SZ FX FY A. split; [exact (binary32_nan im x y SZ FX FY)|]. intros F.
  refine (proj1 (binary32_error im x y (bpow radix2 126) SZ FX FY _ (Rle_refl _))).
  intros r c NR NC. split; [exact (F r c NR NC) | exact (A r c NR NC (F r c NR NC))].
Qed.
Print Assumptions C103_spoilt.

(** Exactness does not survive: an image that is 1 everywhere, with a value above 1. *)
Definition f32_of (m e : Z) : f32 := binary_normalize 24 128 p32 l32 mode_NE m e false.
Definition ones : fimage := @mkGimage binary32 2 2 (fun _ _ => f32_ofZ 1).

Theorem C103_constant_refuted : exists im x y, fsize im /\ finite x /\ finite y /\
  (forall r c, g_at im r c = f32_ofZ 1) /\ f32_leb (bilinear32 im x y) (f32_ofZ 1) = false /\ finite (bilinear32 im x y).
Proof.
  exists ones, (f32_of 1540567 (-21)), (f32_of 3001629 (-24)).
  split; [split; cbn; lia|]. split; [vm_compute; reflexivity|]. split; [vm_compute; reflexivity|].
  split; [reflexivity|]. split; vm_compute; reflexivity.
Qed.
Print Assumptions C103_constant_refuted.

(** A pixel without a value, and a sample exactly at the pixel before it. *)
Theorem C103_weightless_refuted : exists im x y, fsize im /\ finite x /\ finite y /\
  B2R x = 0 /\ B2R y = 0 /\ finite (g_at im 0 0) /\ bilinear32 im x y = B754_nan.
Proof.
  exists (@mkGimage binary32 1 2 (fun _ c => if (c =? 0)%Z then f32_ofZ 1 else B754_nan)), (f32_ofZ 0), (f32_ofZ 0).
  split; [split; cbn; lia|]. split; [vm_compute; reflexivity|]. split; [vm_compute; reflexivity|].
  split; [reflexivity|]. split; [reflexivity|]. split; vm_compute; reflexivity.
Qed.
Print Assumptions C103_weightless_refuted.

Definition ramp : fimage := @mkGimage binary32 2 3 (fun r c => f32_ofZ (100 * r + 7 * c + 1)).

Lemma ramp_pixels : forall x y, around ramp x y (fun p => finite p /\ 1 <= B2R p <= 128).
Proof.
  intros x y r c [R _] [C _]. cbn [ramp g_rows g_cols g_at] in *.
  destruct (rep_ofZ (100 * r + 7 * c + 1) ltac:(lia)) as [F V]. split; [exact F|]. rewrite V. split; apply IZR_le; lia.
Qed.

Example C103_case : fsize ramp /\ finite (f32_of 5 (-2)) /\ finite (f32_of 1 (-1)) /\
  around ramp (f32_of 5 (-2)) (f32_of 1 (-1)) (fun p => finite p /\ 1 <= B2R p <= 128) /\
  (value (f32_of 5 (-2)) == 5 # 4)%Q /\ (value (bilinear32 ramp (f32_of 5 (-2)) (f32_of 1 (-1))) == 239 # 4)%Q /\
  rounds u32 e32 (fun t => t) /\ rounds u32 e32 rn32.
Proof.
  split; [split; cbn; lia|]. split; [vm_compute; reflexivity|]. split; [vm_compute; reflexivity|].
  split; [apply ramp_pixels|]. split; [vm_compute; reflexivity|]. split; [vm_compute; reflexivity|].
  split; [|exact rn32_rounds]. pose proof u32_small. pose proof e32_small.
  split; intros t; try intros _; rewrite Rminus_diag_eq, Rabs_R0 by reflexivity; [|lra].
  pose proof (Rabs_pos t). assert (0 <= u32 * Rabs t) by (apply Rmult_le_pos; lra). lra.
Qed.

(** * C104 *)
(** Moving the point moves the value by no more than the image changes from pixel
    to pixel; crossing cells and leaving the image included. *)
Theorem C104_slope : forall im Dx Dy x y x' y', nonempty im -> (0 <= Dx)%Q -> (0 <= Dy)%Q -> across Dx im -> down Dy im ->
  (Qabs (bilinear im x y - bilinear im x' y') <= Dx * Qabs (x - x') + Dy * Qabs (y - y'))%Q.
Proof. exact bilinear_lipschitz. Qed.
Print Assumptions C104_slope.

(** A float sample taken near the intended point. *)
Theorem C104_float : forall im x y px py Dx Dy M, fsize im -> finite x -> finite y ->
  around im x y (fun p => finite p /\ Rabs (B2R p) <= M) -> M <= bpow radix2 126 ->
  (0 <= Dx)%Q -> (0 <= Dy)%Q -> across Dx (values im) -> down Dy (values im) ->
  Rabs (B2R (bilinear32 im x y) - Q2R (bilinear (values im) px py))
    <= bpow radix2 (-21) * M + bpow radix2 (-144) + Q2R Dx * Rabs (B2R x - Q2R px) + Q2R Dy * Rabs (B2R y - Q2R py).
Proof.
  intros im x y px py Dx Dy M SZ FX FY A B HX HY AX AY.
  destruct (binary32_error im x y M SZ FX FY A B) as [_ E].
  assert (NE : nonempty (values im)) by (destruct SZ; split; cbn [values rows cols]; lia).
  pose proof (bilinear_lipschitz (values im) Dx Dy (value x) (value y) px py NE HX HY AX AY) as L.
  apply Qle_Rle in L. rewrite Q2R_plus, !Q2R_mult in L.
  assert (AB : forall q, Q2R (Qabs q) = Rabs (Q2R q)).
  { intros q. destruct (Qlt_le_dec q 0) as [S|S].
    - rewrite (Qeq_eqR _ _ (Qabs_neg q (Qlt_le_weak _ _ S))), Q2R_opp. apply Qlt_Rlt in S. rewrite Q2R_0 in S. rewrite Rabs_left; lra.
    - rewrite (Qeq_eqR _ _ (Qabs_pos q S)). apply Qle_Rle in S. rewrite Q2R_0 in S. rewrite Rabs_pos_eq; lra. }
  rewrite !AB, !Q2R_minus, (value_R x FX), (value_R y FY) in L.
  replace (B2R (bilinear32 im x y) - Q2R (bilinear (values im) px py))
    with ((B2R (bilinear32 im x y) - Q2R (bilinear (values im) (value x) (value y)))
          + (Q2R (bilinear (values im) (value x) (value y)) - Q2R (bilinear (values im) px py))) by ring.
  eapply Rle_trans; [apply Rabs_triang|]. lra.
Qed.
Print Assumptions C104_float.

(** The slope is reached. *)
Example C104_case :
  let im := mkImage 2 3 (fun r c => inject_Z (100 * r + 7 * c)) in
  nonempty im /\ across 7 im /\ down 100 im /\
  (Qabs (bilinear im (1 # 2) 0 - bilinear im (3 # 2) (1 # 2)) == 7 * Qabs ((1 # 2) - (3 # 2)) + 100 * Qabs (0 - (1 # 2)))%Q.
Proof.
  cbv zeta. split; [split; cbn; lia|].
  split; [|split; [|vm_compute; reflexivity]]; intros r c _ _; cbn [at_];
    unfold Qminus; rewrite <- inject_Z_opp, <- inject_Z_plus.
  - replace (100 * r + 7 * (c + 1) + - (100 * r + 7 * c))%Z with 7%Z by lia. vm_compute. discriminate.
  - replace (100 * (r + 1) + 7 * c + - (100 * r + 7 * c))%Z with 100%Z by lia. vm_compute. discriminate.
Qed.
