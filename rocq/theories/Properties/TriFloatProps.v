(** Property C131: trilinear interpolation in binary32. *)
From Coq Require Import List ZArith QArith Qround Qreals Bool Reals Lia Lqa Lra.
From Flocq Require Import Core IEEE754.BinarySingleNaN.
From Verif Require Import Prelude Model.Interp Model.Geometry Model.Render Model.InterpFloat Model.TriFloat.
From Verif Require Import Spec.InterpSpec Spec.InterpFloatSpec Spec.TriFloatSpec.
From Verif Require Import Proofs.InterpProofs Proofs.InterpFloatProofs Proofs.InterpBinary Proofs.TriFloatProofs.
Local Open Scope R_scope.

(** The result is finite and close to the exact interpolation at the same point,
    wherever that point lies. *)
Theorem C131_binary32 : forall v x y z M, wsize v -> finite x -> finite y -> finite z ->
  corners v x y z (fun p => finite p /\ Rabs (B2R p) <= M) -> M <= bpow radix2 126 ->
  finite (trilinear32 v x y z) /\
  Rabs (B2R (trilinear32 v x y z) - Q2R (trilinear (vvalues v) (value x) (value y) (value z)))
    <= bpow radix2 (-17) * M + bpow radix2 (-145).
Proof. exact tri_error. Qed.
Print Assumptions C131_binary32.

(** It does not leave the range of the corners by more than that. *)
Theorem C131_range : forall v x y z lo hi M, wsize v -> finite x -> finite y -> finite z ->
  corners v x y z (fun p => finite p /\ lo <= B2R p <= hi) -> - M <= lo -> hi <= M -> M <= bpow radix2 126 ->
  lo - (bpow radix2 (-17) * M + bpow radix2 (-145)) <= B2R (trilinear32 v x y z) <= hi + (bpow radix2 (-17) * M + bpow radix2 (-145)).
Proof.
  intros v x y z lo hi M SZ FX FY FZ A L H B.
  assert (A' : corners v x y z (fun p => finite p /\ Rabs (B2R p) <= M)).
  { intros d r c D R C. destruct (A d r c D R C) as [F G]. split; [exact F | apply Rabs_le; lra]. }
  destruct (tri_error v x y z M SZ FX FY FZ A' B) as [_ E]. pose proof (tri_between v x y z lo hi SZ A) as T.
  apply Rabs_le_inv in E. lra.
Qed.
Print Assumptions C131_range.

(** Samples that are not negative give a value that is not negative. *)
Theorem C131_not_negative : forall v x y z, wsize v -> finite x -> finite y -> finite z ->
  corners v x y z (fun p => finite p /\ 0 <= B2R p <= bpow radix2 126) -> 0 <= B2R (trilinear32 v x y z).
Proof. exact tri_pos. Qed.
Print Assumptions C131_not_negative.

(** At the place of a voxel, that voxel without any error, whatever the other
    voxels are. *)
Theorem C131_at_voxels : forall v x y z d r c, wsize v -> (0 <= d < wD v)%Z -> (0 <= r < wH v)%Z -> (0 <= c < wW v)%Z ->
  finite x -> finite y -> finite z -> B2R x = IZR c -> B2R y = IZR r -> B2R z = IZR d -> finite (wat v d r c) ->
  finite (trilinear32 v x y z) /\ B2R (trilinear32 v x y z) = B2R (wat v d r c).
Proof. exact tri_grid. Qed.
Print Assumptions C131_at_voxels.

(** A corner that is not finite spoils the value, no other voxel does. *)
Theorem C131_spoilt : forall v x y z, wsize v -> finite x -> finite y -> finite z ->
  corners v x y z (fun p => finite p -> Rabs (B2R p) <= bpow radix2 126) ->
  (finite (trilinear32 v x y z) <-> corners v x y z finite).
Proof.
  intros v x y z SZ FX FY FZ A. split; [exact (tri_nan v x y z SZ FX FY FZ)|]. intros F.
  refine (proj1 (tri_error v x y z (bpow radix2 126) SZ FX FY FZ _ (Rle_refl _))).
  intros d r c D R C. split; [exact (F d r c D R C) | exact (A d r c D R C (F d r c D R C))].
Qed.
Print Assumptions C131_spoilt.

Definition f32_of (m e : Z) : f32 := binary_normalize 24 128 p32 l32 mode_NE m e false.
Definition all_ones : fvolume := mkFvol 2 2 2 (fun _ _ _ => f32_ofZ 1).

(** Exactness does not survive: a volume that is 1 everywhere, with a value above 1. *)
Theorem C131_constant_refuted : exists v x y z, wsize v /\ finite x /\ finite y /\ finite z /\
  (forall d r c, wat v d r c = f32_ofZ 1) /\ f32_leb (trilinear32 v x y z) (f32_ofZ 1) = false /\ finite (trilinear32 v x y z).
Proof.
  exists all_ones, (f32_of 13459775 (-24)), (f32_of 12814012 (-24)), (f32_of 1058757 (-24)).
  split; [repeat split; cbn; lia|]. split; [vm_compute; reflexivity|]. split; [vm_compute; reflexivity|]. split; [vm_compute; reflexivity|].
  split; [reflexivity|]. split; vm_compute; reflexivity.
Qed.
Print Assumptions C131_constant_refuted.

(** A coordinate just below zero: its fraction is rounded to one, and the value
    is that of the border. *)
Definition ramp3 : fvolume := mkFvol 2 3 4 (fun d r c => f32_ofZ (100 * d + 10 * r + c + 1)).

Lemma ramp3_voxels : forall x y z, corners ramp3 x y z (fun p => finite p /\ 1 <= B2R p <= 124).
Proof.
  intros x y z d r c [D _] [R _] [C _]. cbn [ramp3 wD wH wW wat] in *.
  destruct (rep_ofZ (100 * d + 10 * r + c + 1) ltac:(lia)) as [F V]. split; [exact F|]. rewrite V. split; apply IZR_le; lia.
Qed.

Example exT_case :
  wsize ramp3 /\ finite (f32_of 5 (-1)) /\ finite (f32_of 1 (-1)) /\ finite (f32_of (-1) (-30)) /\
  corners ramp3 (f32_of 5 (-1)) (f32_of 1 (-1)) (f32_of (-1) (-30)) (fun p => finite p /\ 1 <= B2R p <= 124) /\
  (value (trilinear32 ramp3 (f32_of 5 (-1)) (f32_of 1 (-1)) (f32_of 1 (-2))) == 67 # 2)%Q /\
  (value (trilinear32 ramp3 (f32_of 5 (-1)) (f32_of 1 (-1)) (f32_of (-1) (-30))) == 17 # 2)%Q /\
  fsub (f32_of (-1) (-30)) (floor32 (f32_of (-1) (-30))) = f32_ofZ 1.
Proof.
  split; [repeat split; cbn; lia|]. split; [vm_compute; reflexivity|]. split; [vm_compute; reflexivity|]. split; [vm_compute; reflexivity|].
  split; [apply ramp3_voxels|]. split; [vm_compute; reflexivity|]. split; [vm_compute; reflexivity|].
  apply B2R_Bsign_inj; vm_compute; reflexivity.
Qed.
