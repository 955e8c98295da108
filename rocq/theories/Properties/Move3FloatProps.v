(** Property C132: particles moved in three dimensions in binary32. *)
From Coq Require Import List ZArith QArith Qround Qreals Bool Reals Lia Lqa Lra.
From Flocq Require Import Core IEEE754.BinarySingleNaN.
From Verif Require Import Prelude Model.Interp Model.Geometry Model.Render Model.InterpFloat Model.TriFloat Model.Move3Float.
From Verif Require Import Spec.InterpSpec Spec.InterpFloatSpec Spec.TriFloatSpec Spec.MoveFloatSpec Spec.Move3FloatSpec.
From Verif Require Import Proofs.InterpProofs Proofs.InterpFloatProofs Proofs.InterpBinary Proofs.TriFloatProofs Proofs.Move3FloatProofs.
Local Open Scope R_scope.

(** Every coordinate goes where the exact velocity takes it, up to [drift3]; the
    third channel moves z, the second y, the first x. *)
Theorem C132_binary32 : forall f dt rx ry rz z y x M,
  cell_within M (k0 f) x y z -> cell_within M (k1 f) x y z -> cell_within M (k2 f) x y z -> M <= bpow radix2 20 ->
  within (bpow radix2 24) z -> within (bpow radix2 24) y -> within (bpow radix2 24) x ->
  within (bpow radix2 20) dt -> within (bpow radix2 20) rx -> within (bpow radix2 20) ry -> within (bpow radix2 20) rz ->
  let '(z', y', x') := update3_32 f dt rx ry rz (z, y, x) in
  finite z' /\ finite y' /\ finite x' /\
  Rabs (real z' - goes3 (k2 f) x y z z rz dt) <= drift3 M z rz dt /\
  Rabs (real y' - goes3 (k1 f) x y z y ry dt) <= drift3 M y ry dt /\
  Rabs (real x' - goes3 (k0 f) x y z x rx dt) <= drift3 M x rx dt.
Proof.
  intros f dt rx ry rz z y x M V0 V1 V2 BM WZ WY WX WT W0 W1 W2. cbn [update3_32].
  pose proof (fun v c res V => one_moved v x y z c res dt M V BM (proj1 WX) (proj1 WY) (proj1 WZ)) as ONE.
  destruct (ONE (k2 f) z rz V2 WZ W2 WT), (ONE (k1 f) y ry V1 WY W1 WT), (ONE (k0 f) x rx V0 WX W0 WT). tauto.
Qed.
Print Assumptions C132_binary32.

(** No particle is faster than the flow around it, up to rounding. *)
Theorem C132_speed : forall f dt rx ry rz z y x M,
  cell_within M (k0 f) x y z -> cell_within M (k1 f) x y z -> cell_within M (k2 f) x y z -> M <= bpow radix2 20 ->
  within (bpow radix2 24) z -> within (bpow radix2 24) y -> within (bpow radix2 24) x ->
  within (bpow radix2 20) dt -> within (bpow radix2 20) rx -> within (bpow radix2 20) ry -> within (bpow radix2 20) rz ->
  let '(z', y', x') := update3_32 f dt rx ry rz (z, y, x) in
  Rabs (real z' - real z) <= M * Rabs (real rz) * Rabs (real dt) + drift3 M z rz dt /\
  Rabs (real y' - real y) <= M * Rabs (real ry) * Rabs (real dt) + drift3 M y ry dt /\
  Rabs (real x' - real x) <= M * Rabs (real rx) * Rabs (real dt) + drift3 M x rx dt.
Proof.
  intros f dt rx ry rz z y x M V0 V1 V2 BM WZ WY WX WT W0 W1 W2. cbn [update3_32].
  assert (ONE : forall v c res, cell_within M v x y z -> within (bpow radix2 24) c -> within (bpow radix2 20) res ->
    Rabs (real (fadd c (fmul (fmul (trilinear32 v x y z) res) dt)) - real c) <= M * Rabs (real res) * Rabs (real dt) + drift3 M c res dt).
  { intros v c res V WC WR. destruct (one_moved v x y z c res dt M V BM (proj1 WX) (proj1 WY) (proj1 WZ) WC WR WT) as [_ E].
    pose proof (goes_bound v x y z c res dt M V) as G.
    match goal with |- Rabs (?a - ?b) <= _ => replace (a - b) with ((goes3 v x y z c res dt - b) + (a - goes3 v x y z c res dt)) by ring end.
    eapply Rle_trans; [apply Rabs_triang|]. lra. }
  repeat split; apply ONE; assumption.
Qed.
Print Assumptions C132_speed.

(** In a flow that is not negative around the particle no coordinate decreases,
    without any tolerance. *)
Theorem C132_forward : forall f dt rx ry rz z y x,
  wsize (k0 f) -> wsize (k1 f) -> wsize (k2 f) -> finite z -> finite y -> finite x ->
  (forall k, k = k0 f \/ k = k1 f \/ k = k2 f -> corners k x y z (fun p => finite p /\ 0 <= B2R p <= bpow radix2 126)) ->
  0 <= B2R dt -> 0 <= B2R rx -> 0 <= B2R ry -> 0 <= B2R rz ->
  let '(z', y', x') := update3_32 f dt rx ry rz (z, y, x) in
  (finite z' -> B2R z <= B2R z') /\ (finite y' -> B2R y <= B2R y') /\ (finite x' -> B2R x <= B2R x').
Proof.
  intros f dt rx ry rz z y x S0 S1 S2 FZ FY FX H T R0 R1 R2. cbn [update3_32].
  repeat split; intros F; (apply one_forward; [assumption | assumption | assumption | assumption | apply H; tauto | assumption | assumption | exact F]).
Qed.
Print Assumptions C132_forward.

(** No flow around the particle, however large the positions: it stays where it
    is without any error. *)
Theorem C132_still : forall f dt rx ry rz z y x, wsize (k0 f) -> wsize (k1 f) -> wsize (k2 f) ->
  finite z -> finite y -> finite x -> finite dt -> finite rx -> finite ry -> finite rz ->
  (forall k, k = k0 f \/ k = k1 f \/ k = k2 f -> corners k x y z (fun p => finite p /\ B2R p = 0)) ->
  let '(z', y', x') := update3_32 f dt rx ry rz (z, y, x) in
  (finite z' /\ B2R z' = B2R z) /\ (finite y' /\ B2R y' = B2R y) /\ (finite x' /\ B2R x' = B2R x).
Proof.
  intros f dt rx ry rz z y x S0 S1 S2 FZ FY FX FT F0 F1 F2 H. cbn [update3_32].
  repeat split; apply still; try assumption; left; apply H; tauto.
Qed.
Print Assumptions C132_still.

(** So does a particle at the time step 0, in any flow of moderate size. *)
Theorem C132_no_time : forall f dt rx ry rz z y x M,
  cell_within M (k0 f) x y z -> cell_within M (k1 f) x y z -> cell_within M (k2 f) x y z -> M <= bpow radix2 20 ->
  finite z -> finite y -> finite x -> finite dt -> B2R dt = 0 ->
  within (bpow radix2 20) rx -> within (bpow radix2 20) ry -> within (bpow radix2 20) rz ->
  let '(z', y', x') := update3_32 f dt rx ry rz (z, y, x) in
  B2R z' = B2R z /\ B2R y' = B2R y /\ B2R x' = B2R x.
Proof.
  intros f dt rx ry rz z y x M V0 V1 V2 BM FZ FY FX FT T W0 W1 W2. cbn [update3_32].
  assert (WT : within (bpow radix2 20) dt).
  { split; [exact FT|]. unfold real. rewrite (value_R _ FT), T, Rabs_R0. apply bpow_ge_0. }
  assert (Z : within (bpow radix2 24) (f32_ofZ 0)).
  { destruct (rep_ofZ 0 ltac:(lia)) as [F V]. split; [exact F|]. unfold real. rewrite (value_R _ F), V, Rabs_R0. apply bpow_ge_0. }
  assert (ONE : forall v c res, cell_within M v x y z -> finite c -> within (bpow radix2 20) res ->
    B2R (fadd c (fmul (fmul (trilinear32 v x y z) res) dt)) = B2R c).
  { intros v c res V FC WR. destruct (one_moved v x y z (f32_ofZ 0) res dt M V BM FX FY FZ Z WR WT) as [F _].
    apply finite_fadd in F. destruct F as [_ F]. apply finite_fmul in F.
    apply (still v x y z c res dt); try assumption; [exact (proj1 V) | exact (proj1 WR) | right; right; split; [exact (proj1 F) | exact T]]. }
  repeat split; apply ONE; assumption.
Qed.
Print Assumptions C132_no_time.

(** A voxel that is not finite, at a corner of the cell in one channel, spoils
    the coordinate of that channel; the other channels have no effect on it. *)
Theorem C132_spoilt : forall f dt rx ry rz z y x,
  wsize (k0 f) -> wsize (k1 f) -> wsize (k2 f) -> finite z -> finite y -> finite x ->
  let '(z', y', x') := update3_32 f dt rx ry rz (z, y, x) in
  (finite z' -> corners (k2 f) x y z finite) /\ (finite y' -> corners (k1 f) x y z finite) /\ (finite x' -> corners (k0 f) x y z finite).
Proof.
  intros f dt rx ry rz z y x S0 S1 S2 FZ FY FX. cbn [update3_32].
  repeat split; intros F; (eapply one_spoilt; [assumption | assumption | assumption | assumption | exact F]).
Qed.
Print Assumptions C132_spoilt.

Theorem C132_separate : forall f g dt rx ry rz sx sy sz p,
  let '(z1, y1, x1) := update3_32 f dt rx ry rz p in
  let '(z2, y2, x2) := update3_32 g dt sx sy sz p in
  (k2 f = k2 g -> rz = sz -> z1 = z2) /\ (k1 f = k1 g -> ry = sy -> y1 = y2) /\ (k0 f = k0 g -> rx = sx -> x1 = x2).
Proof.
  intros f g dt rx ry rz sx sy sz [[z y] x]. cbn [update3_32]. repeat split; intros -> ->; reflexivity.
Qed.
Print Assumptions C132_separate.

(** A particle in a flow with a different speed in every channel. *)
Definition flow_ex : flow3_32 :=
  mkFlow3_32 (mkFvol 2 3 4 (fun d r c => f32_ofZ (d + c + 1))) (mkFvol 2 3 4 (fun _ r _ => f32_ofZ (- r)))
             (mkFvol 2 3 4 (fun d _ _ => f32_ofZ (8 * d))).
Definition f3 (m e : Z) : f32 := binary_normalize 24 128 p32 l32 mode_NE m e false.

Lemma cell_ex : forall v B x y z, wsize v -> (B < 2 ^ 24)%Z ->
  (forall d r c, (0 <= d < wD v)%Z -> (0 <= r < wH v)%Z -> (0 <= c < wW v)%Z -> exists n, (- B <= n <= B)%Z /\ wat v d r c = f32_ofZ n) ->
  cell_within (IZR B) v x y z.
Proof.
  intros v B x y z S HB H. split; [exact S|]. intros d r c [D _] [R _] [C _]. destruct (H d r c D R C) as (n & N & ->).
  destruct (rep_ofZ n ltac:(lia)) as [F V]. split; [exact F|]. unfold real. rewrite (value_R _ F), V.
  apply Rabs_le. rewrite <- opp_IZR. split; apply IZR_le; lia.
Qed.

Lemma within_f3 : forall m e B, is_finite (f3 m e) = true -> (Qabs.Qabs (value (f3 m e)) <= inject_Z B)%Q -> within (IZR B) (f3 m e).
Proof.
  intros m e B F H. split; [exact F|]. unfold real. apply Qabs.Qabs_Qle_condition in H. destruct H as [L U].
  apply Qle_Rle in L, U. rewrite Q2R_opp, Q2R_Z in L. rewrite Q2R_Z in U. apply Rabs_le. lra.
Qed.

Definition moved_ex : f32 * f32 * f32 :=
  update3_32 flow_ex (f3 1 (-2)) (f3 2 0) (f3 3 0) (f3 1 0) (f3 1 (-1), f3 1 0, f3 3 (-1)).

Example exM3_case :
  (forall k, k = k0 flow_ex \/ k = k1 flow_ex \/ k = k2 flow_ex -> cell_within (IZR 8) k (f3 3 (-1)) (f3 1 0) (f3 1 (-1))) /\
  within (IZR 2) (f3 1 (-1)) /\ within (IZR 2) (f3 1 0) /\ within (IZR 2) (f3 3 (-1)).
Proof.
  split.
  { intros k [-> | [-> | ->]].
    - apply cell_ex; [repeat split; cbn; lia | lia | intros d r c D R C; exists (d + c + 1)%Z; cbn [flow_ex k0 k1 k2 wD wH wW wat] in *; split; [lia | reflexivity]].
    - apply cell_ex; [repeat split; cbn; lia | lia | intros d r c D R C; exists (- r)%Z; cbn [flow_ex k0 k1 k2 wD wH wW wat] in *; split; [lia | reflexivity]].
    - apply cell_ex; [repeat split; cbn; lia | lia | intros d r c D R C; exists (8 * d)%Z; cbn [flow_ex k0 k1 k2 wD wH wW wat] in *; split; [lia | reflexivity]]. }
  split; [apply within_f3; [vm_compute; reflexivity | vm_compute; discriminate]|].
  split; apply within_f3; [vm_compute; reflexivity | vm_compute; discriminate | vm_compute; reflexivity | vm_compute; discriminate].
Qed.

Example exM3_moved :
  (value (fst (fst moved_ex)) == 3 # 2)%Q /\ (value (snd (fst moved_ex)) == 1 # 4)%Q /\ (value (snd moved_ex) == 3)%Q.
Proof. split; [vm_compute; reflexivity|]. split; vm_compute; reflexivity. Qed.

(** Hypotheses of C132_forward and of C132_still, met far outside the volume too;
    there the particle follows the border. *)
Definition flow_fwd : flow3_32 := mkFlow3_32 (k0 flow_ex) (k0 flow_ex) (k2 flow_ex).
Definition flow_none : flow3_32 :=
  let v := mkFvol 2 3 4 (fun _ _ _ => f32_ofZ 0) in mkFlow3_32 v v v.

Example exM3_forward : forall x y z,
  (forall k, k = k0 flow_fwd \/ k = k1 flow_fwd \/ k = k2 flow_fwd -> wsize k /\ corners k x y z (fun p => finite p /\ 0 <= B2R p <= bpow radix2 126)) /\
  (forall k, k = k0 flow_none \/ k = k1 flow_none \/ k = k2 flow_none -> wsize k /\ corners k x y z (fun p => finite p /\ B2R p = 0)).
Proof.
  intros x y z. assert (B : IZR 8 <= bpow radix2 126) by (change (IZR 8) with (bpow radix2 3); apply bpow_le; lia).
  assert (P : forall n, (0 <= n <= 8)%Z -> finite (f32_ofZ n) /\ 0 <= B2R (f32_ofZ n) <= bpow radix2 126).
  { intros n N. destruct (rep_ofZ n ltac:(lia)) as [F V]. split; [exact F|]. rewrite V. split; [apply IZR_le; lia|].
    eapply Rle_trans; [apply IZR_le; apply N | exact B]. }
  split.
  - intros k [-> | [-> | ->]]; (split; [repeat split; cbn; lia|]); intros d r c [D _] [R _] [C _];
      cbn [flow_fwd flow_ex k0 k1 k2 wD wH wW wat] in *; apply P; lia.
  - intros k [-> | [-> | ->]]; (split; [repeat split; cbn; lia|]); intros d r c _ _ _; exact (rep_ofZ 0 ltac:(lia)).
Qed.

Example exM3_outside :
  (value (snd (update3_32 flow_fwd (f3 1 (-2)) (f3 2 0) (f3 3 0) (f3 1 0) (f3 (-9) 0, f3 1 0, f3 50 0))) == 52)%Q.
Proof. vm_compute. reflexivity. Qed.
