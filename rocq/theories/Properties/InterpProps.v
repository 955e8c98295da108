(** Properties C45-C51, C77: interpolation, the flow adapter and warping. *)
From Coq Require Import List Arith ZArith QArith Qround Qabs Qminmax Bool Lia Lqa.
From Verif Require Import Prelude Model.Interp Model.Apply Spec.InterpSpec Spec.WarpSpec.
From Verif Require Import Proofs.InterpProofs Proofs.WarpProofs Proofs.AdapterProofs.
Import ListNotations.
Local Open Scope Q_scope.

(** * Concrete data *)
Definition toy_im : image := mkImage 3 4 (fun r c => inject_Z (r * r + 5 * c)).
Definition toy_vol : volume := mkVolume 2 3 4 (fun d r c => inject_Z (7 * d * d + r * r + 5 * c)).
Definition toy_flow : flow := mkFlow 4 4 (fun r c => inject_Z (r * c)) (fun r c => inject_Z (r - c)).

(** ** C45 *)
Theorem C45_between : forall im x y lo hi, nonempty im -> bounded lo hi im -> lo <= bilinear im x y <= hi.
Proof. exact bilinear_between. Qed.
Print Assumptions C45_between.

Theorem C45_grid : forall im r c, nonempty im -> pixel im r c -> bilinear im (inject_Z c) (inject_Z r) == at_ im r c.
Proof. exact bilinear_grid. Qed.
Print Assumptions C45_grid.

(** Affine images are reproduced inside the range. *)
Theorem C45_affine : forall im x y a b c, nonempty im ->
  (forall r k, pixel im r k -> at_ im r k == a + b * inject_Z k + c * inject_Z r) ->
  on_axis (cols im) x -> on_axis (rows im) y -> bilinear im x y == a + b * x + c * y.
Proof.
  intros im x y a b c NE A X Y. rewrite (bilinear_affine im x y a b c NE A). destruct NE as [N1 N2].
  rewrite (on_axis_clip _ _ N2 X), (on_axis_clip _ _ N1 Y). reflexivity.
Qed.
Print Assumptions C45_affine.

(** Outside, the value at the nearest point of the range. *)
Theorem C45_clamped : forall im x y px py, nonempty im ->
  nearest 0 (inject_Z (cols im) - 1) x px -> nearest 0 (inject_Z (rows im) - 1) y py ->
  bilinear im x y == bilinear im px py.
Proof. exact bilinear_clamp. Qed.
Print Assumptions C45_clamped.

(** Only pixels of the image matter. *)
Theorem C45_reads_inside : forall im im' x y, nonempty im -> same_image im im' -> bilinear im x y == bilinear im' x y.
Proof. exact bilinear_local. Qed.
Print Assumptions C45_reads_inside.

(** The value is linear in the image. *)
Theorem C45_linear : forall im1 im2 im a b x y, nonempty im ->
  rows im1 = rows im -> cols im1 = cols im -> rows im2 = rows im -> cols im2 = cols im ->
  (forall r c, pixel im r c -> at_ im r c == a * at_ im1 r c + b * at_ im2 r c) ->
  bilinear im x y == a * bilinear im1 x y + b * bilinear im2 x y.
Proof. exact bilinear_linear. Qed.
Print Assumptions C45_linear.

(** x runs along columns, y along rows. *)
Theorem C45_transpose : forall im x y, nonempty im ->
  bilinear (mkImage (cols im) (rows im) (fun r c => at_ im c r)) y x == bilinear im x y.
Proof. exact bilinear_transpose. Qed.
Print Assumptions C45_transpose.

Example C45_case :
  nonempty toy_im /\ bounded 0 19 toy_im /\ bilinear toy_im (5 # 2) (1 # 2) == 13 /\
  nearest 0 3 (37 # 5) 3 /\ bilinear toy_im (37 # 5) (1 # 2) == bilinear toy_im 3 (1 # 2) /\
  ~ bilinear toy_im 3 (1 # 2) == bilinear toy_im (1 # 2) (2 # 1).
Proof.
  split; [split; cbn; lia|]. split.
  - intros r c [P1 P2]. cbn in P1, P2. cbn [toy_im at_]. split.
    + change 0 with (inject_Z 0). apply inj_le. nia.
    + change 19 with (inject_Z 19). apply inj_le. nia.
  - split; [vm_compute; reflexivity|]. split; [unfold nearest; lra|]. split; [vm_compute; reflexivity | vm_compute; discriminate].
Qed.

(** ** C46 *)
Definition vol_nonempty (v : volume) : Prop := (1 <= vD v)%Z /\ (1 <= vH v)%Z /\ (1 <= vW v)%Z.

Theorem C46_between : forall v x y z lo hi, vol_nonempty v -> vbounded lo hi v -> lo <= trilinear v x y z <= hi.
Proof. exact trilinear_between. Qed.
Print Assumptions C46_between.

Theorem C46_grid : forall v k r i, voxel v k r i ->
  trilinear v (inject_Z i) (inject_Z r) (inject_Z k) == vat v k r i.
Proof. exact trilinear_grid. Qed.
Print Assumptions C46_grid.

Theorem C46_affine : forall v x y z a b c d, vol_nonempty v ->
  (forall k r i, voxel v k r i -> vat v k r i == a + b * inject_Z i + c * inject_Z r + d * inject_Z k) ->
  on_axis (vW v) x -> on_axis (vH v) y -> on_axis (vD v) z ->
  trilinear v x y z == a + b * x + c * y + d * z.
Proof.
  intros v x y z a b c d NE A X Y Z. rewrite (trilinear_affine v x y z a b c d NE A). destruct NE as (N1 & N2 & N3).
  rewrite (on_axis_clip _ _ N3 X), (on_axis_clip _ _ N2 Y), (on_axis_clip _ _ N1 Z). reflexivity.
Qed.
Print Assumptions C46_affine.

Theorem C46_clamped : forall v x y z px py pz, vol_nonempty v ->
  nearest 0 (inject_Z (vW v) - 1) x px -> nearest 0 (inject_Z (vH v) - 1) y py ->
  nearest 0 (inject_Z (vD v) - 1) z pz ->
  trilinear v x y z == trilinear v px py pz.
Proof. exact trilinear_clamp. Qed.
Print Assumptions C46_clamped.

Theorem C46_reads_inside : forall v v' x y z, vol_nonempty v -> same_volume v v' -> trilinear v x y z == trilinear v' x y z.
Proof. exact trilinear_local. Qed.
Print Assumptions C46_reads_inside.

Example C46_case :
  vol_nonempty toy_vol /\ voxel toy_vol 1 2 3 /\ trilinear toy_vol 3 2 1 == 26 /\
  trilinear toy_vol (5 # 2) (1 # 2) (1 # 2) == 33 # 2 /\ on_axis (vD toy_vol) (1 # 2).
Proof.
  split; [repeat split; cbn; lia|]. split; [repeat split; cbn; lia|].
  split; [vm_compute; reflexivity|]. split; [vm_compute; reflexivity|]. unfold on_axis, Qle; cbn. lia.
Qed.

(** ** C47 *)

(** Exactly [batch_size] reported flows of the requested shape, in round robin
    order; one particle flow per input. *)
Theorem C47_count_and_order : forall a fs, fs <> [] ->
  List.length (fst (flow_field_adapter a fs)) = ad_batch a /\
  List.length (snd (flow_field_adapter a fs)) = List.length fs /\
  (forall j f, (j < ad_batch a)%nat -> nth_error fs (j mod List.length fs)%nat = Some f ->
     exists g, nth_error (fst (flow_field_adapter a fs)) j = Some g /\ fH g = fst (ad_new a) /\ fW g = snd (ad_new a) /\
               (forall k, nth_error fs k = Some f -> (k < ad_batch a)%nat ->
                  nth_error (fst (flow_field_adapter a fs)) k = Some g)).
Proof.
  intros a fs NE. destruct (adapter_length a fs NE) as [L1 L2]. split; [exact L1|]. split; [exact L2|].
  intros j f Hj E. exists (fst (process_single a f)). rewrite adapter_nth by assumption. rewrite E.
  split; [reflexivity|]. split; [reflexivity|]. split; [reflexivity|].
  intros k Ek Hk. rewrite adapter_nth by assumption.
  rewrite Nat.mod_small by (apply nth_error_Some; congruence). rewrite Ek. reflexivity.
Qed.
Print Assumptions C47_count_and_order.

(** In physical units every value lies in the range of the input channel; the
    particle flow always does. *)
Theorem C47_range : forall a fs lo0 hi0 lo1 hi1, fs <> [] -> (0 <= fst (ad_pad a))%Z -> (0 <= snd (ad_pad a))%Z ->
  Forall (fun f => (1 <= fH f)%Z /\ (1 <= fW f)%Z /\ flow_bounded lo0 hi0 lo1 hi1 f) fs ->
  Forall (flow_bounded lo0 hi0 lo1 hi1) (snd (flow_field_adapter a fs)) /\
  (ad_pixels a = false -> Forall (flow_bounded lo0 hi0 lo1 hi1) (fst (flow_field_adapter a fs))).
Proof.
  intros a fs lo0 hi0 lo1 hi1 NE P1 P2 ALL. rewrite Forall_forall in ALL.
  assert (ONE : forall f, In f fs -> flow_bounded lo0 hi0 lo1 hi1 (snd (process_single a f)) /\
     (ad_pixels a = false -> flow_bounded lo0 hi0 lo1 hi1 (fst (process_single a f)))).
  { intros f I. destruct (ALL f I) as (H1 & H2 & B). apply process_range; [repeat split; assumption | assumption]. }
  split.
  - apply Forall_forall. intros g I. unfold flow_field_adapter in I. cbn [snd] in I.
    apply in_map_iff in I. destruct I as (f & <- & I). apply (ONE f I).
  - intros E. apply Forall_forall. intros g I. apply In_nth_error in I. destruct I as [j Ej].
    assert (Hj : (j < ad_batch a)%nat).
    { rewrite <- (proj1 (adapter_length a fs NE)). apply nth_error_Some. congruence. }
    rewrite adapter_nth in Ej by assumption.
    destruct (nth_error fs (j mod List.length fs)) as [f|] eqn:Ef; [|discriminate]. cbn in Ej. injection Ej as <-.
    apply (ONE f); [apply nth_error_In in Ef; exact Ef | exact E].
Qed.
Print Assumptions C47_range.

(** In pixel units the reported flow is resolution * dt times the one in
    physical units. *)
Theorem C47_pixels : forall new image off res rx ry pb pbo batch dt pad fs j g, fs <> [] ->
  nth_error (fst (flow_field_adapter (mkAdapter new image off res rx ry pb pbo batch true dt pad) fs)) j = Some g ->
  exists g', nth_error (fst (flow_field_adapter (mkAdapter new image off res rx ry pb pbo batch false dt pad) fs)) j = Some g' /\
    scaled_flow (res * dt) g g'.
Proof.
  intros new image off res rx ry pb pbo batch dt pad fs j g NE E.
  set (a := mkAdapter new image off res rx ry pb pbo batch true dt pad) in *.
  assert (Hj : (j < ad_batch a)%nat).
  { rewrite <- (proj1 (adapter_length a fs NE)). apply nth_error_Some. congruence. }
  rewrite adapter_nth in E by assumption.
  destruct (nth_error fs (j mod List.length fs)) as [f|] eqn:Ef; [|discriminate]. cbn in E. injection E as <-.
  rewrite adapter_nth by assumption. rewrite Ef. eexists. split; [reflexivity|]. apply (process_pixels a f). reflexivity.
Qed.
Print Assumptions C47_pixels.

(** Affine fields are reported exactly: node (i, j) of the reported flow carries
    the field's value at the (i, j)-th of equally spaced points covering the
    image, from the image origin to one grid step before its end. *)
Theorem C47_affine : forall a f u0 ux uy v0 vx vy i j X Y,
  ad_pixels a = false -> ad_pad a = (0, 0)%Z -> (1 <= fH f)%Z -> (1 <= fW f)%Z ->
  (1 <= fst (ad_new a))%Z -> (1 <= snd (ad_new a))%Z ->
  (forall r c, (0 <= r < fH f)%Z -> (0 <= c < fW f)%Z ->
     fu f r c == u0 + ux * inject_Z c + uy * inject_Z r /\ fv f r c == v0 + vx * inject_Z c + vy * inject_Z r) ->
  let sx := snd (ad_pbo a) * ad_rx a + inject_Z (snd (ad_off a)) / ad_res a * ad_rx a in
  let sy := fst (ad_pbo a) * ad_ry a + inject_Z (fst (ad_off a)) / ad_res a * ad_ry a in
  spaced sx (sx + inject_Z (snd (ad_image a)) / ad_res a * ad_rx a - 1) (snd (ad_new a)) j X ->
  spaced sy (sy + inject_Z (fst (ad_image a)) / ad_res a * ad_ry a - 1) (fst (ad_new a)) i Y ->
  on_axis (fW f) X -> on_axis (fH f) Y ->
  let g := fst (process_single a f) in
  fu g i j == u0 + ux * X + uy * Y /\ fv g i j == v0 + vx * X + vy * Y.
Proof.
  intros a f u0 ux uy v0 vx vy i j X Y H1 H2 H3 H4 H5 H6 H7 sx sy H8 H9 H10 H11.
  exact (process_affine a f u0 ux uy v0 vx vy i j X Y H1 H2 H3 H4 H5 H6 H7 H8 H9 H10 H11).
Qed.
Print Assumptions C47_affine.

(** Constant fields stay constant whatever the geometry. *)
Theorem C47_constant : forall a f u v, (0 <= fst (ad_pad a))%Z -> (0 <= snd (ad_pad a))%Z ->
  (1 <= fH f)%Z -> (1 <= fW f)%Z -> uniform u v f ->
  let k := if ad_pixels a then ad_res a * ad_dt a else 1 in
  uniform (k * u) (k * v) (fst (process_single a f)) /\ uniform u v (snd (process_single a f)).
Proof.
  intros a f u v P1 P2 H W U k.
  assert (B : flow_bounded u u v v f).
  { intros r c _ _. destruct (U r c) as [E1 E2]. rewrite E1, E2. lra. }
  assert (WL : well a f) by (repeat split; assumption).
  assert (C : forall x y, let g := pad_edge (fst (ad_pad a)) (snd (ad_pad a)) f in
     bilinear (chan0 g) x y == u /\ bilinear (chan1 g) x y == v).
  { intros x y g. destruct (chan_bounds a f u u v v x y WL B) as [A1 A2]. fold g in A1, A2. lra. }
  split; intros r c; unfold process_single; cbn [fst snd fu fv].
  - destruct (C (rep_x a c) (rep_y a r)) as [E1 E2]. unfold k. destruct (ad_pixels a); rewrite E1, E2; split; ring.
  - apply C.
Qed.
Print Assumptions C47_constant.

(** The adapter is linear in the flow field. *)
Theorem C47_linear : forall a k l f f1 f2, (0 <= fst (ad_pad a))%Z -> (0 <= snd (ad_pad a))%Z ->
  (1 <= fH f)%Z -> (1 <= fW f)%Z -> combines k l f f1 f2 ->
  combines k l (fst (process_single a f)) (fst (process_single a f1)) (fst (process_single a f2)) /\
  combines k l (snd (process_single a f)) (snd (process_single a f1)) (snd (process_single a f2)).
Proof. intros. apply process_linear; [repeat split; assumption | assumption]. Qed.
Print Assumptions C47_linear.

(** With matching grids the adaptation is the identity. *)
Theorem C47_identity : forall a f,
  ad_pixels a = false -> ad_pad a = (0, 0)%Z -> (1 <= fH f)%Z -> (1 <= fW f)%Z ->
  ad_new a = (fH f, fW f) -> ad_pbo a = (0, 0) -> ad_off a = (0, 0)%Z -> ~ ad_res a == 0 ->
  inject_Z (fst (ad_image a)) * ad_ry a == inject_Z (fH f) * ad_res a ->
  inject_Z (snd (ad_image a)) * ad_rx a == inject_Z (fW f) * ad_res a ->
  same_flow (fst (process_single a f)) f.
Proof.
  intros a f H1 H2 H3 H4 H5 H6 H7 H8 H9 H10. apply process_identity; try assumption.
  - unfold rep_start_y. rewrite H6, H7. cbn [fst]. change (inject_Z 0) with 0. field. assumption.
  - unfold rep_start_x. rewrite H6, H7. cbn [snd]. change (inject_Z 0) with 0. field. assumption.
  - setoid_replace (inject_Z (fst (ad_image a)) / ad_res a * ad_ry a) with (inject_Z (fst (ad_image a)) * ad_ry a / ad_res a) by (field; assumption).
    rewrite H9. field. assumption.
  - setoid_replace (inject_Z (snd (ad_image a)) / ad_res a * ad_rx a) with (inject_Z (snd (ad_image a)) * ad_rx a / ad_res a) by (field; assumption).
    rewrite H10. field. assumption.
Qed.
Print Assumptions C47_identity.

Definition toy_args (px : bool) : adapter_args :=
  mkAdapter (4, 4)%Z (8, 8)%Z (0, 0)%Z 2 1 1 (8, 8)%Z (0, 0) 5 px (1 # 10) (0, 0)%Z.
Example C47_case :
  same_flow (fst (process_single (toy_args false) toy_flow)) toy_flow /\
  List.length (fst (flow_field_adapter (toy_args true) [toy_flow; toy_flow; toy_flow])) = 5%nat /\
  fu (fst (process_single (toy_args true) toy_flow)) 2 3 == 6 # 5 /\
  spaced 0 3 4 2 2 /\ flow_bounded 0 9 (-(3)) 3 toy_flow.
Proof.
  split.
  { apply C47_identity; try reflexivity; try (cbn; lia); discriminate. }
  split; [reflexivity|]. split; [vm_compute; reflexivity|]. split; [split; [lia | intros _; vm_compute; reflexivity]|].
  intros r c Hr Hc. cbn in Hr, Hc. cbn [toy_flow fu fv]. change 0 with (inject_Z 0). change 9 with (inject_Z 9).
  change (-(3)) with (inject_Z (-3)). change 3 with (inject_Z 3).
  repeat split; apply inj_le; nia.
Qed.

(** ** C48 *)

(** Each pixel receives from every source pixel its value times the bilinear
    weight at the displaced position. *)
Theorem C48_splat : forall im f dt r c, nonempty im -> pixel im r c ->
  rows (forward im f dt) = rows im /\ cols (forward im f dt) = cols im /\
  at_ (forward im f dt) r c ==
  sumZ (rows im) (fun y => sumZ (cols im) (fun x =>
    at_ im y x * (tent (moved_x f dt y x - inject_Z c) * tent (moved_y f dt y x - inject_Z r)))).
Proof. exact forward_at. Qed.
Print Assumptions C48_splat.

(** The total: every source pixel contributes its value times the bilinear
    weight falling inside the image. *)
Theorem C48_total : forall im f dt, nonempty im ->
  total (forward im f dt) ==
  sumZ (rows im) (fun y => sumZ (cols im) (fun x =>
    at_ im y x * (sumZ (cols im) (fun c => tent (moved_x f dt y x - inject_Z c)) *
                  sumZ (rows im) (fun r => tent (moved_y f dt y x - inject_Z r))))).
Proof. exact forward_total. Qed.
Print Assumptions C48_total.

Theorem C48_conserved : forall im f dt, nonempty im ->
  (forall r c, pixel im r c -> on_axis (cols im) (moved_x f dt r c) /\ on_axis (rows im) (moved_y f dt r c)) ->
  total (forward im f dt) == total im.
Proof. exact forward_conserves. Qed.
Print Assumptions C48_conserved.

Theorem C48_never_increases : forall im f dt, nonempty im ->
  (forall r c, pixel im r c -> 0 <= at_ im r c) -> 0 <= total (forward im f dt) <= total im.
Proof. exact forward_nonincreasing. Qed.
Print Assumptions C48_never_increases.

Theorem C48_zero_flow : forall im f dt, nonempty im -> uniform 0 0 f \/ dt == 0 -> same_image (forward im f dt) im.
Proof.
  intros im f dt NE Z. assert (P0 : pixel im 0 0) by (destruct NE; split; lia).
  destruct (forward_at im f dt 0 0 NE P0) as (R & C & _). split; [exact R|]. split; [exact C|].
  intros r c [Pr Pc]. rewrite R in Pr. rewrite C in Pc.
  destruct (forward_integer im f dt 0 0 r c NE (conj Pr Pc)) as [E _].
  - intros y x _. rewrite !Z.add_0_r. unfold moved_x, moved_y. destruct Z as [Z|Z].
    + destruct (Z y x) as [E1 E2]. rewrite E1, E2. split; ring.
    + rewrite Z. split; ring.
  - rewrite !Z.sub_0_r in E. apply E. split; assumption.
Qed.
Print Assumptions C48_zero_flow.

Definition swirl : flow := mkFlow 3 4 (fun r c => (1 - inject_Z c) / 2) (fun r c => (1 - inject_Z r) / 4).
Example C48_case :
  nonempty toy_im /\ total toy_im == 110 /\
  total (forward toy_im swirl 1) == 110 /\ ~ at_ (forward toy_im swirl 1) 1 1 == at_ toy_im 1 1 /\
  total (forward toy_im swirl 4) < 110 /\
  (forall r c, pixel toy_im r c -> on_axis (cols toy_im) (moved_x swirl 1 r c) /\ on_axis (rows toy_im) (moved_y swirl 1 r c)).
Proof.
  split; [split; cbn; lia|]. split; [vm_compute; reflexivity|]. split; [vm_compute; reflexivity|].
  split; [vm_compute; discriminate|]. split; [vm_compute; reflexivity|].
  intros r c [P1 P2]. cbn in P1, P2. unfold on_axis, moved_x, moved_y. cbn [swirl fu fv toy_im rows cols].
  assert (inject_Z 0 <= inject_Z r) by (apply inj_le; lia). assert (inject_Z r <= inject_Z 2) by (apply inj_le; lia).
  assert (inject_Z 0 <= inject_Z c) by (apply inj_le; lia). assert (inject_Z c <= inject_Z 3) by (apply inj_le; lia).
  change (inject_Z 0) with 0 in *. change (inject_Z 2) with 2 in *. change (inject_Z 3) with 3 in *.
  change (inject_Z 4) with 4. unfold Qdiv. change (/ 2) with (1 # 2). change (/ 4) with (1 # 4). lra.
Qed.

(** ** C49 *)
Theorem C49_range : forall im f dt lo hi r c, nonempty im -> bounded lo hi im -> lo <= at_ (backward im f dt) r c <= hi.
Proof. exact backward_between. Qed.
Print Assumptions C49_range.

Theorem C49_zero_flow : forall im f dt, nonempty im -> uniform 0 0 f \/ dt == 0 -> same_image (backward im f dt) im.
Proof.
  intros im f dt NE Z. split; [reflexivity|]. split; [reflexivity|]. intros r c P.
  rewrite (backward_integer im f dt 0 0 r c NE).
  - rewrite !Z.sub_0_r. reflexivity.
  - change (inject_Z 0) with 0. destruct Z as [Z|Z]; [rewrite (proj1 (Z r c)) | rewrite Z]; ring.
  - change (inject_Z 0) with 0. destruct Z as [Z|Z]; [rewrite (proj2 (Z r c)) | rewrite Z]; ring.
  - rewrite !Z.sub_0_r. exact P.
Qed.
Print Assumptions C49_zero_flow.

(** A displacement by whole pixels takes each pixel from its source. *)
Theorem C49_integer_shift : forall im f dt dx dy r c, nonempty im ->
  fu f r c * dt == inject_Z dx -> fv f r c * dt == inject_Z dy -> pixel im (r - dy) (c - dx) ->
  at_ (backward im f dt) r c == at_ im (r - dy) (c - dx).
Proof. exact backward_integer. Qed.
Print Assumptions C49_integer_shift.

(** Under a uniform displacement by whole pixels, forward and backward warping
    agree wherever the source is in the image; elsewhere the forward warp is 0. *)
Theorem C49_agrees_with_forward : forall im f u v dt dx dy r c, nonempty im -> uniform u v f ->
  u * dt == inject_Z dx -> v * dt == inject_Z dy -> pixel im r c ->
  (pixel im (r - dy) (c - dx) -> at_ (forward im f dt) r c == at_ (backward im f dt) r c) /\
  (~ pixel im (r - dy) (c - dx) -> at_ (forward im f dt) r c == 0).
Proof.
  intros im f u v dt dx dy r c NE U Ex Ey P.
  destruct (forward_integer im f dt dx dy r c NE P) as [E1 E2].
  { intros y x _. destruct (U y x) as [F1 F2]. unfold moved_x, moved_y. rewrite F1, F2, !inject_Z_plus.
    rewrite <- Ex, <- Ey. split; ring. }
  split; [|exact E2]. intros S. rewrite E1 by exact S. symmetry. apply backward_integer; try assumption.
  - rewrite (proj1 (U r c)). exact Ex.
  - rewrite (proj2 (U r c)). exact Ey.
Qed.
Print Assumptions C49_agrees_with_forward.

Definition shift_flow : flow := mkFlow 3 4 (fun _ _ => 1 # 2) (fun _ _ => -(1)).
Example C49_case :
  uniform (1 # 2) (-(1)) shift_flow /\ at_ (backward toy_im shift_flow 2) 0 2 == at_ toy_im 2 1 /\
  at_ (forward toy_im shift_flow 2) 0 2 == 9 /\ at_ (forward toy_im shift_flow 2) 2 2 == 0 /\ pixel toy_im (0 - -2) (2 - 1).
Proof.
  split; [intros r c; split; reflexivity|]. split; [vm_compute; reflexivity|].
  split; [vm_compute; reflexivity|]. split; [vm_compute; reflexivity | split; cbn; lia].
Qed.

(** ** C50 *)

Definition exchanged (flow_f : Q -> Q -> Q -> Q * Q) : Q -> Q -> Q -> Q * Q := fun t x y => flow_f t y x.

(** Warping with the array equals warping with the exchanged callable, in
    particular with the callable itself when it is symmetric. *)
Theorem C50_warps : forall im flow_f dt fwd,
  apply_callable im (exchanged flow_f) 1 dt fwd =
  if fwd then forward im (gen_array flow_f (rows im) (cols im)) dt
  else backward im (gen_array flow_f (rows im) (cols im)) dt.
Proof. reflexivity. Qed.
Print Assumptions C50_warps.

Theorem C50_symmetric_agree : forall im (flow_f : Q -> Q -> Q -> Q * Q) dt r c fwd, nonempty im -> pixel im r c ->
  (forall x y, let (u, v) := flow_f 1 x y in let (u', v') := flow_f 1 y x in u == u' /\ v == v') ->
  at_ (apply_callable im flow_f 1 dt fwd) r c ==
  at_ (if fwd then forward im (gen_array flow_f (rows im) (cols im)) dt
       else backward im (gen_array flow_f (rows im) (cols im)) dt) r c.
Proof.
  intros im flow_f dt r c fwd NE P S.
  assert (SU : forall x y, fst (flow_f 1 x y) == fst (flow_f 1 y x) /\ snd (flow_f 1 x y) == snd (flow_f 1 y x)).
  { intros x y. specialize (S x y). destruct (flow_f 1 x y), (flow_f 1 y x). exact S. }
  destruct fwd; unfold apply_callable.
  - destruct (forward_at im (callable_flow flow_f 1 (rows im) (cols im)) dt r c NE P) as (_ & _ & ->).
    destruct (forward_at im (gen_array flow_f (rows im) (cols im)) dt r c NE P) as (_ & _ & ->).
    apply sumZ_ext. intros y _. apply sumZ_ext. intros x _.
    apply Qmult_comp; [reflexivity|]. unfold moved_x, moved_y. cbn [callable_flow gen_array fu fv].
    destruct (SU (inject_Z x) (inject_Z y)) as [E1 E2].
    apply Qmult_comp; apply tent_proper; rewrite ?E1, ?E2; reflexivity.
  - unfold backward. cbn [at_ callable_flow gen_array fu fv].
    destruct (SU (inject_Z c) (inject_Z r)) as [E1 E2].
    apply bilinear_proper; [exact NE | rewrite E1; reflexivity | rewrite E2; reflexivity].
Qed.
Print Assumptions C50_symmetric_agree.

(** At any time: a pixel moves with (goes to the place given by) both components
    of the callable at that time and at its own column and row. *)
Theorem C50_at_time : forall im flow_f t dt r c, nonempty im -> pixel im r c ->
  (let u x y := fst (flow_f t (inject_Z x) (inject_Z y)) in
   let v x y := snd (flow_f t (inject_Z x) (inject_Z y)) in
   at_ (apply_callable im flow_f t dt true) r c ==
     sumZ (rows im) (fun y => sumZ (cols im) (fun x =>
       at_ im y x * (tent (inject_Z x + dt * u x y - inject_Z c) * tent (inject_Z y + dt * v x y - inject_Z r)))) /\
   at_ (apply_callable im flow_f t dt false) r c ==
     bilinear im (inject_Z c - dt * u c r) (inject_Z r - dt * v c r)).
Proof.
  intros im flow_f t dt r c NE P u v. unfold apply_callable. split.
  - destruct (forward_at im (callable_flow flow_f t (rows im) (cols im)) dt r c NE P) as (_ & _ & ->). reflexivity.
  - unfold backward. cbn [at_ callable_flow fu fv]. apply bilinear_proper; [exact NE | |]; unfold u, v; ring.
Qed.
Print Assumptions C50_at_time.

Example C50_at_time_case : let f := fun t x y : Q => (t * x, t * (y + 1)) in
  ~ at_ (apply_callable toy_im f 0 1 false) 1 1 == at_ (apply_callable toy_im f (1 # 2) 1 false) 1 1.
Proof. vm_compute. discriminate. Qed.

(** Without symmetry they differ. *)
Theorem C50_same_warp_refuted : exists im flow_f dt fwd r c, nonempty im /\ pixel im r c /\
  ~ at_ (apply_callable im flow_f 1 dt fwd) r c ==
    at_ (if fwd then forward im (gen_array flow_f (rows im) (cols im)) dt
         else backward im (gen_array flow_f (rows im) (cols im)) dt) r c.
Proof.
  exists toy_im, (fun _ x _ => (x, 0)), 1, false, 0%Z, 1%Z.
  split; [split; cbn; lia|]. split; [split; cbn; lia|]. vm_compute. discriminate.
Qed.
Print Assumptions C50_same_warp_refuted.

Example C50_case : let f := fun (_ x y : Q) => (x * y, x + y) in
  forall x y, let (u, v) := f (1 : Q) x y in let (u', v') := f 1 y x in u == u' /\ v == v'.
Proof. intros f x y. cbn. split; ring. Qed.

(** ** C51 *)
Theorem C51_bounded : forall f dt rx ry y x lo0 hi0 lo1 hi1,
  (1 <= fH f)%Z -> (1 <= fW f)%Z -> 0 <= dt -> 0 <= rx -> 0 <= ry -> flow_bounded lo0 hi0 lo1 hi1 f ->
  let (y', x') := update_2d f dt rx ry (y, x) in
  rx * dt * lo0 <= x' - x <= rx * dt * hi0 /\ ry * dt * lo1 <= y' - y <= ry * dt * hi1.
Proof. exact particle_bound. Qed.
Print Assumptions C51_bounded.

(** In a uniform flow the displacement is exact. *)
Theorem C51_uniform : forall f dt rx ry y x u v, (1 <= fH f)%Z -> (1 <= fW f)%Z -> uniform u v f ->
  let (y', x') := update_2d f dt rx ry (y, x) in x' == x + u * rx * dt /\ y' == y + v * ry * dt.
Proof. exact particle_uniform. Qed.
Print Assumptions C51_uniform.

(** A particle at a grid point moves with the velocity stored there. *)
Theorem C51_at_grid_points : forall f dt rx ry r c, (0 <= r < fH f)%Z -> (0 <= c < fW f)%Z ->
  let (y', x') := update_2d f dt rx ry (inject_Z r, inject_Z c) in
  x' == inject_Z c + fu f r c * rx * dt /\ y' == inject_Z r + fv f r c * ry * dt.
Proof.
  intros f dt rx ry r c Hr Hc. unfold update_2d.
  assert (N0 : nonempty (chan0 f)) by (split; cbn; lia). assert (N1 : nonempty (chan1 f)) by (split; cbn; lia).
  rewrite (bilinear_grid (chan0 f) r c N0) by (split; assumption).
  rewrite (bilinear_grid (chan1 f) r c N1) by (split; assumption). split; reflexivity.
Qed.
Print Assumptions C51_at_grid_points.

Theorem C51_still : forall f dt rx ry y x, (1 <= fH f)%Z -> (1 <= fW f)%Z -> uniform 0 0 f \/ dt == 0 ->
  let (y', x') := update_2d f dt rx ry (y, x) in x' == x /\ y' == y.
Proof.
  intros f dt rx ry y x H W [U|D].
  - pose proof (particle_uniform f dt rx ry y x 0 0 H W U) as E. destruct (update_2d f dt rx ry (y, x)).
    destruct E as [-> ->]. split; ring.
  - unfold update_2d. rewrite D. split; ring.
Qed.
Print Assumptions C51_still.

Example C51_case : uniform (1 # 2) (-(1)) shift_flow /\
  let (y', x') := update_2d toy_flow 1 2 1 (1, 2) in x' == 6 /\ y' == 0.
Proof. split; [intros r c; split; reflexivity|]. vm_compute. split; reflexivity. Qed.

(** ** C77 *)

(** Whatever the input check lets through, the 3-D branch fails. *)
Theorem C77_3d_always_fails : forall n f, check_shapes 3 f = Ok tt -> apply_shape n 3 f = Err ValueError.
Proof.
  intros n f H. destruct (shapes_checked n 3 f H) as [[E _]|[_ E]]; [discriminate | exact E].
Qed.
Print Assumptions C77_3d_always_fails.

(** The flow shapes on which the 3-D branch works are all rejected. *)
Theorem C77_3d_working_rejected : forall n f r, apply_shape n 3 f = Ok r -> check_shapes 3 f = Err ValueError.
Proof.
  intros n f r H. destruct f as [|a [|b [|c [|d [|]]]]]; try discriminate. reflexivity.
Qed.
Print Assumptions C77_3d_working_rejected.

(** In two dimensions the check suffices. *)
Theorem C77_2d_works : forall n f, check_shapes 2 f = Ok tt -> apply_shape n 2 f = Ok (n, 2%nat).
Proof.
  intros n f H. destruct (shapes_checked n 2 f H) as [[_ (h & w & ->)]|[[E _] _]]; [reflexivity | discriminate].
Qed.
Print Assumptions C77_2d_works.

(** On a 4-D flow field the 3-D update is correct: bounded, third channel along z. *)
Theorem C77_3d_bounded : forall f dt rx ry rz z y x lo0 hi0 lo1 hi1 lo2 hi2,
  vol_nonempty (g0 f) -> vol_nonempty (g1 f) -> vol_nonempty (g2 f) ->
  0 <= dt -> 0 <= rx -> 0 <= ry -> 0 <= rz ->
  vbounded lo0 hi0 (g0 f) -> vbounded lo1 hi1 (g1 f) -> vbounded lo2 hi2 (g2 f) ->
  let '(z', y', x') := update_3d f dt rx ry rz (z, y, x) in
  rx * dt * lo0 <= x' - x <= rx * dt * hi0 /\ ry * dt * lo1 <= y' - y <= ry * dt * hi1 /\
  rz * dt * lo2 <= z' - z <= rz * dt * hi2.
Proof. exact particle_bound3. Qed.
Print Assumptions C77_3d_bounded.

Example C77_case : check_shapes 3 [64; 64; 3]%nat = Ok tt /\ check_shapes 2 [64; 64; 2]%nat = Ok tt /\
  apply_shape 10 3 [8; 64; 64; 3]%nat = Ok (10%nat, 3%nat).
Proof. repeat split; reflexivity. Qed.
