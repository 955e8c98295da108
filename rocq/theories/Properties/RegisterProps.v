(** C119: the reported flow against the motion of the particles, for flows that
    vary in space. *)
From Coq Require Import List Arith ZArith QArith Qround Qabs Bool Lia Lqa.
From Verif Require Import Prelude Model.Interp Model.Apply Model.Geometry Model.DataGen.
From Verif Require Import Spec.InterpSpec Spec.WarpSpec Spec.GeometrySpec Spec.LipschitzSpec Spec.RegisterSpec.
From Verif Require Import Proofs.InterpProofs Proofs.GeometryProofs Proofs.RegisterProofs.
From Verif Require Import Properties.GeometryProps.
Import ListNotations.
Local Open Scope Q_scope.

(** Any flow: a particle moves what is reported where it is, up to the factor of
    C44 and what the flow changes over [reach] grid steps. *)
Theorem C119_close : forall c g batch f Dx Dy, construct exact c = Ok g -> 0 <= g_dt c -> (forall s, (0 < sel s (g_image c))%Z) ->
  (forall s, 1 <= shown s c g) -> (1 <= fH f)%Z -> (1 <= fW f)%Z -> 0 <= Dx -> 0 <= Dy -> gentle Dx Dy f ->
  let a := adapter_of c g batch true in
  let reported := fst (process_single a f) in
  let particle_flow := snd (process_single a f) in
  forall y x i j, 0 <= y <= inject_Z (fst (o_pb g)) -> 0 <= x <= inject_Z (snd (o_pb g)) ->
  (0 <= i < fst (o_out g))%Z -> (0 <= j < snd (o_out g))%Z ->
  let (y', x') := second_position (o_pb g) particle_flow (g_dt c) (snd (o_res g)) (fst (o_res g)) (y, x) in
  let change := g_res c * g_dt c * (Dx * reach false c g x j + Dy * reach true c g y i) in
  Qabs ((x' - x) - stretch false c g * fu reported i j) <= stretch false c g * change /\
  Qabs ((y' - y) - stretch true c g * fv reported i j) <= stretch true c g * change.
Proof.
  intros c g batch f Dx Dy H DT IM ONE FH FW HX HY GN a reported pf y x i j BY BX I J.
  pose proof (motion_close c g batch f H DT IM ONE FH FW Dx Dy y x i j HX HY GN BY BX I J) as M. cbv zeta in M. fold a in M. fold reported pf in M.
  destruct (second_position _ _ _ _ _ _) as [y' x']. destruct M as [M1 M2]. rewrite <- Qmult_assoc in M1, M2. split; assumption.
Qed.
Print Assumptions C119_close.

(** When the field is no finer than the reported vectors, the reach at the place
    of a vector is less than three grid steps. *)
Theorem C119_reach : forall c g k s, construct exact c = Ok g -> 0 <= g_dt c -> (forall s, (0 < sel s (g_image c))%Z) ->
  (0 <= k < sel s (o_out g))%Z -> shown s c g <= inject_Z (sel s (o_out g)) -> reach s c g (belongs s c g k) k < 3.
Proof.
  intros c g k s H DT IM K L. destruct (accepted_axis c g H s) as [e AF].
  pose proof (ores_pos s c g e AF) as RP. pose proof (af_res _ _ _ _ AF) as R.
  assert (W : 0 < inject_Z (sel s (o_out g))) by (change 0 with (inject_Z 0); apply inj_lt; lia).
  assert (S : 0 < shown s c g).
  { unfold shown. assert (0 < inject_Z (sel s (g_image c))) by (change 0 with (inject_Z 0); apply inj_lt; apply IM).
    assert (0 < inject_Z (sel s (g_image c)) / g_res c) by (apply Qlt_shift_div_l; lra). nra. }
  unfold reach. setoid_replace (belongs s c g k - belongs s c g k) with 0 by ring. change (Qabs 0) with 0.
  set (r := shown s c g / inject_Z (sel s (o_out g))). assert (E : r * inject_Z (sel s (o_out g)) == shown s c g) by (unfold r; field; lra).
  assert (RB : 0 < r /\ r <= 1) by (split; nra). rewrite Qabs_pos by lra. lra.
Qed.
Print Assumptions C119_reach.

(** One flow grid step and one vector per pixel: every particle in the image
    moves exactly what is reported, interpolated between the pixels. *)
Theorem C119_exact : forall c g batch f, construct exact c = Ok g -> 0 <= g_dt c -> (forall s, (0 < sel s (g_image c))%Z) ->
  (forall s, steps_per_pixel s c g == 1) -> o_out g = g_image c -> (1 <= fH f)%Z -> (1 <= fW f)%Z ->
  let a := adapter_of c g batch true in
  let reported := fst (process_single a f) in
  let particle_flow := snd (process_single a f) in
  forall y x, inject_Z (fst (o_off g)) <= y <= inject_Z (fst (o_off g)) + inject_Z (fst (g_image c)) - 1 ->
  inject_Z (snd (o_off g)) <= x <= inject_Z (snd (o_off g)) + inject_Z (snd (g_image c)) - 1 ->
  let (y', x') := second_position (o_pb g) particle_flow (g_dt c) (snd (o_res g)) (fst (o_res g)) (y, x) in
  x' - x == bilinear (chan0 reported) (x - inject_Z (snd (o_off g))) (y - inject_Z (fst (o_off g))) /\
  y' - y == bilinear (chan1 reported) (x - inject_Z (snd (o_off g))) (y - inject_Z (fst (o_off g))).
Proof.
  intros c g batch f H DT IM Q1 OUT FH FW a reported pf y x BY BX.
  assert (ONE : forall s, 1 <= shown s c g).
  { intros s. destruct (accepted_axis c g H s) as [e AF]. pose proof (af_res _ _ _ _ AF) as R. specialize (Q1 s). unfold steps_per_pixel in Q1. unfold shown.
    setoid_replace (inject_Z (sel s (g_image c)) / g_res c * sel s (o_res g)) with (inject_Z (sel s (g_image c)) * (sel s (o_res g) / g_res c)) by (field; lra).
    rewrite Q1, Qmult_1_r. change 1 with (inject_Z 1). apply inj_le. specialize (IM s). lia. }
  exact (motion_exact c g batch f H DT IM ONE FH FW y x Q1 OUT BY BX).
Qed.
Print Assumptions C119_exact.

(** Affine flows on commensurate grids: the difference, exactly. *)
Theorem C119_affine : forall c g batch f u0 ux uy v0 vx vy, construct exact c = Ok g -> 0 <= g_dt c -> (forall s, (0 < sel s (g_image c))%Z) ->
  (forall s, 1 <= shown s c g) -> o_pad g = (0, 0)%Z -> (forall s, integral (covered s c g)) ->
  (fH f, fW f) = g_ffshape c -> affine u0 ux uy v0 vx vy f ->
  let a := adapter_of c g batch true in
  let reported := fst (process_single a f) in
  let particle_flow := snd (process_single a f) in
  forall i j, (0 <= i < fst (o_out g))%Z -> (0 <= j < snd (o_out g))%Z -> (2 <= fst (o_out g))%Z -> (2 <= snd (o_out g))%Z ->
  grid_at true c g (belongs true c g i) <= grid_at true c g (inject_Z (fst (o_pb g))) - 1 ->
  grid_at false c g (belongs false c g j) <= grid_at false c g (inject_Z (snd (o_pb g))) - 1 ->
  let (y', x') := second_position (o_pb g) particle_flow (g_dt c) (snd (o_res g)) (fst (o_res g)) (belongs true c g i, belongs false c g j) in
  x' - belongs false c g j == fu reported i j + g_res c * g_dt c * (ux * short false c g j + uy * short true c g i) /\
  y' - belongs true c g i == fv reported i j + g_res c * g_dt c * (vx * short false c g j + vy * short true c g i).
Proof.
  intros c g batch f u0 ux uy v0 vx vy H DT IM ONE PD WH SZ AF a reported pf i j I J WI WJ LY LX.
  pose proof (C42_on_padded_grid c g batch true H DT (IM true) (IM false) ONE) as C. cbv zeta in C. fold a in C. destruct C as (C1 & C2 & C3 & C4).
  rewrite PD in C1, C2, C3, C4. cbn [fst snd] in C1, C2, C3, C4. rewrite <- SZ in C1, C2, C3, C4. cbn [fst snd] in C1, C2, C3, C4. rewrite Z.add_0_r in C1, C2, C3, C4.
  destruct (accepted_axis c g H true) as [ey AY]. destruct (accepted_axis c g H false) as [ex AX].
  assert (FH : (1 <= fH f)%Z).
  { destruct (Z_le_gt_dec 1 (fH f)) as [L|L]; [exact L|]. pose proof (C1 i I) as [O1 O2]. exfalso.
    assert (inject_Z (fH f) <= 0) by (change 0 with (inject_Z 0); apply inj_le; lia). lra. }
  assert (FW : (1 <= fW f)%Z).
  { destruct (Z_le_gt_dec 1 (fW f)) as [L|L]; [exact L|]. pose proof (C2 j J) as [O1 O2]. exfalso.
    assert (inject_Z (fW f) <= 0) by (change 0 with (inject_Z 0); apply inj_le; lia). lra. }
  exact (motion_affine c g batch f H DT IM ONE FH FW u0 ux uy v0 vx vy AF PD WH C1 C2 C3 C4 i j I J WI WJ LY LX).
Qed.
Print Assumptions C119_affine.

(** So a flow that changes along x is reported as it moves the particles only if
    there is one vector per grid step. *)
Theorem C119_affine_iff : forall c g batch f u0 ux v0 vx, construct exact c = Ok g -> 0 < g_dt c -> (forall s, (0 < sel s (g_image c))%Z) ->
  (forall s, 1 <= shown s c g) -> o_pad g = (0, 0)%Z -> (forall s, integral (covered s c g)) ->
  (fH f, fW f) = g_ffshape c -> affine u0 ux 0 v0 vx 0 f -> ~ ux == 0 ->
  let a := adapter_of c g batch true in
  let reported := fst (process_single a f) in
  let particle_flow := snd (process_single a f) in
  forall i j, (0 <= i < fst (o_out g))%Z -> (0 < j < snd (o_out g))%Z -> (2 <= fst (o_out g))%Z ->
  grid_at true c g (belongs true c g i) <= grid_at true c g (inject_Z (fst (o_pb g))) - 1 ->
  grid_at false c g (belongs false c g j) <= grid_at false c g (inject_Z (snd (o_pb g))) - 1 ->
  let (y', x') := second_position (o_pb g) particle_flow (g_dt c) (snd (o_res g)) (fst (o_res g)) (belongs true c g i, belongs false c g j) in
  (x' - belongs false c g j == fu reported i j <-> shown false c g == inject_Z (snd (o_out g))).
Proof.
  intros c g batch f u0 ux v0 vx H DT IM ONE PD WH SZ AF NZ a reported pf i j I J WI LY LX.
  pose proof (C119_affine c g batch f u0 ux 0 v0 vx 0 H ltac:(lra) IM ONE PD WH SZ AF i j I ltac:(lia) WI ltac:(lia) LY LX) as M. cbv zeta in M. fold a in M. fold reported pf in M.
  destruct (second_position _ _ _ _ _ _) as [y' x']. destruct M as [M _]. destruct (accepted_axis c g H true) as [e AE]. pose proof (af_res _ _ _ _ AE) as R.
  assert (W : 2 <= inject_Z (snd (o_out g))) by (change 2 with (inject_Z 2); apply inj_le; lia).
  assert (W2 : 2 <= inject_Z (fst (o_out g))) by (change 2 with (inject_Z 2); apply inj_le; lia).
  assert (J1 : 0 < inject_Z j) by (change 0 with (inject_Z 0); apply inj_lt; lia).
  unfold short in M. cbn [sel] in M. set (w := inject_Z (snd (o_out g))) in *. set (sh := shown false c g) in *. set (rep := fu reported i j) in *.
  assert (EQ : x' - belongs false c g j - rep == g_res c * g_dt c * ux * (inject_Z j / (w - 1)) / w * (w - sh)) by (rewrite M; field; repeat split; lra).
  split.
  - intros E. assert (Z : g_res c * g_dt c * ux * (inject_Z j / (w - 1)) / w * (w - sh) == 0) by lra.
    apply Qmult_integral in Z. destruct Z as [Z|Z]; [exfalso|lra].
    assert (J2 : ~ inject_Z j / (w - 1) == 0) by (intros X; assert (X2 : inject_Z j == inject_Z j / (w - 1) * (w - 1)) by (field; lra); rewrite X in X2; lra).
    assert (Z2 : g_res c * g_dt c * ux * (inject_Z j / (w - 1)) == 0) by (setoid_replace (g_res c * g_dt c * ux * (inject_Z j / (w - 1))) with (g_res c * g_dt c * ux * (inject_Z j / (w - 1)) / w * w) by (field; lra); rewrite Z; ring).
    apply Qmult_integral in Z2. destruct Z2 as [Z2|Z2]; [|contradiction]. apply Qmult_integral in Z2. destruct Z2 as [Z2|Z2]; [|contradiction].
    apply Qmult_integral in Z2. destruct Z2; lra.
  - intros E. assert (Z : g_res c * g_dt c * ux * (inject_Z j / (w - 1)) / w * (w - sh) == 0) by (rewrite E; setoid_replace (w - w) with 0 by ring; ring). lra.
Qed.
Print Assumptions C119_affine_iff.

(** * A case, and the refutation *)
(** A field of 8 x 8 grid points, eight pixels to the grid step, an image of 16 x 16
    pixels with a vector for each; the velocity grows by 1/2 per grid step. *)
Definition coarse_cfg : gcfg exact :=
  mkGcfg exact (16, 16)%Z (4, 4) 1 (16, 16) (8, 8)%Z 4 1 1 (4, 4) (-(4), -(4)) false.
Definition coarse_geom : geom exact :=
  match construct exact coarse_cfg with Ok g => g | Err _ => mkGeom exact (0, 0) (0, 0)%Z (0, 0)%Z (0, 0) (0, 0)%Z (0, 0)%Z (0, 0) (0, 0) end.
Lemma coarse_accepted : construct exact coarse_cfg = Ok coarse_geom.
Proof. vm_compute. reflexivity. Qed.
Definition growing : flow := mkFlow 8 8 (fun _ k => (1 # 2) * inject_Z k) (fun _ _ => 0).

Example C119_case : construct exact coarse_cfg = Ok coarse_geom /\ 0 < g_dt coarse_cfg /\ (forall s, (0 < sel s (g_image coarse_cfg))%Z) /\
  (forall s, 1 <= shown s coarse_cfg coarse_geom) /\ o_pad coarse_geom = (0, 0)%Z /\ (forall s, integral (covered s coarse_cfg coarse_geom)) /\
  (fH growing, fW growing) = g_ffshape coarse_cfg /\ affine 0 (1 # 2) 0 0 0 0 growing /\ gentle (1 # 2) 0 growing /\
  grid_at true coarse_cfg coarse_geom (belongs true coarse_cfg coarse_geom 0) <= grid_at true coarse_cfg coarse_geom (inject_Z (fst (o_pb coarse_geom))) - 1 /\
  grid_at false coarse_cfg coarse_geom (belongs false coarse_cfg coarse_geom 15) <= grid_at false coarse_cfg coarse_geom (inject_Z (snd (o_pb coarse_geom))) - 1.
Proof.
  split; [exact coarse_accepted|]. split; [reflexivity|]. split; [intros []; reflexivity|]. split; [intros []; vm_compute; discriminate|].
  split; [vm_compute; reflexivity|]. split; [intros []; exists 6%Z; vm_compute; reflexivity|]. split; [reflexivity|].
  split; [intros r k _ _; cbn [growing fu fv]; split; ring|].
  split; [|split; vm_compute; discriminate].
  repeat split; intros r k _ _; cbn [growing chan0 chan1 at_ fu fv].
  - rewrite inj_add1. setoid_replace ((1 # 2) * (inject_Z k + 1) - (1 # 2) * inject_Z k) with (1 # 2) by ring. vm_compute. discriminate.
  - setoid_replace ((1 # 2) * inject_Z k - (1 # 2) * inject_Z k) with 0 by ring. vm_compute. discriminate.
  - vm_compute. discriminate.
  - vm_compute. discriminate.
Qed.

(** A particle at the centre of pixel (0, 15) moves 31/4 pixels; reported there is
    a displacement of 6. *)
Theorem C119_pixel_refuted : exists c g f i j, construct exact c = Ok g /\ o_pad g = (0, 0)%Z /\ o_out g = g_image c /\
  (forall s, integral (covered s c g)) /\ (fH f, fW f) = g_ffshape c /\
  (forall r k, (0 <= r < fH f)%Z -> (0 <= k < fW f)%Z -> allowed false c (fu f r k) /\ allowed true c (fv f r k)) /\
  (0 <= i < fst (g_image c))%Z /\ (0 <= j < snd (g_image c))%Z /\
  fu (fst (process_single (adapter_of c g 1 true) f)) i j == 6 /\
  snd (second_position (o_pb g) (snd (process_single (adapter_of c g 1 true) f)) (g_dt c) (snd (o_res g)) (fst (o_res g))
         (inject_Z (fst (o_off g) + i), inject_Z (snd (o_off g) + j))) - inject_Z (snd (o_off g) + j) == 31 # 4.
Proof.
  exists coarse_cfg, coarse_geom, growing, 0%Z, 15%Z. split; [exact coarse_accepted|]. split; [vm_compute; reflexivity|]. split; [vm_compute; reflexivity|].
  split; [intros []; exists 6%Z; vm_compute; reflexivity|]. split; [reflexivity|]. split.
  { intros r k _ K. cbn [growing fW fu fv] in *. unfold allowed. cbn [sel coarse_cfg g_min g_max fst snd].
    assert (0 <= inject_Z k) by (change 0 with (inject_Z 0); apply inj_le; lia). assert (inject_Z k <= 7) by (change 7 with (inject_Z 7); apply inj_le; lia).
    repeat split; lra. }
  split; [cbn; lia|]. split; [cbn; lia|]. split; vm_compute; reflexivity.
Qed.
Print Assumptions C119_pixel_refuted.

(** Matching grids: one grid step and one vector per pixel. *)
Definition fine_cfg : gcfg exact :=
  mkGcfg exact (16, 12)%Z (4, 5) 1 (32, 32) (32, 32)%Z 1 1 1 (7 # 2, 4) (-(3), -(4)) true.
Example C119_case_exact : match construct exact fine_cfg with
  | Ok g => (forall s, steps_per_pixel s fine_cfg g == 1) /\ o_out g = g_image fine_cfg
  | Err _ => False end.
Proof. vm_compute. split; [intros []; reflexivity | reflexivity]. Qed.
