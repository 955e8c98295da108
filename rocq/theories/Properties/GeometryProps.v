(** Properties C39-C44: geometry of the synthetic sampler. *)
From Coq Require Import List Arith ZArith QArith Qround Qabs Bool Lia Lqa.
From Flocq Require Import IEEE754.BinarySingleNaN.
From Verif Require Import Prelude Model.Interp Model.Apply Model.Geometry Model.DataGen.
From Verif Require Import Spec.InterpSpec Spec.WarpSpec Spec.GeometrySpec.
From Verif Require Import Proofs.InterpProofs Proofs.WarpProofs Proofs.AdapterProofs Proofs.GeometryProofs.
From Verif Require Import Proofs.FloatProofs Proofs.FloatGeometry.
Import ListNotations.
Local Open Scope Q_scope.

(** A configuration with hidden particles, mixed speeds and an off-centre image. *)
Definition toy_cfg : gcfg exact :=
  mkGcfg exact (64, 96)%Z (2, 3 # 2) (1 # 10) (30, 40) (60, 50)%Z 4 1 2 (7, 5 # 2) (-(1), 1) true.
Definition toy_geom : geom exact :=
  match construct exact toy_cfg with
  | Ok g => g
  | Err _ => mkGeom exact (0, 0) (0, 0)%Z (0, 0)%Z (0, 0) (0, 0)%Z (0, 0)%Z (0, 0) (0, 0)
  end.
Lemma toy_accepted : construct exact toy_cfg = Ok toy_geom.
Proof. vm_compute. reflexivity. Qed.

(** ** C39 *)
Theorem C39_crop_fits : forall c g, construct exact c = Ok g -> 0 <= g_dt c ->
  (0 <= fst (g_image c))%Z -> (0 <= snd (g_image c))%Z ->
  forall y, (0 <= sel y (o_off g) /\ sel y (o_off g) + sel y (g_image c) <= sel y (o_pb g))%Z.
Proof.
  intros c g H DT I1 I2 y. destruct (accepted_axis c g H y) as [e AF].
  apply (axis_crop y c g e AF DT). destruct y; assumption.
Qed.
Print Assumptions C39_crop_fits.

Example C39_case : construct exact toy_cfg = Ok toy_geom /\ o_off toy_geom = (7, 7)%Z /\ o_pb toy_geom = (71, 103)%Z /\
  o_pad toy_geom = (0, 1)%Z.
Proof. split; [exact toy_accepted|]. vm_compute. auto. Qed.

(** ** C40 *)
Definition losing_cfg : gcfg float64 :=
  mkGcfg float64 (256, 256)%Z (f64_ofZ 0, f64_ofZ 0) (f64_ofZ 1) (f64_ofZ 10, f64_ofZ 10) (256, 256)%Z (f64_ofZ 49) (f64_ofZ 1)
    (f64_ofZ 1) (f64_ofZ 0, f64_ofZ 0) (f64_ofZ 0, f64_ofZ 0) false.

Lemma ok_test : forall (A : Type) (r : result A) (t : A -> bool),
  match r with Ok g => t g | Err _ => false end = true -> exists g, r = Ok g /\ t g = true.
Proof. intros A [g|e] t H; [eauto | discriminate]. Qed.
Arguments ok_test {A} r t.

(** In floating point the crop of an accepted configuration can be larger than
    the simulated area. *)
Theorem C40_float_crop_refuted : exists c g, construct float64 c = Ok g /\ g_image c = (256, 256)%Z /\
  forall y, (sel y (o_pb g) < sel y (o_off g) + sel y (g_image c))%Z.
Proof.
  destruct (ok_test (construct float64 losing_cfg)
              (fun g => (fst (o_pb g) <? fst (o_off g) + 256) && (snd (o_pb g) <? snd (o_off g) + 256))%Z) as (g & E & B).
  { vm_cast_no_check (eq_refl true). }
  apply andb_true_iff in B. destruct B as [B1 B2]. apply Z.ltb_lt in B1, B2.
  exists losing_cfg, g. split; [exact E|]. split; [reflexivity|].
  intros y; destruct y; cbn [sel losing_cfg g_image fst snd]; assumption.
Qed.
Print Assumptions C40_float_crop_refuted.

(** With integral quantities and a power of two as resolution it fits. *)
Theorem C40_power_of_two : forall c g, dyadic_config c -> construct float64 c = Ok g ->
  forall y, (0 <= sel y (o_off g) /\ sel y (o_off g) + sel y (g_image c) <= sel y (o_pb g))%Z.
Proof. exact float_crop. Qed.
Print Assumptions C40_power_of_two.

Definition dyadic_cfg : gcfg float64 :=
  mkGcfg float64 (256, 128)%Z (f64_ofZ 9, f64_ofZ 5) (f64_ofZ 1) (f64_ofZ 90, f64_ofZ 80) (100, 90)%Z (f64_ofZ 4) (f64_ofZ 1)
    (f64_ofZ 3) (f64_ofZ 2, f64_ofZ 1) (f64_ofZ (-1), f64_ofZ 0) true.
Lemma float_int_of : forall z, (Z.abs z < 2 ^ 16)%Z -> (exists q, f_val (f64_ofZ z) = Some q /\ Qeq_bool q (inject_Z z) = true) ->
  float_int (f64_ofZ z) z.
Proof. intros z H (q & V & E). split; [|exact H]. exists q. split; [exact V|]. apply Qeq_bool_iff. exact E. Qed.
Example C40_case : dyadic_config dyadic_cfg /\ exists g, construct float64 dyadic_cfg = Ok g.
Proof.
  split.
  - assert (I : forall z, In z [9; 5; 1; 4; 3; 2; -1; 0]%Z -> float_int (f64_ofZ z) z).
    { intros z Hz. apply float_int_of.
      - cbn [In] in Hz. change (2 ^ 16)%Z with 65536%Z. lia.
      - cbn [In] in Hz. decompose [or] Hz; try contradiction; subst z; eexists; (split; [vm_compute; reflexivity | vm_compute; reflexivity]). }
    unfold dyadic_config. cbn [dyadic_cfg g_off g_max g_min g_image g_dt g_maxd g_res sel].
    split; [intros []; eexists; apply I; cbn; auto 10|].
    split; [intros []; eexists; apply I; cbn; auto 10|].
    split; [intros []; eexists; apply I; cbn; auto 10|].
    split; [intros []; cbn; lia|].
    split; [exists 1%Z; split; [apply I; cbn; auto 10 | lia]|].
    split; [exists 3%Z; split; [apply I; cbn; auto 10 | lia]|].
    exists 2%Z. split; [lia | apply I; cbn; auto 10].
  - destruct (ok_test (construct float64 dyadic_cfg) (fun _ => true)) as (g & E & _); [vm_cast_no_check (eq_refl true) | eauto].
Qed.

(** ** C41 *)

(** In length units: whatever is carried into the image comes from the
    simulated area, which contains the image and ends within the flow field. *)
Theorem C41_simulated_area : forall c g, construct exact c = Ok g -> 0 <= g_dt c ->
  (0 <= fst (g_image c))%Z -> (0 <= snd (g_image c))%Z ->
  forall y,
  let lo := sel y (l_pbo g) in let hi := sel y (l_pbo g) + sel y (l_pb g) in
  (forall p v, allowed y c v -> sel y (g_off c) <= p + v * g_dt c <= sel y (g_off c) + image_length y c -> lo <= p <= hi) /\
  lo <= sel y (g_off c) /\ sel y (g_off c) + image_length y c <= hi /\ hi <= sel y (g_ffsize c).
Proof.
  intros c g H DT I1 I2 y. destruct (accepted_axis c g H y) as [e AF].
  assert (IM : (0 <= sel y (g_image c))%Z) by (destruct y; assumption). cbv zeta. split.
  - intros p v A P. exact (axis_covers y c g e AF DT p v A P).
  - exact (axis_contains_image y c g e AF DT).
Qed.
Print Assumptions C41_simulated_area.

(** In pixels of the simulated area, as used for drawing and cropping: up to
    the truncations, less than a pixel; exactly when offsets and speeds are
    whole pixels. *)
Theorem C41_in_pixels : forall c g, construct exact c = Ok g -> 0 <= g_dt c ->
  (0 <= fst (g_image c))%Z -> (0 <= snd (g_image c))%Z ->
  forall y q v, allowed y c v ->
  inject_Z (sel y (o_off g)) <= q + v * g_dt c * g_res c <= inject_Z (sel y (o_off g)) + inject_Z (sel y (g_image c)) ->
  -(1) < q < inject_Z (sel y (o_pb g)) + 1.
Proof.
  intros c g H DT I1 I2 y q v A P. destruct (accepted_axis c g H y) as [e AF].
  assert (IM : (0 <= sel y (g_image c))%Z) by (destruct y; assumption).
  exact (axis_covers_pixels y c g e AF DT IM q v A P).
Qed.
Print Assumptions C41_in_pixels.

(** Within the simulated pixels themselves the claim is false: truncating the
    offset loses a strip at the top or left. *)
Definition strip_cfg : gcfg exact :=
  mkGcfg exact (8, 8)%Z (5, 5) 1 (20, 20) (20, 20)%Z 1 1 1 (1 # 2, 0) (0, 0) false.
Theorem C41_within_simulated_pixels_refuted : exists c g y q v, construct exact c = Ok g /\ 0 <= g_dt c /\ allowed y c v /\
  inject_Z (sel y (o_off g)) <= q + v * g_dt c * g_res c <= inject_Z (sel y (o_off g)) + inject_Z (sel y (g_image c)) /\
  ~ (0 <= q <= inject_Z (sel y (o_pb g))).
Proof.
  destruct (construct exact strip_cfg) as [g|] eqn:E; [|vm_compute in E; discriminate].
  exists strip_cfg, g, true, (-(1) / 4), (1 # 2). split; [exact E|].
  vm_compute in E. injection E as <-. unfold allowed. cbn -[Qle Qplus Qmult Qdiv].
  split; [discriminate|]. split; [split; discriminate|]. split; [split; vm_compute; discriminate|].
  intros [A _]. vm_compute in A. apply A. reflexivity.
Qed.
Print Assumptions C41_within_simulated_pixels_refuted.

Example C41_case : construct exact toy_cfg = Ok toy_geom /\ allowed true toy_cfg (-(1) / 2) /\
  sel true (g_off toy_cfg) <= (41 # 20) + (-(1) / 2) * g_dt toy_cfg <= sel true (g_off toy_cfg) + image_length true toy_cfg.
Proof.
  split; [exact toy_accepted|]. split; [split; vm_compute; discriminate|]. split; vm_compute; discriminate.
Qed.

(** ** C42 *)

(** All sampling positions lie on the padded grid, which is where they are
    looked up. *)
Theorem C42_on_padded_grid : forall c g batch pixels, construct exact c = Ok g -> 0 <= g_dt c ->
  (0 < fst (g_image c))%Z -> (0 < snd (g_image c))%Z ->
  (forall y, 1 <= image_length y c * sel y (o_res g)) ->
  let a := adapter_of c g batch pixels in
  let h := (fst (g_ffshape c) + fst (o_pad g))%Z in let w := (snd (g_ffshape c) + snd (o_pad g))%Z in
  (forall i, (0 <= i < fst (ad_new a))%Z -> on_axis h (rep_y a i)) /\
  (forall j, (0 <= j < snd (ad_new a))%Z -> on_axis w (rep_x a j)) /\
  (forall i, (0 <= i < par_h a)%Z -> on_axis h (par_y a i)) /\
  (forall j, (0 <= j < par_w a)%Z -> on_axis w (par_x a j)).
Proof.
  intros c g batch pixels H DT I1 I2 ONE a h w.
  destruct (accepted_axis c g H true) as [ey AY]. destruct (accepted_axis c g H false) as [ex AX].
  assert (IY : (0 <= sel true (g_image c))%Z) by (cbn; lia). assert (IX : (0 <= sel false (g_image c))%Z) by (cbn; lia).
  assert (PARONE : forall y e, axis_facts y c g e -> (0 <= sel y (g_image c))%Z -> 1 <= inject_Z (sel y (o_pb g)) / g_res c * sel y (o_res g)).
  { intros y e AF IM. pose proof (ores_pos y c g e AF) as RP. pose proof (af_res _ _ _ _ AF) as R.
    destruct (axis_crop y c g e AF DT IM) as [C1 C2]. specialize (ONE y). unfold image_length in ONE.
    assert (inject_Z (sel y (g_image c)) <= inject_Z (sel y (o_pb g))) by (apply inj_le; lia).
    assert (inject_Z (sel y (g_image c)) / g_res c <= inject_Z (sel y (o_pb g)) / g_res c).
    { unfold Qdiv. apply Qmult_le_compat_r; [assumption|]. apply Qlt_le_weak, Qinv_lt_0_compat. exact R. }
    assert (inject_Z (sel y (g_image c)) / g_res c * sel y (o_res g) <= inject_Z (sel y (o_pb g)) / g_res c * sel y (o_res g))
      by (apply Qmult_le_compat_r; lra). lra. }
  split; [|split; [|split]].
  - intros i Hi. destruct (rep_start_bounds true c g ey AY DT) as (S1 & _).
    pose proof (rep_end_bound true c g ey AY DT) as E. pose proof (ONE true) as O1.
    set (len := image_length true c * sel true (o_res g)) in *.
    assert (L : (1 <= fst (ad_new a))%Z) by lia.
    pose proof (linspace_spaced (rep_start_y a) (rep_start_y a + len - 1) _ i L) as SP.
    apply spaced_between in SP; [|exact Hi | lra].
    change (rep_start_y a <= rep_y a i <= rep_start_y a + len - 1) in SP.
    change (0 <= rep_start_y a) in S1. change (rep_start_y a + len - 1 <= inject_Z h - 1) in E.
    unfold on_axis. clearbody len. lra.
  - intros i Hi. destruct (rep_start_bounds false c g ex AX DT) as (S1 & _).
    pose proof (rep_end_bound false c g ex AX DT) as E. pose proof (ONE false) as O1.
    set (len := image_length false c * sel false (o_res g)) in *.
    assert (L : (1 <= snd (ad_new a))%Z) by lia.
    pose proof (linspace_spaced (rep_start_x a) (rep_start_x a + len - 1) _ i L) as SP.
    apply spaced_between in SP; [|exact Hi | lra].
    change (rep_start_x a <= rep_x a i <= rep_start_x a + len - 1) in SP.
    change (0 <= rep_start_x a) in S1. change (rep_start_x a + len - 1 <= inject_Z w - 1) in E.
    unfold on_axis. clearbody len. lra.
  - intros i Hi. destruct (par_bounds true c g ey AY DT IY) as (S1 & E).
    pose proof (PARONE true ey AY IY) as O1.
    set (len := inject_Z (sel true (o_pb g)) / g_res c * sel true (o_res g)) in *.
    assert (L : (1 <= par_h a)%Z) by lia.
    pose proof (linspace_spaced (par_start_y a) (par_start_y a + len - 1) _ i L) as SP.
    apply spaced_between in SP; [|exact Hi | lra].
    change (par_start_y a <= par_y a i <= par_start_y a + len - 1) in SP.
    change (0 <= par_start_y a) in S1. change (par_start_y a + len - 1 <= inject_Z h - 1) in E.
    unfold on_axis. clearbody len. lra.
  - intros i Hi. destruct (par_bounds false c g ex AX DT IX) as (S1 & E).
    pose proof (PARONE false ex AX IX) as O1.
    set (len := inject_Z (sel false (o_pb g)) / g_res c * sel false (o_res g)) in *.
    assert (L : (1 <= par_w a)%Z) by lia.
    pose proof (linspace_spaced (par_start_x a) (par_start_x a + len - 1) _ i L) as SP.
    apply spaced_between in SP; [|exact Hi | lra].
    change (par_start_x a <= par_x a i <= par_start_x a + len - 1) in SP.
    change (0 <= par_start_x a) in S1. change (par_start_x a + len - 1 <= inject_Z w - 1) in E.
    unfold on_axis. clearbody len. lra.
Qed.
Print Assumptions C42_on_padded_grid.

Example C42_case : construct exact toy_cfg = Ok toy_geom /\ (forall y, 1 <= image_length y toy_cfg * sel y (o_res toy_geom)).
Proof. split; [exact toy_accepted|]. intros []; vm_compute; discriminate. Qed.

(** ** C43 *)

(** The image origin, at g_off, has padded grid coordinate g_off * res + pad;
    the reported flow starts there, less at most a cell and a pixel. *)
Theorem C43_origin : forall c g batch pixels, construct exact c = Ok g -> 0 <= g_dt c ->
  forall y : bool,
  let a := adapter_of c g batch pixels in
  let start := if y then rep_start_y a else rep_start_x a in
  let place := sel y (g_off c) * sel y (o_res g) + inject_Z (sel y (o_pad g)) in
  0 <= place - start /\ place - start < 1 + steps_per_pixel y c g /\
  (sel y (o_pad g) = 0%Z -> place - start < steps_per_pixel y c g) /\
  (sel y (o_pad g) = 0%Z -> integral ((sel y (g_off c) - sel y (l_pbo g)) * g_res c) -> place == start).
Proof.
  intros c g batch pixels H DT y. destruct (accepted_axis c g H y) as [e AF].
  destruct (rep_start_bounds y c g e AF DT) as (_ & R).
  destruct y; exact R.
Qed.
Print Assumptions C43_origin.

(** The offset does occur: with padding the reported window is not at the image. *)
Theorem C43_exact_origin_refuted : exists c g batch pixels, construct exact c = Ok g /\ 0 <= g_dt c /\
  integral ((snd (g_off c) - snd (l_pbo g)) * g_res c) /\
  ~ rep_start_x (adapter_of c g batch pixels) == snd (g_off c) * snd (o_res g) + inject_Z (snd (o_pad g)).
Proof.
  exists toy_cfg, toy_geom, 1%nat, true. split; [exact toy_accepted|]. split; [vm_compute; discriminate|].
  split; [exists 7%Z; vm_compute; reflexivity | vm_compute; discriminate].
Qed.
Print Assumptions C43_exact_origin_refuted.

Example C43_case : construct exact strip_cfg = construct exact strip_cfg /\
  match construct exact strip_cfg with
  | Ok g => o_pad g = (0, 0)%Z /\ integral ((snd (g_off strip_cfg) - snd (l_pbo g)) * g_res strip_cfg)
  | Err _ => False end.
Proof. split; [reflexivity|]. vm_compute. split; [reflexivity|]. exists 0%Z. reflexivity. Qed.

(** ** C44 *)

(** Number of flow grid steps covered by the simulated area. *)
Definition grid_steps (y : bool) (c : gcfg exact) (g : geom exact) : Q :=
  inject_Z (sel y (o_pb g)) / g_res c * sel y (o_res g).

Lemma trunc_par : forall r, 1 <= r -> (1 <= Qfloor r)%Z /\ Z.max 1 (Qtrunc r) = Qfloor r.
Proof.
  intros r H. assert (F : (1 <= Qfloor r)%Z) by (apply floor_le_mono; exact H).
  split; [exact F|]. rewrite trunc_nonneg by lra. lia.
Qed.

(** For a uniform flow, the drawn displacement times the whole number of grid
    steps is the reported one times the exact number of grid steps. *)
Theorem C44_displacement : forall c g batch f u v, construct exact c = Ok g -> 0 <= g_dt c ->
  (0 < fst (g_image c))%Z -> (0 < snd (g_image c))%Z ->
  (forall s, 1 <= grid_steps s c g) -> uniform u v f -> (1 <= fH f)%Z -> (1 <= fW f)%Z ->
  let a := adapter_of c g batch true in
  let reported := fst (process_single a f) in
  let particle_flow := snd (process_single a f) in
  forall y x i j,
  let (y', x') := second_position (o_pb g) particle_flow (g_dt c) (snd (o_res g)) (fst (o_res g)) (y, x) in
  (x' - x) * inject_Z (Qfloor (grid_steps false c g)) == fu reported i j * grid_steps false c g /\
  (y' - y) * inject_Z (Qfloor (grid_steps true c g)) == fv reported i j * grid_steps true c g.
Proof.
  intros c g batch f u v H DT I1 I2 ONE U FH FW a reported pf y x i j.
  destruct (accepted_axis c g H true) as [ey AY]. destruct (accepted_axis c g H false) as [ex AX].
  assert (P1 : (0 <= fst (ad_pad a))%Z) by (apply (pad_spec true c g ey AY)).
  assert (P2 : (0 <= snd (ad_pad a))%Z) by (apply (pad_spec false c g ex AX)).
  assert (B : flow_bounded u u v v f).
  { intros r k _ _. destruct (U r k) as [E1 E2]. rewrite E1, E2. lra. }
  assert (WL : well a f) by (repeat split; assumption).
  assert (C : forall x y, let g := pad_edge (fst (ad_pad a)) (snd (ad_pad a)) f in
     bilinear (chan0 g) x y == u /\ bilinear (chan1 g) x y == v).
  { intros x0 y0 g0. destruct (chan_bounds a f u u v v x0 y0 WL B) as [A1 A2]. fold g0 in A1, A2. lra. }
  assert (RU : fu reported i j == u * (g_res c * g_dt c) /\ fv reported i j == v * (g_res c * g_dt c)).
  { unfold reported, process_single. cbn [fst fu fv]. destruct (C (rep_x a j) (rep_y a i)) as [E1 E2].
    cbn [a adapter_of ad_pixels ad_res ad_dt] in *. rewrite E1, E2. split; reflexivity. }
  assert (UP : uniform u v pf).
  { intros r k. unfold pf, process_single. cbn [snd fu fv]. apply C. }
  pose proof (ONE true) as OY. pose proof (ONE false) as OX.
  destruct (trunc_par _ OY) as [FY TY]. destruct (trunc_par _ OX) as [FX TX].
  assert (HY : fH pf = Qfloor (grid_steps true c g)) by exact TY.
  assert (HX : fW pf = Qfloor (grid_steps false c g)) by exact TX.
  unfold second_position.
  pose proof (particle_uniform pf (g_dt c) (snd (o_res g)) (fst (o_res g))
    (y * (inject_Z (fH pf) / inject_Z (fst (o_pb g)))) (x * (inject_Z (fW pf) / inject_Z (snd (o_pb g)))) u v
    ltac:(lia) ltac:(lia) UP) as M.
  destruct (update_2d pf _ _ _ _) as [y' x']. destruct M as [Mx My].
  destruct RU as [RU RV]. rewrite RU, RV, Mx, My, HY, HX.
  pose proof (af_res _ _ _ _ AY) as R.
  assert (PY : 0 < inject_Z (fst (o_pb g))).
  { destruct (axis_crop true c g ey AY DT) as [C1 C2]; [cbn; lia|]. change 0 with (inject_Z 0). apply inj_lt. cbn [sel] in *. lia. }
  assert (PX : 0 < inject_Z (snd (o_pb g))).
  { destruct (axis_crop false c g ex AX DT) as [C1 C2]; [cbn; lia|]. change 0 with (inject_Z 0). apply inj_lt. cbn [sel] in *. lia. }
  assert (QY : 0 < inject_Z (Qfloor (grid_steps true c g))) by (change 0 with (inject_Z 0); apply inj_lt; lia).
  assert (QX : 0 < inject_Z (Qfloor (grid_steps false c g))) by (change 0 with (inject_Z 0); apply inj_lt; lia).
  set (ny := inject_Z (Qfloor (grid_steps true c g))) in *. set (nx := inject_Z (Qfloor (grid_steps false c g))) in *.
  unfold grid_steps. cbn [sel]. split; field; repeat split; lra.
Qed.
Print Assumptions C44_displacement.

Lemma abs_scale : forall a n, 0 <= n -> Qabs a * n == Qabs (a * n).
Proof. intros a n H. rewrite Qabs_Qmult, (Qabs_pos n H). reflexivity. Qed.

Lemma ratio_relation : forall d rep r, 1 <= r -> d * inject_Z (Qfloor r) == rep * r ->
  (integral r -> d == rep) /\ (d == rep -> ~ rep == 0 -> integral r) /\
  Qabs (d - rep) * inject_Z (Qfloor r) <= Qabs rep /\ Qabs rep <= Qabs d.
Proof.
  intros d rep r R E. destruct (floor_spec r) as [F1 F2].
  assert (F : (1 <= Qfloor r)%Z) by (apply floor_le_mono; exact R).
  assert (N : 1 <= inject_Z (Qfloor r)) by (change 1 with (inject_Z 1); apply inj_le; exact F).
  set (n := inject_Z (Qfloor r)) in *. split; [|split; [|split]].
  - intros [z Z]. assert (RN : r == n) by (unfold n; rewrite (Qfloor_comp _ _ Z), floor_inj; exact Z).
    rewrite RN in E. apply Qmult_inj_r in E; lra.
  - intros D NZ. exists (Qfloor r). fold n. rewrite D in E.
    assert (Z : rep * (n - r) == 0) by lra. apply Qmult_integral in Z. destruct Z as [Z|Z]; [contradiction | lra].
  - setoid_replace (Qabs (d - rep) * n) with (Qabs rep * (r - n)).
    + pose proof (Qabs_nonneg rep). nra.
    + rewrite (abs_scale (d - rep) n), (abs_scale rep (r - n)) by lra. apply Qabs_wd. lra.
  - assert (A : Qabs d * n == Qabs rep * r).
    { rewrite (abs_scale d n), (abs_scale rep r) by lra. apply Qabs_wd. exact E. }
    pose proof (Qabs_nonneg rep). pose proof (Qabs_nonneg d).
    destruct (Qlt_le_dec (Qabs d) (Qabs rep)); [|assumption]. exfalso. nra.
Qed.

(** Hence equality exactly on commensurate grids, and otherwise an excess of at
    most one part in the number of whole grid steps. *)
Theorem C44_equal_iff_commensurate : forall c g batch f u v, construct exact c = Ok g -> 0 <= g_dt c ->
  (0 < fst (g_image c))%Z -> (0 < snd (g_image c))%Z ->
  (forall s, 1 <= grid_steps s c g) -> uniform u v f -> (1 <= fH f)%Z -> (1 <= fW f)%Z ->
  let a := adapter_of c g batch true in
  let reported := fst (process_single a f) in
  let particle_flow := snd (process_single a f) in
  let agree s (drawn rep : Q) :=
    (integral (grid_steps s c g) -> drawn == rep) /\ (drawn == rep -> ~ rep == 0 -> integral (grid_steps s c g)) /\
    Qabs (drawn - rep) * inject_Z (Qfloor (grid_steps s c g)) <= Qabs rep /\ Qabs rep <= Qabs drawn in
  forall y x i j,
  let (y', x') := second_position (o_pb g) particle_flow (g_dt c) (snd (o_res g)) (fst (o_res g)) (y, x) in
  agree false (x' - x) (fu reported i j) /\ agree true (y' - y) (fv reported i j).
Proof.
  intros c g batch f u v H DT I1 I2 ONE U FH FW a reported pf agree y x i j.
  pose proof (C44_displacement c g batch f u v H DT I1 I2 ONE U FH FW y x i j) as D. cbv zeta in D. fold a in D. fold reported pf in D.
  destruct (second_position _ pf _ _ _ (y, x)) as [y' x']. destruct D as [D1 D2].
  split; apply ratio_relation; try apply ONE; assumption.
Qed.
Print Assumptions C44_equal_iff_commensurate.

(** Equality is refuted: an accepted configuration where they differ. *)
Theorem C44_equal_refuted : exists c g f u v, construct exact c = Ok g /\ 0 <= g_dt c /\ uniform u v f /\
  (1 <= fH f)%Z /\ (1 <= fW f)%Z /\
  let a := adapter_of c g 1 true in
  ~ (let (y', x') := second_position (o_pb g) (snd (process_single a f)) (g_dt c) (snd (o_res g)) (fst (o_res g)) (20, 20) in
     x' - 20 == fu (fst (process_single a f)) 0 0).
Proof.
  exists toy_cfg, toy_geom, (mkFlow 60 50 (fun _ _ => 2) (fun _ _ => 1)), 2, 1.
  split; [exact toy_accepted|]. split; [vm_compute; discriminate|]. split; [intros r c; split; reflexivity|].
  split; [cbn; lia|]. split; [cbn; lia|]. vm_compute. discriminate.
Qed.
Print Assumptions C44_equal_refuted.

Example C44_case : (forall s, 1 <= grid_steps s toy_cfg toy_geom) /\ ~ integral (grid_steps false toy_cfg toy_geom) /\
  uniform 2 1 (mkFlow 60 50 (fun _ _ => 2) (fun _ _ => 1)).
Proof.
  split; [intros []; vm_compute; discriminate|]. split.
  - intros [z E]. assert (G : grid_steps false toy_cfg toy_geom == 515 # 16) by (vm_compute; reflexivity).
    rewrite G in E. unfold Qeq in E. cbn in E. lia.
  - intros r c; split; reflexivity.
Qed.
