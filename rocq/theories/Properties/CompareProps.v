(** C121: what mask, histogram, noise and the other settings of the images
    change of what a synthetic sampler answers, over all calls. *)
From Coq Require Import List Arith ZArith QArith Bool Lia Lqa String.
From Verif Require Import Prelude Model.PyVal Model.Types Model.Interp Model.Apply Model.Keys Model.Render Model.Hist Model.DataGen Model.Geometry Model.Sampler Model.Synthetic.
From Verif Require Import Model.Base Model.Files Model.Loaders Model.Stack Model.Make Model.Configured.
From Verif Require Import Spec.InterpSpec Spec.HistSpec Spec.RenderSpec Spec.LoaderSpec Spec.TypesSpec Spec.MakeSpec Spec.ConfiguredSpec Spec.CompareSpec.
From Verif Require Import Proofs.DataGenProofs Proofs.SyntheticProofs Proofs.CompareProofs.
From Verif Require Import Properties.RenderProps Properties.MakeProps Properties.SyntheticProps Properties.ConfiguredProps.
From Verif Require Import Model.Interp.
Import ListNotations.
Local Open Scope nat_scope.

(** Settings of the same plan, with any generators of random numbers: the same
    answers but for the images, and the same use of the scheduler. *)
Theorem C121_images_only : forall ex sq g a ex' sq' g' a' si dec sc sc', same_plan a a' ->
  Synthetic.synthetic ex sq g a si dec = Ok sc -> Synthetic.synthetic ex' sq' g' a' si dec = Ok sc' ->
  forall ops u, y_sched (snd (srun sc ops (syn_init sc u))) = y_sched (snd (srun sc' ops (syn_init sc' u))) /\
    Forall2 (alike (fun _ _ => True)) (fst (srun sc ops (syn_init sc u))) (fst (srun sc' ops (syn_init sc' u))).
Proof.
  intros ex sq g a ex' sq' g' a' si dec sc sc' P H H' ops u.
  destruct (samplers_alike ex sq g a ex' sq' g' a' si dec sc sc' (fun _ _ => True) P H H' (fun _ _ _ _ _ => Logic.I) ops u) as [A B].
  split; [rewrite A; reflexivity | exact B].
Qed.
Print Assumptions C121_images_only.

Lemma post_plan : forall m h a, same_plan a (with_post m h a).
Proof. intros m h a. split; reflexivity. Qed.
Lemma noise_plan : forall n a, same_plan a (with_noise n a).
Proof. intros n a. split; reflexivity. Qed.

Lemma picture_entry : forall x h w r c, shape x = [h; w] -> (r < h)%nat -> (c < w)%nat -> at_ (picture x) (Z.of_nat r) (Z.of_nat c) = elt x [r; c].
Proof.
  intros x h w r c E R C. unfold picture, elt. rewrite E. cbn [at_ flat_index size fold_right]. rewrite !Nat2Z.id. f_equal. lia.
Qed.

(** A mask: every pixel of every image of every batch is that of the sampler
    without the mask times the entry of the stored array. *)
Theorem C121_mask : forall ex sq g a si dec x h w sc, shape x = [h; w] -> a_mask a = Some (picture x) -> a_hist a = None ->
  Synthetic.synthetic ex sq g a si dec = Ok sc ->
  (Z.of_nat h, Z.of_nat w) = sp_image (a_spec a) /\
  exists sc', Synthetic.synthetic ex sq g (with_post None None a) si dec = Ok sc' /\
  forall ops u, Forall2 (alike (both (times x h w))) (fst (srun sc ops (syn_init sc u))) (fst (srun sc' ops (syn_init sc' u))).
Proof.
  intros ex sq g a si dec x h w sc E M HN H.
  assert (OK : extras_ok a = true) by (unfold Synthetic.synthetic in H; destruct (extras_ok a); [reflexivity | discriminate]).
  assert (PS : rows (picture x) = Z.of_nat h /\ cols (picture x) = Z.of_nat w) by (unfold picture; rewrite E; split; reflexivity).
  split.
  { unfold extras_ok in OK. rewrite M in OK. destruct (sp_image (a_spec a)) as [ih iw]. destruct PS as [PS1 PS2]. rewrite PS1, PS2 in OK. apply andb_prop in OK. destruct OK as [OK _].
    apply andb_prop in OK. destruct OK as [OK _]. apply andb_prop in OK. destruct OK as [O1 O2]. apply Z.eqb_eq in O1, O2. congruence. }
  assert (OK' : extras_ok (with_post None None a) = true).
  { unfold extras_ok in *. cbn [with_post a_spec a_mask a_hist a_seed]. destruct (sp_image (a_spec a)). apply andb_prop in OK. destruct OK as [_ ->]. reflexivity. }
  assert (S : exists sc', Synthetic.synthetic ex sq g (with_post None None a) si dec = Ok sc').
  { unfold Synthetic.synthetic in *. rewrite OK'. rewrite OK in H. cbn [negb] in *.
    change (geometry_args (with_post None None a)) with (geometry_args a). destruct (construct exact (geometry_args a)) as [geo|e]; [|discriminate].
    cbn [bind] in *. unfold make_scfg in *. cbn [with_post a_devices a_spec a_bpf a_F].
    repeat match type of H with (if ?b then _ else _) = _ => destruct b; [discriminate|] end. eexists. reflexivity. }
  destruct S as [sc' S]. exists sc'. split; [exact S|]. intros ops u.
  refine (proj2 (samplers_alike ex sq g a ex sq g _ si dec sc sc' (both (times x h w)) (post_plan _ _ _) H S _ ops u)).
  intros geo _ k j f. unfold device_image. cbn [split2]. rewrite M, HN. cbn [with_post a_mask a_hist].
  change (device_spec (with_post None None a) geo) with (device_spec a geo).
  assert (T : forall k' im, times x h w (finish g (device_spec a geo) (Some (picture x)) None k' im) (finish g (device_spec a geo) None None k' im)).
  { intros k' im. split; [split; reflexivity|]. intros r c R C. cbn [finish equalized masked at_]. rewrite (picture_entry x h w r c E R C). ring. }
  unfold both. cbn [scan_body out1 out2 out_density out_diameters out_intensities out_rhos]. repeat split; apply T.
Qed.
Print Assumptions C121_mask.

(** A histogram: the pixels become grey levels, in the order in which they are
    without it. *)
Theorem C121_histogram : forall ex sq g a si dec hist sc sc', a_hist a = Some hist -> target hist ->
  (forall m, a_mask a = Some m -> bounded 0 1 m) ->
  Synthetic.synthetic ex sq g a si dec = Ok sc -> Synthetic.synthetic ex sq g (with_post (a_mask a) None a) si dec = Ok sc' ->
  forall ops u, Forall2 (alike (both graded)) (fst (srun sc ops (syn_init sc u))) (fst (srun sc' ops (syn_init sc' u))).
Proof.
  intros ex sq g a si dec hist sc sc' HH T MB H S ops u.
  assert (MS : forall m, a_mask a = Some m -> rows m = fst (sp_image (a_spec a)) /\ cols m = snd (sp_image (a_spec a))).
  { intros m M. unfold Synthetic.synthetic in H. destruct (extras_ok a) eqn:OK; [|discriminate]. unfold extras_ok in OK. rewrite M in OK.
    destruct (sp_image (a_spec a)) as [ih iw]. apply andb_prop in OK. destruct OK as [OK _].
    apply andb_prop in OK. destruct OK as [OK _]. apply andb_prop in OK. destruct OK as [O1 O2]. apply Z.eqb_eq in O1, O2. auto. }
  refine (proj2 (samplers_alike ex sq g a ex sq g _ si dec sc sc' (both graded) (post_plan _ _ _) H S _ ops u)).
  intros geo _ k j f. unfold device_image. cbn [split2]. rewrite HH. cbn [with_post a_mask a_hist].
  change (device_spec (with_post (a_mask a) None a) geo) with (device_spec a geo).
  assert (G : forall k' im, graded (finish g (device_spec a geo) (a_mask a) (Some hist) k' im) (finish g (device_spec a geo) (a_mask a) None k' im)).
  { intros k' im. unfold finish. cbn [equalized]. set (y := masked (a_mask a) (noisy g (device_spec a geo) k' im)).
    assert (B : bounded 0 255 y).
    { apply masked_bounded; [intros; apply noisy_bounded|]. intros m M r c [P1 P2]. apply (MB m M). destruct (MS m M) as [MS1 MS2]. unfold pixel. rewrite MS1, MS2.
      cbn [noisy add_noise crop rows cols] in P1, P2. unfold slice_len in P1, P2. change (sp_image (a_spec a)) with (sp_image (device_spec a geo)). split; lia. }
    split; [split; reflexivity|]. split; [intros r c; apply C57_levels|]. intros r c r' c' P P' L.
    change (pixel y r c) in P. change (pixel y r' c') in P'. apply C57_monotone; auto. destruct P. split; lia. }
  unfold both. cbn [scan_body out1 out2 out_density out_diameters out_intensities out_rhos]. repeat split; apply G.
Qed.
Print Assumptions C121_histogram.

Lemma clip_near : forall lo hi x y n : Q, (lo <= hi -> x <= y <= x + n -> clipQ lo hi x <= clipQ lo hi y <= clipQ lo hi x + n)%Q.
Proof.
  intros lo hi x y n H L. unfold clipQ.
  assert (D : forall a b : Q, Qle_bool a b = false -> (b < a)%Q).
  { intros a b E. apply Qnot_le_lt. intros Q. apply Qle_bool_iff in Q. congruence. }
  destruct (Qle_bool lo x) eqn:X; [apply Qle_bool_iff in X | apply D in X]; (destruct (Qle_bool lo y) eqn:Y; [apply Qle_bool_iff in Y | apply D in Y]);
    repeat match goal with |- context [Qle_bool ?a ?b] => let E := fresh in destruct (Qle_bool a b) eqn:E; [apply Qle_bool_iff in E | apply D in E] end;
    Lqa.lra.
Qed.

Definition noise_to (n : Q) (sp : gspec) : gspec :=
  mkGspec (sp_batch sp) (sp_image sp) (sp_offset sp) (sp_density sp) (sp_hide1 sp) (sp_hide2 sp)
    (sp_diameters sp) (sp_diameter_var sp) (sp_intensities sp) (sp_intensity_var sp) (sp_rhos sp) (sp_rho_var sp)
    (sp_dt sp) n (sp_noise_mean sp) (sp_noise_std sp).

Lemma noise_particles : forall sq g sp n pb rx ry key_i d f,
  first_particle sq g (noise_to n sp) pb key_i d = first_particle sq g sp pb key_i d /\
  second_particle sq g (noise_to n sp) pb rx ry key_i d f = second_particle sq g sp pb rx ry key_i d f /\
  num_particles (noise_to n sp) pb = num_particles sp pb /\ density g (noise_to n sp) = density g sp.
Proof.
  intros sq g [b im off de h1 h2 di dv i iv rh rv dt nu nm ns] n pb rx ry key_i d f.
  unfold first_particle, second_particle, position, particle_params, num_particles, max_density, density, noise_to.
  cbn [sp_batch sp_image sp_offset sp_density sp_hide1 sp_hide2 sp_diameters sp_diameter_var sp_intensities sp_intensity_var sp_rhos sp_rho_var sp_dt].
  repeat split; reflexivity.
Qed.

(** Uniform noise below [n]: every pixel becomes brighter by at most [n]. *)
Theorem C121_noise : forall ex sq g a si dec sc sc', lawful g -> (0 <= sp_noise_uniform (a_spec a))%Q -> a_mask a = None -> a_hist a = None ->
  Synthetic.synthetic ex sq g a si dec = Ok sc -> Synthetic.synthetic ex sq g (with_noise 0 a) si dec = Ok sc' ->
  forall ops u, Forall2 (alike (both (brighter (sp_noise_uniform (a_spec a))))) (fst (srun sc ops (syn_init sc u))) (fst (srun sc' ops (syn_init sc' u))).
Proof.
  intros ex sq g a si dec sc sc' [LAW _] N M HN H S ops u. set (n := sp_noise_uniform (a_spec a)) in *.
  refine (proj2 (samplers_alike ex sq g a ex sq g _ si dec sc sc' (both (brighter n)) (noise_plan _ _) H S _ ops u)).
  intros geo _ k j f. unfold device_image. cbn [split2]. cbn [with_noise a_mask a_hist]. rewrite M, HN.
  set (sp := device_spec a geo). change (device_spec (with_noise 0 a) geo) with (noise_to 0 sp).
  assert (NU : sp_noise_uniform sp = n) by reflexivity. clearbody sp.
  assert (G : forall k' im, brighter n (finish g sp None None k' im) (finish g (noise_to 0 sp) None None k' im)).
  { intros k' im. split; [split; reflexivity|]. intros r c. unfold finish, equalized, masked, noisy, add_noise, noise_to.
    cbn [at_ rows cols crop sp_image sp_offset sp_noise_uniform sp_noise_mean sp_noise_std]. rewrite NU.
    apply clip_near; [Lqa.lra|]. unfold uniform_in.
    match goal with |- context [g_unit g ?k1 ?k2 ?k3] => pose proof (LAW k1 k2 k3) as L; set (q := g_unit g k1 k2 k3) in * end.
    match goal with |- context [(g_normal g ?k1 ?k2 ?k3 * ?z)%Q] => set (z1 := (g_normal g k1 k2 k3 * z)%Q) end.
    match goal with |- context [at_ ?y ?r1 ?c1] => set (z2 := at_ y r1 c1) end. set (z3 := sp_noise_mean _). clearbody z1 z2 z3 q n.
    destruct (Qle_bool 0 (q * (0 - 0) + 0)), (Qle_bool 0 (q * (n - 0) + 0)); split; nra. }
  unfold scan_body. set (pb := o_pb geo). set (fl := nth _ _ _).
  destruct (noise_particles sq g sp 0%Q pb (snd (o_res geo)) (fst (o_res geo)) (Child (Child k 0) j) (density g sp (Child k 1) j) fl) as (P1 & P2 & P3 & P4).
  rewrite P4, P1, P2, P3. change (sp_diameters (noise_to 0 sp)) with (sp_diameters sp).
  change (sp_intensities (noise_to 0 sp)) with (sp_intensities sp). change (sp_rhos (noise_to 0 sp)) with (sp_rhos sp).
  split; [apply G|]. split; [apply G|]. repeat split; reflexivity.
Qed.
Print Assumptions C121_noise.

(** From the configuration file: the mask is the array at the path given. *)
Theorem C121_configured : forall w d p sch a path x h k, 0 < w_devices w ->
  make (exact_world w) (PDict d) = Ok (SyntheticSampler p sch) -> asked (exact_world w) d sch a ->
  given "mask"%string d = Some (PStr path) -> w_npload (exact_world w) path = Ok x -> shape x = [h; k] -> a_hist a = None ->
  forall ex sq g fuel, let sc := compiled ex sq g a w p sch fuel in
  exists sc', Synthetic.synthetic ex sq g (with_post None None a) (sif_of fuel sch) (fun f => Synthetic.read_field (flow_array fuel sch f)) = Ok sc' /\
  forall ops u, Forall2 (alike (both (times x h k))) (fst (srun sc ops (syn_init sc u))) (fst (srun sc' ops (syn_init sc' u))).
Proof.
  intros w d p sch a path x h k WD H AS G N E HN ex sq g fuel sc.
  destruct (as_mask _ _ _ _ AS) as (m & AM & M).
  assert (MX : m = Some x).
  { destruct m as [y|]; cbn [array_setting] in AM.
    - destruct AM as (q & Q1 & _ & Q3). rewrite G in Q1. injection Q1 as <-. rewrite N in Q3. now injection Q3 as ->.
    - exfalso. unfold setting in AM. rewrite G in AM. destruct AM as [AM|[AM _]]; discriminate AM. }
  subst m. cbn [option_map] in M. destruct (C95_arguments w d p sch a WD H AS) as (_ & _ & C).
  exact (proj2 (C121_mask ex sq g a _ _ x h k sc E M HN (C ex sq g fuel))).
Qed.
Print Assumptions C121_configured.

(** Cases: the sampler of C93 with half of its images masked, with a histogram
    of two levels, and with noise. *)
Lemma still_plan : forall a, same_plan still_args a -> extras_ok a = true -> forall g,
  exists sc, Synthetic.synthetic toy_ex (fun x => x) g a still_sif (fun f => f) = Ok sc.
Proof.
  intros a P OK g. unfold Synthetic.synthetic. rewrite OK, <- (plan_geometry _ _ P). cbn [negb].
  destruct (construct exact (geometry_args still_args)) eqn:E; [|vm_compute in E; discriminate]. cbn [bind]. unfold make_scfg.
  rewrite <- (sl_devices _ _ P), <- (sl_batch _ _ P), <- (sl_flows _ _ P), <- (sl_repeat _ _ P). eexists. cbn. reflexivity.
Qed.

Definition half_mask : arr := mkArr [24; 24] (repeat 1%Q 288 ++ repeat 0%Q 288).
Definition two_levels : list Q := (repeat 0 10 ++ [300] ++ repeat 0 200 ++ [276] ++ repeat 0 44)%Q.
Example C121_mask_case : let a := with_post (Some (picture half_mask)) None still_args in
  shape half_mask = [24; 24] /\ elt half_mask [11; 23] = 1%Q /\ elt half_mask [12; 0] = 0%Q /\
  exists sc, Synthetic.synthetic toy_ex (fun x => x) toy_gen a still_sif (fun f => f) = Ok sc.
Proof.
  split; [reflexivity|]. split; [vm_compute; reflexivity|]. split; [vm_compute; reflexivity|].
  apply still_plan; [apply post_plan | vm_compute; reflexivity].
Qed.
Example C121_histogram_case : let a := with_post None (Some two_levels) still_args in
  target two_levels /\ (exists sc, Synthetic.synthetic toy_ex (fun x => x) toy_gen a still_sif (fun f => f) = Ok sc) /\
  exists sc, Synthetic.synthetic toy_ex (fun x => x) toy_gen (with_post (a_mask a) None a) still_sif (fun f => f) = Ok sc.
Proof.
  split; [|split].
  - split; [reflexivity|]. split; [|vm_compute; reflexivity]. intros x X. apply Qle_bool_iff. revert x X. apply Forall_forall. vm_compute. repeat constructor.
  - apply still_plan; [apply post_plan | vm_compute; reflexivity].
  - apply still_plan; [split; reflexivity | vm_compute; reflexivity].
Qed.
Example C121_noise_case : let a := with_noise 5 still_args in
  lawful toy_gen /\ (0 <= sp_noise_uniform (a_spec a))%Q /\
  (exists sc, Synthetic.synthetic toy_ex (fun x => x) toy_gen a still_sif (fun f => f) = Ok sc) /\
  exists sc, Synthetic.synthetic toy_ex (fun x => x) toy_gen (with_noise 0 a) still_sif (fun f => f) = Ok sc.
Proof.
  split; [exact toy_lawful|]. split; [vm_compute; discriminate|].
  split; (apply still_plan; [split; reflexivity | vm_compute; reflexivity]).
Qed.

(** The mask as a file of the configuration. *)
Definition masked_world : world :=
  let v := still_world 2 in
  mkWorld (w_exists v) (w_fs v) (w_yaml v) (w_h5 v) (w_npy v) (w_jpg v) (w_mat v) (w_pil v) (w_dirs v) (w_rng v) (w_devices v)
    (fun _ => Ok half_mask) (w_num v) (w_conv v).
Definition masked_dict : list (string * pyval) := exM_dict ".npy" 3 2 0 0 (("mask", PStr "d/flow_1.npy") :: still_entries 30)%string.
Example C121_configured_case : exists p sch a,
  make (exact_world masked_world) (PDict masked_dict) = Ok (SyntheticSampler p sch) /\ asked (exact_world masked_world) masked_dict sch a /\
  given "mask"%string masked_dict = Some (PStr "d/flow_1.npy") /\ w_npload (exact_world masked_world) "d/flow_1.npy" = Ok half_mask /\ a_hist a = None.
Proof.
  assert (H : outline (make (exact_world masked_world) (PDict masked_dict)) =
    Some (2, 2, 1, (0, 0, Some (Npy, false, (256, 256)), Some (false, true, ["d/flow_1.npy"; "d/flow_2.npy"; "d/flow_3.npy"]%string)))) by (vm_compute; reflexivity).
  destruct (make (exact_world masked_world) (PDict masked_dict)) as [[B sch|p sch]|e] eqn:E;
    [discriminate | cbn [outline] in H | discriminate].
  injection H as ED EF EB H. destruct sch as [at_ c s|at_ ec s|B N [at_ c s|at_ ec s|B' N' sch]]; try discriminate H.
  injection H as E1 E2 E3 E4 E5 E6.
  exists p, (SFile at_ c s), (with_post (Some (picture half_mask)) None (still_settings 3 2 2 30 60)).
  split; [reflexivity|]. split; [|split; [reflexivity | split; reflexivity]].
  constructor; try fin; try pos; try two; try rngs.
  - exists (seq 0 2). split; [left; split; [right; split; reflexivity | reflexivity] | reflexivity].
  - eexists _, _, _, _. split; [reflexivity|]. split; [left; reflexivity|]. split; value.
  - exists 60, 60, 2. split; [|reflexivity]. unfold flow_shape, file_flow_shape, npy_flow_shape. rewrite E1, E6. reflexivity.
  - split; fin.
  - split; fin.
  - reflexivity.
  - exists (Some half_mask). split; [|reflexivity]. exists "d/flow_1.npy"%string. repeat split; reflexivity.
  - exists None. split; [right; split; reflexivity | split; reflexivity].
Qed.
