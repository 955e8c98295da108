(** Properties C93, C94: the synthetic sampler as a whole. *)
From Coq Require Import List Arith ZArith QArith Qround Bool Lia Lqa String Permutation.
From Verif Require Import Prelude Model.Interp Model.Apply Model.Render Model.Hist Model.DataGen Model.Keys.
From Verif Require Import Model.Geometry Model.Sampler Model.Synthetic.
From Verif Require Import Spec.InterpSpec Spec.WarpSpec Spec.GeometrySpec Spec.RenderSpec Spec.SamplerSpec Spec.LoaderSpec Spec.SyntheticSpec.
From Verif Require Import Proofs.InterpProofs Proofs.WarpProofs Proofs.AdapterProofs Proofs.GeometryProofs Proofs.KeyProofs.
From Verif Require Import Proofs.RenderProofs Proofs.ShiftProofs Proofs.SamplerProofs Proofs.SyntheticProofs.
From Verif Require Import Model.Base Model.Loaders Model.Stack Spec.BaseSpec Spec.PipelineSpec Proofs.LoaderProofs Proofs.PipelineProofs.
From Verif Require Import Properties.GeometryProps Properties.SamplerProps Properties.RenderProps Properties.PipelineProps.
Import ListNotations.
Local Open Scope nat_scope.

(** ** C93 *)

(** Batch after batch, over any scheduler: the reported flows and the images
    are what the adapter and the generator return on the devices, each given
    its share of the scheduler's flow fields, put one after the other. *)
Theorem C93_device_calls : forall ex sq g a si dec c geo u D S_,
  synthetic ex sq g a si dec = Ok c -> construct exact (geometry_args a) = Ok geo ->
  delivers si (sc_F c) u D S_ -> (forall j, shardable c (D j)) ->
  (forall j, si_protocol si = true -> si_steps si (S_ j) <> 0%Z) ->
  forall m, exists b, nth_error (fst (srun c (repeat SNext (S m)) (syn_init c u))) m = Some (SBatch b) /\
    let flows := fd_flows (D (m / sc_bpf c)) in
    let on dv := map dec (device_part (a_devices a) flows dv) in
    ba_flows b = flat_map (fun dv => fst (flow_field_adapter (device_adapter a geo) (on dv))) (seq 0 (a_devices a)) /\
    ba_images b =
      flat_map (fun dv => device_images ex sq g a geo (device_key (a_seed a) m dv)
                            (snd (flow_field_adapter (device_adapter a geo) (on dv)))) (seq 0 (a_devices a)).
Proof.
  intros ex sq g a si dec c geo u D S_ H G DL SH ST m.
  destruct (synthetic_inv _ _ _ _ _ _ _ H) as (geo' & _ & OK & _).
  destruct (C32_reuse _ _ _ _ c u D S_ OK DL SH ST (syn_init c u) m (SamplerProofs.init_fresh c u) eq_refl) as ((b & E & M) & _).
  exists b. split; [exact E|]. cbv zeta. exact (made_calls _ _ _ _ _ _ _ H _ G m _ b M (SH _)).
Qed.
Print Assumptions C93_device_calls.

(** Changing the random numbers behind the keys of one pair of images (batch
    [m0], device [d0], its pair number [j0]) changes nothing else: flows, mask
    and files stay, and so does every other pair. *)
Theorem C93_pairs_independent : forall ex sq g g' a si dec c c' m0 d0 j0,
  synthetic ex sq g a si dec = Ok c -> synthetic ex sq g' a si dec = Ok c' ->
  (forall k, ~ key_of_pair (a_seed a) (per_device a) m0 d0 j0 k -> agree g g' k) ->
  forall m d b b', made_from c m d b -> made_from c' m d b' ->
  ba_flows b = ba_flows b' /\ ba_mask b = ba_mask b' /\ ba_files b = ba_files b' /\
  forall i, i < sc_B c -> (m, i / per_device a, i mod per_device a) <> (m0, d0, j0) ->
  exists o o', nth_error (ba_images b) i = Some o /\ nth_error (ba_images b') i = Some o' /\ same_pair o o'.
Proof.
  intros ex sq g g' a si dec c c' m0 d0 j0 H H' AG m d b b' M M'.
  destruct (synthetic_inv _ _ _ _ _ _ _ H) as (geo & G & OK & Nd & HB & _ & _ & _ & Pd & _).
  destruct (synthetic_inv _ _ _ _ _ _ _ H') as (geo' & G' & _ & _ & HB' & _).
  assert (EB : sc_B c = sc_B c') by congruence.
  split; [|split; [|split]].
  - apply nth_error_eq. intros i. destruct (Nat.lt_ge_cases i (sc_B c)) as [I | I].
    + destruct (made_entry _ _ _ _ _ _ _ H _ G m d b i M I) as (f & _ & E1 & E2 & _). rewrite EB in I.
      destruct (made_entry _ _ _ _ _ _ _ H' _ G m d b' i M' I) as (f' & _ & E1' & E2' & _). rewrite EB, E1' in E1. congruence.
    + destruct M as (_ & L & _), M' as (_ & L' & _).
      rewrite (proj2 (nth_error_None _ _)) by lia. symmetry. apply nth_error_None. lia.
  - destruct M as (_ & _ & _ & E & _), M' as (_ & _ & _ & E' & _). congruence.
  - destruct M as (_ & _ & _ & _ & E), M' as (_ & _ & _ & _ & E'). congruence.
  - intros i I NE.
    destruct (made_entry _ _ _ _ _ _ _ H _ G m d b i M I) as (f & _ & E1 & _ & E2).
    assert (I' : i < sc_B c') by congruence.
    destruct (made_entry _ _ _ _ _ _ _ H' _ G m d b' i M' I') as (f' & _ & E1' & _ & E2').
    rewrite EB, E1' in E1. injection E1 as ->. rewrite E2, E2'. eexists _, _. split; [reflexivity|]. split; [reflexivity|].
    destruct OK as (N1 & _ & _ & _ & _ & BM). rewrite Nd in N1, BM, Pd.
    destruct (entry_split (sc_B c) (a_devices a) i N1 BM I) as (_ & _ & _ & J). rewrite Pd in J.
    set (dv := i / per_device a) in *. set (j := i mod per_device a) in *. set (K := device_key (a_seed a) m dv).
    assert (A : forall p k, In (p, k) (pair_draws (Child K 0) (Child K 1) j) -> agree g g' k).
    { intros p k IN. apply AG. intros (p' & IN' & E). apply NE.
      pose proof (pair_draws_in K (per_device a) j p k J IN) as IN2.
      destruct (C38_keys_distinct _ _ _ _ _ _ _ _ _ _ IN2 IN') as (-> & -> & <-).
      destruct (pair_draws_of _ _ _ _ _ IN) as [E' | E']; rewrite E' in E; [discriminate|]. injection E as ->. reflexivity. }
    unfold device_image. cbn [split2].
    split; [apply first_image_agree; intros p k IN _; exact (A p k IN)|].
    split; [apply second_image_agree; intros p k IN _; exact (A p k IN)|].
    apply params_agree. intros p k IN _ _. exact (A p k IN).
Qed.
Print Assumptions C93_pairs_independent.

(** What is drawn for one image of the pairs only (its hidden particles, its
    noise, the second image's variations) leaves the other image and the
    reported parameters alone. *)
Theorem C93_images_independent : forall ex sq g g' a si dec c c',
  synthetic ex sq g a si dec = Ok c -> synthetic ex sq g' a si dec = Ok c' ->
  let except (only : use -> bool) := forall m d p k,
    In (p, k) (draws (device_key (a_seed a) m d) (per_device a)) -> only p = false -> agree g g' k in
  forall m d b b', made_from c m d b -> made_from c' m d b' -> forall i, i < sc_B c ->
  exists o o', nth_error (ba_images b) i = Some o /\ nth_error (ba_images b') i = Some o' /\
    (except only_second -> same_picture (out1 o) (out1 o')) /\
    (except only_first -> same_picture (out2 o) (out2 o')) /\
    (except (fun p => only_first p || only_second p) ->
       out_density o = out_density o' /\ out_diameters o = out_diameters o' /\
       out_intensities o = out_intensities o' /\ out_rhos o = out_rhos o').
Proof.
  intros ex sq g g' a si dec c c' H H' except m d b b' M M' i I.
  destruct (synthetic_inv _ _ _ _ _ _ _ H) as (geo & G & OK & Nd & HB & _ & _ & _ & Pd & _).
  destruct (synthetic_inv _ _ _ _ _ _ _ H') as (geo' & G' & _ & _ & HB' & _).
  assert (EB : sc_B c = sc_B c') by congruence.
  destruct (made_entry _ _ _ _ _ _ _ H _ G m d b i M I) as (f & _ & E1 & _ & E2).
  assert (I' : i < sc_B c') by congruence.
  destruct (made_entry _ _ _ _ _ _ _ H' _ G m d b' i M' I') as (f' & _ & E1' & _ & E2').
  rewrite EB, E1' in E1. injection E1 as ->. rewrite E2, E2'. eexists _, _. split; [reflexivity|]. split; [reflexivity|].
  destruct OK as (N1 & _ & _ & _ & _ & BM). rewrite Nd in N1, BM, Pd.
  destruct (entry_split (sc_B c) (a_devices a) i N1 BM I) as (_ & _ & _ & J). rewrite Pd in J.
  unfold device_image. cbn [split2].
  split; [|split]; intros A.
  - apply first_image_agree. intros p k IN O. exact (A _ _ p k (pair_draws_in _ _ _ p k J IN) O).
  - apply second_image_agree. intros p k IN O. exact (A _ _ p k (pair_draws_in _ _ _ p k J IN) O).
  - apply params_agree. intros p k IN O1 O2. apply (A _ _ p k (pair_draws_in _ _ _ p k J IN)). rewrite O1, O2. reflexivity.
Qed.
Print Assumptions C93_images_independent.

(** Two generators that differ in the diameter range of one pair of the batch
    number 1: on two devices, four pairs per batch. *)
Definition still_args : syn_args :=
  mkSynArgs (mkGspec 3 (24, 24)%Z (0, 0)%Z ((4 # 1600), (4 # 1600))%Q 0 0 [(1 # 2, 1); (3 # 4, 2)]%Q 0 [(50, 200)]%Q 0
               [(-(9 # 10), 9 # 10)]%Q 0 1 0 0 0)%Q
    (6, 6)%Q 2 2 1 (30, 30)%Q (60, 60)%Z 2 1 (4, 4)%Q (-(4), -(4))%Q true 7 None None.
Definition still_geom : geom exact :=
  match construct exact (geometry_args still_args) with Ok g => g | Err _ => toy_geom end.
Definition still_flow : flow := mkFlow 60 60 (fun _ _ => 1 # 2)%Q (fun _ _ => 1)%Q.
Definition still_data : fdata flow unit := mkFdata [still_flow; still_flow] None None None None.
Definition still_sif : sif :=
  mkSif unit flow unit (fun n u => (Ok still_data, u)) false false (fun _ => 1%Z) (fun u => (Err AttributeError, u)) (fun u => u).
Definition other_gen : generator :=
  mkGenerator (g_unit toy_gen) (g_normal toy_gen)
    (fun k n => match k with
                | Child (Child (Child (Child (Child (Child (Seed 7) 0) 1) 1) 0) 1) 6 => n - 1
                | _ => g_randint toy_gen k n
                end).
Definition still_cfg (g : generator) : scfg still_sif flow flow pair_out :=
  match synthetic toy_ex (fun a => a) g still_args still_sif (fun f => f) with
  | Ok c => c
  | Err _ => mkScfg still_sif flow flow pair_out 0 0 0 0 0 (fun f => f) (fun f => f)
               (device_image toy_ex (fun a => a) g still_args toy_geom)
  end.
Definition still_diameters (g : generator) : list (list (Q * Q)) :=
  map (fun o => match o with SBatch b => map out_diameters (ba_images b) | _ => [] end)
    (fst (srun (still_cfg g) (repeat SNext 2) (syn_init (still_cfg g) tt))).

Lemma still_accepted : forall g, synthetic toy_ex (fun a => a) g still_args still_sif (fun f => f) = Ok (still_cfg g).
Proof.
  intros g. unfold still_cfg. destruct (synthetic _ _ g _ _ _) eqn:E; [reflexivity|].
  exfalso. revert E. unfold synthetic. change (negb (extras_ok still_args)) with false. cbv iota.
  destruct (construct exact (geometry_args still_args)) eqn:E; [|vm_compute in E; discriminate]. cbn. discriminate.
Qed.

Lemma still_made : forall g m, exists b, made_from (still_cfg g) m still_data b.
Proof.
  intros g m. destruct (synthetic_inv _ _ _ _ _ _ _ (still_accepted g)) as (geo & _ & OK & Nd & _ & Fe & _).
  assert (SH : shardable (still_cfg g) still_data) by (split; [rewrite Fe; reflexivity | rewrite Fe, Nd; reflexivity]).
  destruct (C32_reuse _ _ _ _ (still_cfg g) tt (fun _ => still_data) (fun _ => tt) OK
              (conj eq_refl (fun _ => eq_refl)) (fun _ => SH) (fun _ E => ltac:(discriminate E))
              (syn_init (still_cfg g) tt) m (SamplerProofs.init_fresh _ _) eq_refl) as ((b & _ & M) & _).
  exists b. exact M.
Qed.

Example C93_case :
  (exists c c', synthetic toy_ex (fun a => a) toy_gen still_args still_sif (fun f => f) = Ok c /\
     synthetic toy_ex (fun a => a) other_gen still_args still_sif (fun f => f) = Ok c' /\
     (exists b b', made_from c 1 still_data b /\ made_from c' 1 still_data b')) /\
  (forall k, ~ key_of_pair (a_seed still_args) (per_device still_args) 1 1 1 k -> agree toy_gen other_gen k) /\
  still_diameters toy_gen = [repeat ((1 # 2), 1)%Q 4; repeat ((1 # 2), 1)%Q 4] /\
  still_diameters other_gen = [repeat ((1 # 2), 1)%Q 4; [((1 # 2), 1); ((1 # 2), 1); ((1 # 2), 1); ((3 # 4), 2)]%Q].
Proof.
  split; [|split; [|split; lazy; reflexivity]].
  - exists (still_cfg toy_gen), (still_cfg other_gen). split; [apply still_accepted|]. split; [apply still_accepted|].
    destruct (still_made toy_gen 1) as [b M]. destruct (still_made other_gen 1) as [b' M']. exists b, b'. split; assumption.
  - intros k N. split; [reflexivity|]. split; [reflexivity|]. intros n. cbn [g_randint other_gen].
    repeat match goal with |- _ = match ?x with _ => _ end => destruct x; try reflexivity end.
    exfalso. apply N. exists (UDiameterIdx 1). split; [vm_compute; auto 60 | reflexivity].
Qed.

(** ** C94 *)
Local Open Scope Q_scope.

Lemma max_diameter_nonneg : forall sp, valid_ranges sp -> 0 <= max_snd (sp_diameters sp).
Proof.
  intros sp (_ & (D0 & DD) & _). destruct (sp_diameters sp) as [|d l]; [congruence|]. cbn [max_snd].
  assert (G : forall (l : list (Q * Q)) m, 0 <= m -> 0 <= fold_left (fun (m : Q) (e : Q * Q) => if Qle_bool (snd e) m then m else snd e) l m).
  { clear. induction l as [|e l IH]; intros m H; [exact H|]. cbn [fold_left]. apply IH. destruct (Qle_bool (snd e) m) eqn:E; [exact H|].
    apply Qle_bool_false in E. lra. }
  apply G. pose proof (DD d (or_introl eq_refl)). lra.
Qed.

(** The conditions: no differences within a pair other than the motion, nothing
    done to the images afterwards, a flow grid that fits the simulated area a
    whole number of times, and a motion by whole pixels. *)
Record clean (ex sq : Q -> Q) (g : generator) (a : syn_args) (geo : geom exact) (rad : Z) : Prop := mkClean {
  cl_geom : construct exact (geometry_args a) = Ok geo;
  cl_gen : lawful g;
  cl_exp : respects ex;
  cl_sqrt : sqrt_like sq;
  cl_ranges : valid_ranges (a_spec a);
  cl_noise : noiseless (a_spec a);
  cl_mask : a_mask a = None;
  cl_hist : a_hist a = None;
  cl_units : a_pixels a = true;
  cl_grid : forall s, 1 <= grid_steps s (geometry_args a) geo /\ integral (grid_steps s (geometry_args a) geo);
  cl_radius : radius_of (max_snd (sp_diameters (a_spec a))) rad
}.
Definition whole_pixels (a : syn_args) (u v : Q) (dy dx : Z) : Prop :=
  u * a_res a * sp_dt (a_spec a) == inject_Z dx /\ v * a_res a * sp_dt (a_spec a) == inject_Z dy.

Lemma steady_entry : forall ex sq g a geo rad u v dy dx f K j,
  clean ex sq g a geo rad -> whole_pixels a u v dy dx -> steady u v f -> (j < per_device a)%nat ->
  shows_displacement (o_pb geo) (o_off geo) rad dy dx
    (device_image ex sq g a geo K j (snd (process_single (device_adapter a geo) f)))
    (fst (process_single (device_adapter a geo) f)).
Proof.
  intros ex sq g a geo rad u v dy dx f K j [G LAW RE SQ VAL NL MN HN PX ST RO] [EX EY] (FH & FW & U) J.
  set (cg := geometry_args a) in *.
  destruct (accepted_axis cg geo G true) as [ey AY]. destruct (accepted_axis cg geo G false) as [exx AX].
  set (A := device_adapter a geo) in *.
  assert (P1 : (0 <= fst (ad_pad A))%Z) by (apply (pad_spec true cg geo ey AY)).
  assert (P2 : (0 <= snd (ad_pad A))%Z) by (apply (pad_spec false cg geo exx AX)).
  assert (B : flow_bounded u u v v f).
  { intros r k R1 R2. destruct (U r k R1 R2) as [E3 E4]. rewrite E3, E4. lra. }
  assert (WL : well A f) by (repeat split; assumption).
  assert (C : forall x y, let p := pad_edge (fst (ad_pad A)) (snd (ad_pad A)) f in
     bilinear (chan0 p) x y == u /\ bilinear (chan1 p) x y == v).
  { intros x0 y0 g0. destruct (chan_bounds A f u u v v x0 y0 WL B) as [A1 A2]. fold g0 in A1, A2. lra. }
  assert (PA : ad_pixels A = true) by exact PX.
  split.
  { intros y x. unfold process_single. cbn [fst fu fv]. rewrite PA. destruct (C (rep_x A x) (rep_y A y)) as [E3 E4].
    change (ad_res A) with (a_res a). change (ad_dt A) with (sp_dt (a_spec a)). rewrite E3, E4, <- EX, <- EY. split; ring. }
  assert (UP : WarpSpec.uniform u v (snd (process_single A f))).
  { intros r k. unfold process_single. cbn [snd fu fv]. apply C. }
  destruct (ST true) as [OY [zy ZY]]. destruct (ST false) as [OX [zx ZX]].
  destruct (trunc_par _ OY) as [FY TY]. destruct (trunc_par _ OX) as [FX TX].
  set (pf := snd (process_single A f)) in *.
  assert (HY : fH pf = Qfloor (grid_steps true cg geo)) by exact TY.
  assert (HX : fW pf = Qfloor (grid_steps false cg geo)) by exact TX.
  assert (SY : inject_Z (fH pf) == grid_steps true cg geo).
  { rewrite HY, (Qfloor_comp _ _ ZY), floor_inj. symmetry. exact ZY. }
  assert (SX : inject_Z (fW pf) == grid_steps false cg geo).
  { rewrite HX, (Qfloor_comp _ _ ZX), floor_inj. symmetry. exact ZX. }
  assert (DISP : displaced_by (device_spec a geo) (o_pb geo) (snd (o_res geo)) (fst (o_res geo)) u v pf dy dx).
  { assert (R : 0 < a_res a) by exact (af_res _ _ _ _ AY).
    unfold displaced_by. rewrite SY, SX, <- EY, <- EX. change (sp_dt (device_spec a geo)) with (sp_dt (a_spec a)).
    unfold grid_steps in *. cbn [sel] in *. change (g_res cg) with (a_res a) in *. split.
    - assert (N1 : ~ inject_Z (fst (o_pb geo)) == 0) by (intros Z; rewrite Z in OY; unfold Qdiv in OY; rewrite !Qmult_0_l in OY; lra).
      assert (N2 : ~ fst (o_res geo) == 0) by (intros Z; rewrite Z in OY; rewrite Qmult_0_r in OY; lra).
      field. repeat split; try assumption. lra.
    - assert (N1 : ~ inject_Z (snd (o_pb geo)) == 0) by (intros Z; rewrite Z in OX; unfold Qdiv in OX; rewrite !Qmult_0_l in OX; lra).
      assert (N2 : ~ snd (o_res geo) == 0) by (intros Z; rewrite Z in OX; rewrite Qmult_0_r in OX; lra).
      field. repeat split; try assumption. lra. }
  intros r k IN IN'.
  assert (R0 : (0 <= rad)%Z).
  { exact (radius_pos _ _ (max_diameter_nonneg _ VAL) RO). }
  apply (C79_shift ex sq g (device_spec a geo) (o_pb geo) (snd (o_res geo)) (fst (o_res geo)) K [pf]
           (device_image ex sq g a geo K j pf) u v dy dx rad); try assumption.
  - destruct IN as [[] _]. lia.
  - destruct IN as [_ []]. lia.
  - discriminate.
  - intros p [<- | []]. split; [exact UP|]. split; [lia|]. split; [lia|exact DISP].
  - rewrite <- MN, <- HN at 1. change (In (device_image ex sq g a geo K j pf) (device_images ex sq g a geo K [pf])).
    rewrite <- (device_call ex sq g a geo K [pf] pf) by discriminate. unfold gen_images.
    apply in_map_iff. exists j. split; [|apply in_seq; lia]. cbn [List.length]. rewrite Nat.mod_1_r. reflexivity.
Qed.

(** A uniform flow through the whole sampler: every entry of every batch
    reports that flow in pixels per interval and shows it. *)
Theorem C94_uniform_batches : forall ex sq g a si dec c geo rad u v dy dx m d b,
  synthetic ex sq g a si dec = Ok c -> clean ex sq g a geo rad -> whole_pixels a u v dy dx ->
  made_from c m d b -> (forall f, In f (fd_flows d) -> steady u v (dec f)) ->
  forall i, (i < sc_B c)%nat -> exists o fl,
    nth_error (ba_images b) i = Some o /\ nth_error (ba_flows b) i = Some fl /\
    shows_displacement (o_pb geo) (o_off geo) rad dy dx o fl.
Proof.
  intros ex sq g a si dec c geo rad u v dy dx m d b H CL WP M FL i I.
  destruct (made_entry _ _ _ _ _ _ _ H _ (cl_geom _ _ _ _ _ _ CL) m d b i M I) as (f & INF & _ & E1 & E2).
  eexists _, _. split; [exact E2|]. split; [exact E1|].
  destruct (synthetic_inv _ _ _ _ _ _ _ H) as (geo' & _ & OK & Nd & _ & _ & _ & _ & Pd & _).
  destruct OK as (N1 & _ & _ & _ & _ & BM). rewrite Nd in N1, BM, Pd.
  destruct (entry_split (sc_B c) (a_devices a) i N1 BM I) as (_ & _ & _ & J). rewrite Pd in J.
  apply (steady_entry ex sq g a geo rad u v); auto.
Qed.
Print Assumptions C94_uniform_batches.

(** Row [r], column [k] of the flow are read at [x[r, k]], u from channel 0 and
    v from channel 1. *)
Theorem C94_layout : forall x h w ch r k, shape x = [h; w; ch] -> (r < h)%nat -> (k < w)%nat ->
  fH (read_field x) = Z.of_nat h /\ fW (read_field x) = Z.of_nat w /\
  fu (read_field x) (Z.of_nat r) (Z.of_nat k) = elt x [r; k; 0%nat] /\ fv (read_field x) (Z.of_nat r) (Z.of_nat k) = elt x [r; k; 1%nat].
Proof.
  intros x h w ch r k E R K. unfold read_field, elt. rewrite E. cbn [fH fW fu fv flat_index size fold_right]. rewrite !Nat2Z.id.
  split; [reflexivity|]. split; [reflexivity|]. split; f_equal; lia.
Qed.
Print Assumptions C94_layout.

Lemma everywhere_steady : forall u v x, everywhere u v x -> steady u v (read_field x).
Proof.
  intros u v x (h & w & ch & E & H1 & W1 & H). assert (S1 : fH (read_field x) = Z.of_nat h) by (unfold read_field; rewrite E; reflexivity).
  assert (S2 : fW (read_field x) = Z.of_nat w) by (unfold read_field; rewrite E; reflexivity). unfold steady. rewrite S1, S2.
  split; [lia|]. split; [lia|]. intros r k R K.
  destruct (C94_layout x h w ch (Z.to_nat r) (Z.to_nat k) E ltac:(lia) ltac:(lia)) as (_ & _ & U & V). rewrite !Z2Nat.id in U, V by lia.
  rewrite U, V. apply H; lia.
Qed.

(** From the files: whatever order, repetition and batching, every entry whose
    place in the flow batch is filled shows the flow that all files hold. *)
Theorem C94_from_files : forall ex sq g a geo rad u v dy dx c C fl k fuel sc,
  usable c C fl fuel -> synthetic ex sq g a (base_sif c fuel) read_field = Ok sc -> Nat.divide (a_devices a) (a_F a) ->
  clean ex sq g a geo rad -> whole_pixels a u v dy dx ->
  (forall s, In s (epoch C fl) -> everywhere u v (sd_flow s)) ->
  let shown m := exists b mk, answer sc (init c fl k) m = Some (SBatch b) /\ ba_mask b = Some mk /\
    forall i, (i < sc_B sc)%nat -> exists o fl, nth_error (ba_images b) i = Some o /\ nth_error (ba_flows b) i = Some fl /\
      (nth_error mk (source (a_devices a) (sc_B sc) (a_F a) i) = Some true ->
       shows_displacement (o_pb geo) (o_off geo) rad dy dx o fl) in
  exists x, stream_of (c_randomize c) (c_loop c) C fl x /\
  if c_loop c then forall m, shown m
  else exists J, last_batch (a_F a) x J /\ (forall m, (m < J * a_bpf a)%nat -> shown m) /\
         answer sc (init c fl k) (J * a_bpf a) = Some (Sampler.SRaise StopIteration).
Proof.
  intros ex sq g a geo rad u v dy dx c C fl k fuel sc US H DV CL WP ST shown.
  destruct (synthetic_inv _ _ _ _ _ _ _ H) as (geo' & G & OK & Nd & _ & Fe & Bp & Sd & Pd & Ad & Bo & Re).
  rewrite (cl_geom _ _ _ _ _ _ CL) in G. injection G as <-.
  pose proof OK as (N1 & _ & F1 & _ & B1 & BM).
  assert (FM : (sc_F sc mod sc_nd sc = 0)%nat).
  { rewrite Fe, Nd. destruct DV as [q E]. rewrite E. apply Nat.mod_mul. lia. }
  destruct (C90_synthetic c C fl k fuel _ _ _ sc US OK FM) as (x & SO & PL).
  exists x. split; [exact SO|].
  assert (K : forall m b, answer sc (init c fl k) m = Some (SBatch b) ->
    shows (sc_nd sc) (sc_B sc) (sc_F sc) (sc_bpf sc) (sc_seed sc) (sc_adapt sc) (sc_bounds sc) (sc_render sc) x m b -> shown m).
  { intros m b E (_ & _ & SH).
    assert (MK : exists mk, ba_mask b = Some mk).
    { destruct (SH 0%nat ltac:(lia)) as (_ & (mk & fs & M & _) & _). exists mk. exact M. }
    destruct MK as [mk MK]. exists b, mk. split; [exact E|]. split; [exact MK|].
    intros i I. destruct (SH i I) as (_ & LA & f & FO & E1 & E2). rewrite Nd, Fe in LA, FO. rewrite Ad in E1. rewrite Pd, Re, Bo in E2.
    eexists _, _. split; [exact E2|]. split; [exact E1|]. intros T.
    destruct LA as (mk' & fs & M' & _ & LA). rewrite MK in M'. injection M' as <-.
    rewrite Nd in BM, N1. destruct (entry_split (sc_B sc) (a_devices a) i N1 BM I) as (_ & _ & _ & J). rewrite Nd in Pd. rewrite Pd in J.
    apply (steady_entry ex sq g a geo rad u v); auto.
    destruct (x (m / sc_bpf sc * a_F a + source (a_devices a) (sc_B sc) (a_F a) i)%nat) as [s|] eqn:X.
    - cbn [field_of] in FO. subst f. apply everywhere_steady, ST. exact (stream_in _ _ _ _ _ _ _ SO X).
    - destruct LA as [LA _]. congruence. }
  unfold played in PL. cbn [si_class base_sif] in Bp. rewrite Bp, Fe in PL. destruct (c_loop c).
  - intros m. destruct (PL m) as (b & E & SH). apply (K m b E). rewrite Bp, Fe. exact SH.
  - destruct PL as (J & LB & S1 & S2). exists J. split; [exact LB|]. split; [|exact S2].
    intros m L. destruct (S1 m L) as (b & E & SH). apply (K m b E). rewrite Bp, Fe. exact SH.
Qed.
Print Assumptions C94_from_files.

Definition bright_pixel (o : pair_out) : option (Z * Z) :=
  find (fun rc => negb (Qle_bool (at_ (out1 o) (fst rc) (snd rc)) 0)) (list_prod (zrange 0 21) (zrange 0 22)).

Lemma still_valid : valid_ranges (a_spec still_args).
Proof.
  repeat split; try discriminate; try (cbn; lra); destruct H as [<- | H]; cbn; try lra; repeat (destruct H as [<- | H]; [cbn; lra|]); destruct H.
Qed.

(** The same sampler: a flow of half a length unit to the right and one down
    per second is 1 and 2 pixels; every pixel of the image but those within two
    of the lower edge and one of the right edge is covered, and some of them
    are lit. *)
Example C94_case :
  clean toy_ex (fun a => a) toy_gen still_args still_geom 3 /\ whole_pixels still_args (1 # 2) 1 2 1 /\
  (forall f, In f (fd_flows still_data) -> steady (1 # 2) 1 f) /\
  (forall r k, (0 <= r < 22)%Z -> (0 <= k < 23)%Z ->
     deep (fst (o_pb still_geom)) 3 (r + fst (o_off still_geom)) /\ deep (snd (o_pb still_geom)) 3 (k + snd (o_off still_geom)) /\
     deep (fst (o_pb still_geom)) 3 (r + 2 + fst (o_off still_geom)) /\ deep (snd (o_pb still_geom)) 3 (k + 1 + snd (o_off still_geom))) /\
  exists p, bright_pixel (device_image toy_ex (fun a => a) toy_gen still_args still_geom (device_key 7 0 0) 0 still_flow) = Some p.
Proof.
  split; [|split; [split; vm_compute; reflexivity | split; [|split]]].
  - split; try reflexivity.
    + exact toy_lawful.
    + exact (proj1 toy_exp_like).
    + intros x X; exact X.
    + exact still_valid.
    + repeat split; vm_compute; reflexivity.
    + intros []; (split; [vm_compute; discriminate | exists 40%Z; vm_compute; reflexivity]).
    + vm_compute; split; [discriminate | reflexivity].
  - intros f [<- | [<- | []]]; (split; [cbn; lia|]; split; [cbn; lia|]; intros r k _ _; split; reflexivity).
  - intros r k R K. assert (E : o_pb still_geom = (40, 40)%Z /\ o_off still_geom = (8, 8)%Z) by (split; vm_compute; reflexivity).
    destruct E as [-> ->]. unfold deep. cbn [fst snd]. lia.
  - eexists. vm_compute. reflexivity.
Qed.

(** Two files of such a flow, read for ever in batches of two. *)
Definition still_array : arr := mkArr [60; 60; 2]%nat (List.concat (repeat [1 # 2; 1] 3600)).
Definition still_loader : loader := npy_loader false (fun _ => Ok still_array) (fun _ => Err FileNotFoundError).
Definition still_content : string -> content := npy_content false (fun _ => Ok still_array) (fun _ => Err FileNotFoundError).
Definition still_base : cfg := mkCfg still_loader (mkRng (fun _ n => seq 0 n) (fun _ _ m => repeat 0%nat m)) true true.
Example C94_files_case :
  usable still_base still_content ["a.npy"; "b.npy"]%string 9 /\
  (exists sc, synthetic toy_ex (fun a => a) toy_gen still_args (base_sif still_base 9) read_field = Ok sc) /\
  Nat.divide (a_devices still_args) (a_F still_args) /\
  (forall s, In s (epoch still_content ["a.npy"; "b.npy"]%string) -> everywhere (1 # 2) 1 (sd_flow s)).
Proof.
  assert (SL : forall s, In s (epoch still_content ["a.npy"; "b.npy"]%string) -> sd_flow s = still_array /\ sd_im1 s = None /\ sd_im2 s = None /\ exists f, sd_files s = Some [f]).
  { intros s [<- | [<- | []]]; (split; [reflexivity|]; split; [reflexivity|]; split; [reflexivity|]; eexists; reflexivity). }
  split; [|split; [|split]].
  - split.
    + apply npy_disk.
    + intros _ k n. apply Permutation_refl.
    + intros p l e _. unfold still_content, npy_content. cbn. discriminate.
    + exists [60; 60; 2]%nat, [0; 0]%nat, [0; 0]%nat. split; [reflexivity|]. split; [reflexivity|]. split; [reflexivity|].
      intros x X. destruct (SL x X) as (E1 & E2 & E3 & E4). split.
      * rewrite E1. split; [vm_compute; reflexivity | reflexivity].
      * rewrite E2. discriminate.
      * rewrite E3. discriminate.
      * exact E4.
    + discriminate.
    + cbn. lia.
  - eexists. unfold synthetic. change (negb (extras_ok still_args)) with false. cbv iota.
    change (construct exact (geometry_args still_args)) with (Ok still_geom). cbn [bind]. reflexivity.
  - exists 1%nat. reflexivity.
  - intros s X. destruct (SL s X) as (-> & _). exists 60%nat, 60%nat, 2%nat. split; [reflexivity|]. split; [lia|]. split; [lia|]. intros r k R K.
    assert (N : forall n i, (i < n)%nat -> nth (i * 2) (List.concat (repeat [1 # 2; 1] n)) 0 = (1 # 2) /\
                 nth (i * 2 + 1) (List.concat (repeat [1 # 2; 1] n)) 0 = 1).
    { induction n as [|n IH]; intros i I; [lia|]. cbn [repeat List.concat]. destruct i as [|i]; [split; reflexivity|].
      replace (S i * 2)%nat with (2 + i * 2)%nat by lia. cbn [Nat.add nth app]. apply IH. lia. }
    unfold elt, still_array. cbn [shape data flat_index size fold_right].
    replace (r * (60 * (2 * 1)) + (k * (2 * 1) + (0 * 1 + 0)))%nat with ((r * 60 + k) * 2)%nat by lia.
    replace (r * (60 * (2 * 1)) + (k * (2 * 1) + (1 * 1 + 0)))%nat with ((r * 60 + k) * 2 + 1)%nat by lia.
    destruct (N 3600%nat (r * 60 + k)%nat ltac:(nia)) as [-> ->]. split; reflexivity.
Qed.
