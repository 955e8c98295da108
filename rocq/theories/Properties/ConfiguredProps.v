(** Properties C95, C96: from the configuration to the images. *)
From Coq Require Import List Arith ZArith QArith String Bool Lia Lqa.
From Verif Require Import Prelude Model.PyVal Model.Types Model.Base Model.Files Model.Loaders Model.Episodic Model.Prefetch Model.Sampler Model.Stack.
From Verif Require Import Model.Interp Model.Apply Model.Render Model.Hist Model.DataGen Model.Geometry Model.Make Model.Synthetic Model.Configured.
From Verif Require Import Spec.SyntheticSpec Spec.BaseSpec Spec.TypesSpec Spec.SpecValues Spec.FilesSpec Spec.MakeSpec Spec.EpisodicSpec Spec.SamplerSpec Spec.StackSpec Spec.PipelineSpec Spec.ConfiguredSpec.
From Verif Require Import Proofs.MakeProofs Proofs.SamplerProofs Proofs.SyntheticProofs Proofs.PipelineProofs Proofs.StackProofs Proofs.EpisodePipeline Proofs.ConfiguredProofs.
From Verif Require Properties.GeometryProps Properties.RenderProps Proofs.LoaderProofs.
From Verif Require Import Properties.MakeProps Properties.SyntheticProps Properties.PipelineProps Properties.EpisodePipelineProps.
Import ListNotations.
Local Open Scope string_scope.
Local Open Scope nat_scope.

(** ** C95 *)

(** Whatever stack [make] builds from a configuration with finite numbers: the
    sampler is the one the constructor makes of the arguments of the same names. *)
Theorem C95_arguments : forall w d p sch a, 0 < w_devices w -> make (exact_world w) (PDict d) = Ok (SyntheticSampler p sch) ->
  asked (exact_world w) d sch a ->
  construct exact (geometry_args a) = Ok (sy_geom p) /\ reads (sy_spec p) (device_spec a (sy_geom p)) /\
  forall ex sq g fuel,
    Synthetic.synthetic ex sq g a (sif_of fuel sch) (fun f => Synthetic.read_field (flow_array fuel sch f)) =
    Ok (compiled ex sq g a w p sch fuel).
Proof.
  intros w d p sch a WD H AS. destruct (configured w d p sch a WD H AS) as (A & B & _ & _ & _ & _ & _ & C). auto.
Qed.
Print Assumptions C95_arguments.

(** ** C96 *)

Section Moving.
Variables (ex sq : Q -> Q) (g : generator) (w : world) (d : list (string * pyval)) (a : syn_args).
Variables (p : Make.synthetic (exact_world w)) (sch : scheduler) (geo : geom exact) (rad : Z) (u v : Q) (dy dx : Z).
Hypotheses (WD : 0 < w_devices w) (HM : make (exact_world w) (PDict d) = Ok (SyntheticSampler p sch)).
Hypotheses (AS : asked (exact_world w) d sch a) (CL : clean ex sq g a geo rad) (WP : whole_pixels a u v dy dx).

Lemma geo_is : geo = sy_geom p.
Proof.
  destruct (configured w d p sch a WD HM AS) as (G & _). rewrite (cl_geom _ _ _ _ _ _ CL) in G. congruence.
Qed.

Lemma per_device_is : sy_batch p / List.length (sy_devices p) = per_device a.
Proof.
  destruct (configured w d p sch a WD HM AS) as (_ & _ & E1 & E2 & _). rewrite E1, E2. reflexivity.
Qed.

Lemma entry_place : forall i, i < sy_batch p -> i mod per_device a < per_device a.
Proof.
  intros i I. apply Nat.mod_upper_bound. rewrite <- per_device_is.
  destruct (C63_synthetic (exact_world w) d p sch WD HM) as [S _]. destruct (sn_batch _ _ _ _ S) as (B & SB & _ & [L _] & [q E]).
  destruct SB as (_ & _ & _ & P). rewrite E in *. destruct (List.length (sy_devices p)) as [|n]; [lia|].
  rewrite Nat.div_mul by lia. lia.
Qed.

Lemma array_entry : forall f K i, i < sy_batch p -> everywhere u v f ->
  shows_displacement (o_pb geo) (o_off geo) rad dy dx
    (device_image ex sq g a (sy_geom p) K (i mod per_device a) (simulated a (sy_geom p) f)) (reported a (sy_geom p) f).
Proof.
  intros f K i I ST. rewrite <- geo_is. apply (steady_entry ex sq g a geo rad u v); auto; (apply entry_place, I || apply everywhere_steady, ST).
Qed.

Lemma shows_moves : forall seed x m b bpf F,
  (forall s, (exists i, x i = Some s) -> everywhere u v (sd_flow s)) ->
  shows (List.length (sy_devices p)) (sy_batch p) F bpf seed (reported a (sy_geom p)) (simulated a (sy_geom p))
    (device_image ex sq g a (sy_geom p)) x m b ->
  0 < sy_batch p -> batch_moves (List.length (sy_devices p)) (sy_batch p) F (o_pb geo) (o_off geo) rad dy dx b.
Proof.
  intros seed x m b bpf F ST (_ & _ & SH) BP.
  assert (MK : exists mk, ba_mask b = Some mk).
  { destruct (SH 0 BP) as (_ & (mk & fs & M & _) & _). exists mk. exact M. }
  destruct MK as [mk MK]. exists mk. split; [exact MK|].
  intros i I. destruct (SH i I) as (_ & LA & f & FO & E1 & E2). rewrite per_device_is in E2.
  eexists _, _. split; [exact E2|]. split; [exact E1|]. intros T.
  destruct LA as (mk' & fs & M' & _ & LA). rewrite MK in M'. injection M' as <-.
  apply array_entry; [exact I|]. cbv zeta in LA.
  destruct (x (m / bpf * F + source (List.length (sy_devices p)) (sy_batch p) F i)) as [s|] eqn:X.
  - cbn [field_of] in FO. subst f. apply ST. eexists. exact X.
  - destruct LA as [LA _]. congruence.
Qed.

Lemma step_moves : forall F seed C D fl L ws t m b,
  (forall x, In x ws -> window D fl L x) ->
  (forall dir path s, leaf D fl dir -> In path (dir_files D dir) -> C path = Slices [s] -> everywhere u v (sd_flow s)) ->
  shows_step (List.length (sy_devices p)) (sy_batch p) F seed (reported a (sy_geom p)) (simulated a (sy_geom p))
    (device_image ex sq g a (sy_geom p)) C (dir_files D) ws t m b ->
  all_move (sy_batch p) (o_pb geo) (o_off geo) rad dy dx b.
Proof.
  intros F seed C D fl L ws t m b WS ST (_ & _ & SH) i I. destruct (SH i I) as (dir & s & path & x & EW & EN & EC & _ & E1 & E2).
  rewrite per_device_is in E2. eexists _, _. split; [exact E2|]. split; [exact E1|]. apply array_entry; [exact I|].
  destruct (WS (dir, s) (nth_error_In _ _ EW)) as [LF _]. exact (ST dir path x LF (nth_error_In _ _ EN) EC).
Qed.
End Moving.

Lemma plays_mono : forall {oflow img} (P Q : nat -> nat -> nat -> batch oflow img -> Prop) B L,
  (forall e t m b, P e t m b -> Q e t m b) ->
  forall ops obs e t m, plays_as P B L e t m ops obs -> plays_as Q B L e t m ops obs.
Proof.
  intros oflow img P Q B L PQ. induction ops as [|o ops IH]; intros obs e t m H; [destruct obs; exact H|].
  destruct obs as [|r obs]; [destruct o; exact H|]. destruct o; cbn [plays_as] in *; [|exact H|].
  - destruct (t <? L).
    + destruct H as [(b & E & S & D) R]. split; [exists b; auto | apply IH, R].
    + destruct H as [E R]. split; [exact E | apply IH, R].
  - destruct H as [E R]. split; [exact E | apply IH, R].
Qed.

(** A configuration without episodes whose files all hold the same uniform
    flow: every batch shows it, with or without a prefetcher. *)
Theorem C96_files : forall w d p at_ c s a, 0 < w_devices w ->
  make (exact_world w) (PDict d) = Ok (SyntheticSampler p (SFile at_ c s)) -> asked (exact_world w) d (SFile at_ c s) a ->
  exists files, listed (exact_world w) d at_ c files /\ c_loader c = loader_for w at_ /\
  forall C fuel tm ex sq g geo rad u v dy dx,
  usable c C files fuel -> Nat.divide (a_devices a) (a_F a) -> clean ex sq g a geo rad -> whole_pixels a u v dy dx ->
  (forall x, In x (epoch C files) -> everywhere u v (sd_flow x)) ->
  exists x, stream_of (c_randomize c) (c_loop c) C files x /\
    keeps_moving (batch_moves (a_devices a) (round_batch (sp_batch (a_spec a)) (a_devices a)) (a_F a) (o_pb geo) (o_off geo) rad dy dx)
      (a_F a) (a_bpf a) (c_loop c) x
      (answer (compiled ex sq g a w p (SFile at_ c s) fuel) (start_of fuel tm (SFile at_ c s))).
Proof.
  intros w d p at_ c s a WD HM AS.
  destruct (C90_make (exact_world w) d p at_ c s WD HM) as (files & LI & LO & _ & PL).
  exists files. split; [exact LI|]. split; [exact LO|].
  intros C fuel tm ex sq g geo rad u v dy dx US DV CL WP ST.
  destruct (configured w d p _ a WD HM AS) as (_ & _ & E1 & E2 & E3 & E4 & E5 & _). cbn [is_episodic_class] in E5.
  rewrite <- E1, <- E3 in DV. rewrite <- E1, <- E3, <- E5, E1, <- E2, <- E1.
  destruct (PL C fuel tm flow flow pair_out (reported a (sy_geom p)) (simulated a (sy_geom p)) (device_image ex sq g a (sy_geom p)) US DV)
    as (x & SO & PY).
  exists x. split; [exact SO|].
  assert (K : forall m b, shows (List.length (sy_devices p)) (sy_batch p) (sy_F p) (sy_bpf p) (sy_seed p) (reported a (sy_geom p))
     (simulated a (sy_geom p)) (device_image ex sq g a (sy_geom p)) x m b ->
     batch_moves (List.length (sy_devices p)) (sy_batch p) (sy_F p) (o_pb geo) (o_off geo) rad dy dx b).
  { intros m b SH. eapply (shows_moves ex sq g w d a p _ geo rad u v dy dx WD HM AS CL WP); [|exact SH|].
    - intros y [i X]. apply ST. exact (stream_in _ _ _ _ _ _ _ SO X).
    - destruct (C63_synthetic (exact_world w) d p _ WD HM) as [S _]. destruct (sn_batch _ _ _ _ S) as (B & (_ & _ & _ & P) & _ & [Lb _] & _). lia. }
  unfold keeps_moving. unfold played in PY. destruct (c_loop c).
  - intros m. destruct (PY m) as (b & E & SH). exists b. split; [exact E | exact (K m b SH)].
  - destruct PY as (J & LB & S1 & S2). exists J. split; [exact LB|]. split; [|exact S2].
    intros m Lm. destruct (S1 m Lm) as (b & E & SH). exists b. split; [exact E | exact (K m b SH)].
Qed.
Print Assumptions C96_files.

Theorem C96_prefetched : forall w d p B N at_ c s a, 0 < w_devices w ->
  make (exact_world w) (PDict d) = Ok (SyntheticSampler p (SPrefetch B N (SFile at_ c s))) ->
  asked (exact_world w) d (SPrefetch B N (SFile at_ c s)) a ->
  exists files, listed (exact_world w) d at_ c files /\ c_loader c = loader_for w at_ /\
  forall C fuel tm ex sq g geo rad u v dy dx,
  usable c C files fuel -> Nat.divide (a_devices a) (a_F a) -> a_F a = sp_batch (a_spec a) -> prompt tm ->
  clean ex sq g a geo rad -> whole_pixels a u v dy dx ->
  (forall x, In x (epoch C files) -> everywhere u v (sd_flow x)) ->
  exists x, stream_of (c_randomize c) (c_loop c) C files x /\
    keeps_moving (batch_moves (a_devices a) (round_batch (sp_batch (a_spec a)) (a_devices a)) (a_F a) (o_pb geo) (o_off geo) rad dy dx)
      (a_F a) (a_bpf a) (c_loop c) x
      (answer (compiled ex sq g a w p (SPrefetch B N (SFile at_ c s)) fuel) (start_of fuel tm (SPrefetch B N (SFile at_ c s)))).
Proof.
  intros w d p B N at_ c s a WD HM AS.
  destruct (C90_make_prefetched (exact_world w) d p B N at_ c s WD HM) as (PB & files & LI & LO & _ & PL).
  exists files. split; [exact LI|]. split; [exact LO|].
  intros C fuel tm ex sq g geo rad u v dy dx US DV EF PR CL WP ST.
  destruct (configured w d p _ a WD HM AS) as (_ & _ & E1 & E2 & E3 & E4 & E5 & _). cbn [is_episodic_class] in E5.
  assert (EB : sy_F p = B) by (rewrite E3, EF; exact (positive_fun _ _ _ _ (as_batch _ _ _ _ AS) PB)).
  rewrite <- E1, <- E3 in DV. rewrite <- E1, <- E3, <- E5, E1, <- E2, <- E1.
  destruct (PL C fuel tm flow flow pair_out (reported a (sy_geom p)) (simulated a (sy_geom p)) (device_image ex sq g a (sy_geom p)) US DV EB PR)
    as (x & SO & PY).
  exists x. split; [exact SO|].
  assert (K : forall m b, shows (List.length (sy_devices p)) (sy_batch p) (sy_F p) (sy_bpf p) (sy_seed p) (reported a (sy_geom p))
     (simulated a (sy_geom p)) (device_image ex sq g a (sy_geom p)) x m b ->
     batch_moves (List.length (sy_devices p)) (sy_batch p) (sy_F p) (o_pb geo) (o_off geo) rad dy dx b).
  { intros m b SH. eapply (shows_moves ex sq g w d a p _ geo rad u v dy dx WD HM AS CL WP); [|exact SH|].
    - intros y [i X]. apply ST. exact (stream_in _ _ _ _ _ _ _ SO X).
    - destruct (C63_synthetic (exact_world w) d p _ WD HM) as [S _]. destruct (sn_batch _ _ _ _ S) as (B' & (_ & _ & _ & P) & _ & [Lb _] & _). lia. }
  unfold keeps_moving. unfold played in PY. destruct (c_loop c).
  - intros m. destruct (PY m) as (b & E & SH). exists b. split; [exact E | exact (K m b SH)].
  - destruct PY as (J & LB & S1 & S2). exists J. split; [exact LB|]. split; [|exact S2].
    intros m Lm. destruct (S1 m Lm) as (b & E & SH). exists b. split; [exact E | exact (K m b SH)].
Qed.
Print Assumptions C96_prefetched.

(** With episodes: in whatever order [next] and [next_episode] are called, every
    batch of an episode whose windows are spread (C18) shows the flow. *)
Theorem C96_episodes : forall w d p at_ ec s a, 0 < w_devices w ->
  make (exact_world w) (PDict d) = Ok (SyntheticSampler p (SEpisodic at_ ec s)) -> asked (exact_world w) d (SEpisodic at_ ec s) a ->
  exists L c base, positive_setting d "episode_length" L /\ file_stage (exact_world w) d at_ c base /\
  forall C fuel ex sq g geo rad u v dy dx,
  enum_ok (w_dirs w) -> choice_ok (w_rng w) -> disk (c_loader c) C -> c_randomize c = false ->
  single_slices C (w_dirs w) (s_files base) -> distinct_files (w_dirs w) (s_files base) -> 2 * (L * sp_batch (a_spec a)) < fuel ->
  a_F a = sp_batch (a_spec a) -> sp_batch (a_spec a) mod a_devices a = 0 ->
  clean ex sq g a geo rad -> whole_pixels a u v dy dx ->
  (forall dir path x, leaf (w_dirs w) (s_files base) dir -> In path (dir_files (w_dirs w) dir) -> C path = Slices [x] ->
     everywhere u v (sd_flow x)) ->
  exists ws : nat -> list (string * nat),
    (forall e, List.length (ws e) = sp_batch (a_spec a) /\ (forall x, In x (ws e) -> window (w_dirs w) (s_files base) L x)) /\
    (c_loop c = true \/ (forall e, spread L (ws e)) ->
     forall tm ops, Forall (fun o => o = SNext \/ o = SNextEpisode) ops ->
       let sc := compiled ex sq g a w p (SEpisodic at_ ec s) fuel in
       plays_as (fun e t m b => spread L (ws e) -> all_move (sp_batch (a_spec a)) (o_pb geo) (o_off geo) rad dy dx b)
         (sp_batch (a_spec a)) L 0 0 0 ops (fst (srun sc ops (syn_init sc (start_of fuel tm (SEpisodic at_ ec s)))))).
Proof.
  intros w d p at_ ec s a WD HM AS.
  destruct (C92_make (exact_world w) d p at_ ec s WD HM) as (B & L & c & base & PB & PL & FS & W).
  exists L, c, base. split; [exact PL|]. split; [exact FS|].
  intros C fuel ex sq g geo rad u v dy dx HE HC HD HR HS HF Hf EF MN CL WP ST.
  rewrite (positive_fun _ _ _ _ (as_batch _ _ _ _ AS) PB) in *.
  destruct (configured w d p _ a WD HM AS) as (_ & _ & E1 & E2 & E3 & E4 & E5 & _).
  rewrite (positive_fun _ _ _ _ (as_batch _ _ _ _ AS) PB) in E2.
  assert (EB : sy_batch p = B) by (rewrite E2; unfold round_batch; rewrite MN; reflexivity).
  destruct (W C fuel HE HC HD HR HS HF Hf) as (ws & W1 & W2); [congruence | rewrite E1; exact MN |].
  exists ws. split; [exact W1|]. intros GO tm ops HO sc.
  specialize (W2 GO tm flow flow pair_out (reported a (sy_geom p)) (simulated a (sy_geom p)) (device_image ex sq g a (sy_geom p)) ops HO).
  cbv zeta in W2. rewrite <- EB. revert W2. apply plays_mono. intros e t m b SH SP.
  eapply (step_moves ex sq g w d a p _ geo rad u v dy dx WD HM AS CL WP); [|exact ST|exact (SH SP)].
  intros x X. destruct (W1 e) as [_ W3]. exact (W3 x X).
Qed.
Print Assumptions C96_episodes.

(** The same with a buffer, where a first call of [next_episode] has no effect. *)
Theorem C96_prefetched_episodes : forall w d p B N at_ ec s a, 0 < w_devices w ->
  make (exact_world w) (PDict d) = Ok (SyntheticSampler p (SPrefetch B N (SEpisodic at_ ec s))) ->
  asked (exact_world w) d (SPrefetch B N (SEpisodic at_ ec s)) a ->
  exists L c base, positive_setting d "episode_length" L /\ file_stage (exact_world w) d at_ c base /\
  forall C fuel ex sq g geo rad u v dy dx,
  enum_ok (w_dirs w) -> choice_ok (w_rng w) -> disk (c_loader c) C -> c_randomize c = false ->
  single_slices C (w_dirs w) (s_files base) -> distinct_files (w_dirs w) (s_files base) -> 2 * (L * sp_batch (a_spec a)) < fuel ->
  a_F a = sp_batch (a_spec a) -> sp_batch (a_spec a) mod a_devices a = 0 -> a_bpf a = 1 ->
  clean ex sq g a geo rad -> whole_pixels a u v dy dx ->
  (forall dir path x, leaf (w_dirs w) (s_files base) dir -> In path (dir_files (w_dirs w) dir) -> C path = Slices [x] ->
     everywhere u v (sd_flow x)) ->
  exists ws : nat -> list (string * nat),
    (forall e, List.length (ws e) = sp_batch (a_spec a) /\ (forall x, In x (ws e) -> window (w_dirs w) (s_files base) L x)) /\
    (c_loop c = true \/ (forall e, spread L (ws e)) ->
     forall tm ops, prompt tm -> Forall (fun o => o = SNext \/ o = SNextEpisode) ops ->
       let sc := compiled ex sq g a w p (SPrefetch B N (SEpisodic at_ ec s)) fuel in
       let moving := plays_as (fun e t m b => spread L (ws e) -> all_move (sp_batch (a_spec a)) (o_pb geo) (o_off geo) rad dy dx b)
                       (sp_batch (a_spec a)) L 0 0 0 in
       let obs := fst (srun sc ops (syn_init sc (start_of fuel tm (SPrefetch B N (SEpisodic at_ ec s))))) in
       match ops, obs with
       | SNextEpisode :: ops', o :: obs' => o = SUnit /\ moving ops' obs'
       | _, _ => moving ops obs
       end).
Proof.
  intros w d p B N at_ ec s a WD HM AS.
  destruct (C92_make_prefetched (exact_world w) d p B N at_ ec s WD HM) as (L & c & base & PB & PL & FS & W).
  exists L, c, base. split; [exact PL|]. split; [exact FS|].
  intros C fuel ex sq g geo rad u v dy dx HE HC HD HR HS HF Hf EF MN B1 CL WP ST.
  rewrite (positive_fun _ _ _ _ (as_batch _ _ _ _ AS) PB) in *.
  destruct (configured w d p _ a WD HM AS) as (_ & _ & E1 & E2 & E3 & E4 & E5 & _). cbn [is_episodic_class] in E5.
  rewrite (positive_fun _ _ _ _ (as_batch _ _ _ _ AS) PB) in E2.
  assert (EB : sy_batch p = B) by (rewrite E2; unfold round_batch; rewrite MN; reflexivity).
  destruct (W C fuel HE HC HD HR HS HF Hf) as (ws & W1 & W2); [congruence | rewrite E1; exact MN | congruence |].
  exists ws. split; [exact W1|]. intros GO tm ops PR HO sc moving obs.
  specialize (W2 GO tm flow flow pair_out (reported a (sy_geom p)) (simulated a (sy_geom p)) (device_image ex sq g a (sy_geom p)) ops PR HO).
  cbv zeta in W2.
  assert (MO : forall ops obs, plays_as (shown_of (@scfg_of (exact_world w) fuel p (SPrefetch B N (SEpisodic at_ ec s)) flow flow pair_out
      (reported a (sy_geom p)) (simulated a (sy_geom p)) (device_image ex sq g a (sy_geom p))) (reported a (sy_geom p)) (simulated a (sy_geom p)) C
      (dir_files (w_dirs w)) L ws) (sy_batch p) L 0 0 0 ops obs -> moving ops obs).
  { intros ops' obs'. unfold moving. rewrite <- EB. apply plays_mono. intros e t m b SH SP.
    eapply (step_moves ex sq g w d a p _ geo rad u v dy dx WD HM AS CL WP); [|exact ST|exact (SH SP)].
    intros x X. destruct (W1 e) as [_ W3]. exact (W3 x X). }
  change (fst (srun _ ops (syn_init _ (start_of fuel tm (SPrefetch B N (SEpisodic at_ ec s)))))) with obs in W2.
  destruct ops as [|[] ops]; try (apply MO, W2).
  destruct obs as [|o obs']; [apply MO, W2|]. destruct W2 as [W2 W3]. split; [exact W2 | apply MO, W3].
Qed.
Print Assumptions C96_prefetched_episodes.

(** ** Concrete configurations *)

(** The sampler of C93 and C94 as a configuration: [batch] images per batch on
    [nd] devices, [flows] flow fields per batch, files of [n] x [n] vectors that
    cover [size] length units. *)
Definition still_entries (size : Z) : list (string * pyval) :=
  [("seed", PInt 7); ("batches_per_flow_batch", PInt 1); ("randomize", PBool false); ("image_shape", PList [PInt 24; PInt 24]);
   ("img_offset", PTuple [PInt 6; PFloat (Fin 6)]);
   ("seeding_density_range", PList [PFloat (Fin (4 # 1600)); PFloat (Fin (4 # 1600))]);
   ("diameter_ranges", PList [PList [PFloat (Fin (1 # 2)); PInt 1]; PTuple [PFloat (Fin (3 # 4)); PInt 2]]);
   ("intensity_ranges", PList [PList [PInt 50; PInt 200]]);
   ("rho_ranges", PList [PList [PFloat (Fin (-(9 # 10))); PFloat (Fin (9 # 10))]]);
   ("flow_field_size", PList [PInt size; PInt size]); ("resolution", PInt 2);
   ("max_speed_x", PInt 4); ("max_speed_y", PInt 4); ("min_speed_x", PInt (-4)); ("min_speed_y", PInt (-4))].
Definition still_dict (cls : string) (batch flows buffer len size : Z) : list (string * pyval) :=
  exM_dict cls batch flows buffer len (still_entries size).
Definition still_settings (batch nd flows : nat) (size n : Z) : syn_args :=
  mkSynArgs (mkGspec batch (24, 24)%Z (0, 0)%Z ((4 # 1600), (4 # 1600))%Q 0 0 [(1 # 2, 1); (3 # 4, 2)]%Q 0 [(50, 200)]%Q 0
               [(-(9 # 10), 9 # 10)]%Q 0 1 0 0 0)%Q
    (6, 6)%Q nd flows 1 (inject_Z size, inject_Z size) (n, n) 2 1 (4, 4)%Q (-(4), -(4))%Q true 7 None None.
Definition big_array : arr := mkArr [256; 256; 2] (List.concat (repeat [1 # 2; 1]%Q (256 * 256))).
Definition still_world (nd : nat) : world :=
  mkWorld (w_exists exM_world) (w_fs exM_world) (w_yaml exM_world) (w_h5 exM_world) (fun _ => Ok still_array) (w_jpg exM_world)
    (mkMat (fun _ => Ok [("V", MArr big_array)]) (fun _ => false) (fun _ => Err ValueError)) (w_pil exM_world) (w_dirs exM_world)
    (w_rng exM_world) nd (w_npload exM_world) (w_num exM_world) (w_conv exM_world).

Ltac value := first [exact (number_int _) | exact (TypesSpec.number_float _) | exact (integer_int _)].
Ltac fin := eexists; split; [reflexivity | value].
Ltac pos := eexists; split; [reflexivity | split; [exact (integer_int _) | cbn; lia]].
Ltac two := eexists _, _, _; split; [reflexivity | split; [first [left; reflexivity | right; reflexivity] | split; value]].
Ltac rngs := eexists _, _; split; [reflexivity | split; [left; reflexivity |
  repeat constructor; eexists _, _; (split; [first [left; reflexivity | right; reflexivity] | split; value])]].

Lemma still_asked : forall cls batch nd flows buffer len size n sch, 0 < batch -> 0 < nd -> 0 < flows ->
  flow_shape (exact_world (still_world nd)) sch = Ok [n; n; 2] ->
  asked (exact_world (still_world nd)) (still_dict cls (Z.of_nat batch) (Z.of_nat flows) buffer len size) sch
    (still_settings batch nd flows size (Z.of_nat n)).
Proof.
  intros cls batch nd flows buffer len size n sch PB PD PF FS. constructor; try fin; try pos; try two; try rngs.
  - exists (seq 0 nd). split; [left; split; [right; split; reflexivity | reflexivity] | cbn [a_devices still_settings]; rewrite seq_length; reflexivity].
  - eexists _, _, _, _. split; [reflexivity|]. split; [left; reflexivity|]. split; value.
  - exists n, n, 2. split; [exact FS | reflexivity].
  - split; fin.
  - split; fin.
  - reflexivity.
  - exists None. split; [right; split; reflexivity | reflexivity].
  - exists None. split; [right; split; reflexivity | split; reflexivity].
Qed.

(** What [make] builds from them, without the data; the first two numbers are
    the batch size plus one and the buffer size of a prefetcher. *)
Definition outline {w} (r : result (sampler w)) :=
  match r with
  | Ok (SyntheticSampler p sch) =>
      Some (List.length (sy_devices p), sy_F p, sy_bpf p,
            match sch with
            | SFile at_ c s => (0, 0, Some (fa_class at_, fa_images at_, fa_shape at_), Some (c_randomize c, c_loop c, s_files s))
            | SPrefetch B N (SFile at_ c s) =>
                (S B, N, Some (fa_class at_, fa_images at_, fa_shape at_), Some (c_randomize c, c_loop c, s_files s))
            | SEpisodic at_ ec s => (0, 0, Some (fa_class at_, fa_images at_, fa_shape at_), None)
            | SPrefetch B N (SEpisodic at_ ec s) => (S B, N, Some (fa_class at_, fa_images at_, fa_shape at_), None)
            | _ => (0, 0, None, None)
            end)
  | _ => None
  end.

Lemma constant_everywhere : forall n, everywhere (1 # 2) 1 (mkArr [S n; S n; 2] (List.concat (repeat [1 # 2; 1]%Q (S n * S n)))).
Proof.
  intros n. exists (S n), (S n), 2. split; [reflexivity|]. split; [lia|]. split; [lia|]. intros r k R K.
  assert (N : forall m i, i < m -> nth (i * 2) (List.concat (repeat [1 # 2; 1]%Q m)) 0%Q = (1 # 2)%Q /\
               nth (i * 2 + 1) (List.concat (repeat [1 # 2; 1]%Q m)) 0%Q = 1%Q).
  { induction m as [|m IH]; intros i I; [lia|]. cbn [repeat List.concat]. destruct i as [|i]; [split; reflexivity|].
    replace (S i * 2) with (2 + i * 2) by lia. cbn [Nat.add nth app]. apply IH. lia. }
  unfold LoaderSpec.elt. set (m := S n) in *. cbn [shape data LoaderSpec.flat_index size fold_right].
  replace (r * (m * (2 * 1)) + (k * (2 * 1) + (0 * 1 + 0))) with ((r * m + k) * 2) by lia.
  replace (r * (m * (2 * 1)) + (k * (2 * 1) + (1 * 1 + 0))) with ((r * m + k) * 2 + 1) by lia.
  destruct (N (m * m) (r * m + k) ltac:(nia)) as [-> ->]. split; reflexivity.
Qed.

Definition settings_geom (size n : Z) : geom exact :=
  match construct exact (geometry_args (still_settings 1 1 1 size n)) with Ok q => q | Err _ => still_geom end.
Lemma settings_clean : forall batch nd flows size n, (size = 30 /\ n = 60 \/ size = 128 /\ n = 256)%Z ->
  clean RenderProps.toy_ex (fun a => a) RenderProps.toy_gen (still_settings batch nd flows size n) (settings_geom size n) 3.
Proof.
  intros batch nd flows size n H. split; try reflexivity.
  - change (geometry_args (still_settings batch nd flows size n)) with (geometry_args (still_settings 1 1 1 size n)).
    destruct H as [[-> ->]|[-> ->]]; reflexivity.
  - exact RenderProps.toy_lawful.
  - exact (proj1 RenderProps.toy_exp_like).
  - intros x X; exact X.
  - exact still_valid.
  - repeat split; vm_compute; reflexivity.
  - intros s. change (geometry_args (still_settings batch nd flows size n)) with (geometry_args (still_settings 1 1 1 size n)).
    destruct H as [[-> ->]|[-> ->]]; destruct s; (split; [vm_compute; discriminate | exists 40%Z; vm_compute; reflexivity]).
  - vm_compute; split; [discriminate | reflexivity].
Qed.
Lemma settings_pixels : forall batch nd flows size n, whole_pixels (still_settings batch nd flows size n) (1 # 2) 1 2 1.
Proof. intros batch nd flows size n. split; reflexivity. Qed.

Definition flow_content : string -> content := LoaderProofs.npy_content false (w_npy (still_world 2)) (w_jpg (still_world 2)).
Lemma flow_slices : forall q, slices_of flow_content q = [mkSD still_array None None None (Some [q])].
Proof. intros q. reflexivity. Qed.

Lemma still_listed : forall batch flows buffer at_ c files, fa_class at_ = Npy ->
  listed (exact_world (still_world 2)) (still_dict ".npy" batch flows buffer 0 30) at_ c files -> List.length files = 3.
Proof.
  intros batch flows buffer at_ c files Ea LI. destruct LI as (fl & segs & (FL & _) & F2 & ->). destruct FL as [FL|[FL _]]; [|discriminate FL].
  assert (EL : fl = ["d"]).
  { change (given "file_list" (still_dict ".npy" batch flows buffer 0 30)) with (Some (PList [PStr "d"])) in FL. injection FL as FL.
    destruct fl as [|x [|y fl]]; try discriminate. injection FL as <-. reflexivity. }
  subst fl. inversion F2 as [|? seg ? ? SF F2']; subst. inversion F2'; subst. cbn [List.concat]. rewrite app_nil_r.
  destruct SF as [[DI _]|(_ & PM & _)]; [discriminate DI|]. rewrite (Permutation.Permutation_length PM), Ea. reflexivity.
Qed.

Lemma still_usable : forall c at_ files, c_loader c = loader_for (still_world 2) at_ -> fa_class at_ = Npy -> fa_images at_ = false ->
  c_randomize c = false -> List.length files = 3 -> usable c flow_content files 9 /\
  (forall x, In x (epoch flow_content files) -> everywhere (1 # 2) 1 (sd_flow x)).
Proof.
  intros c at_ files CL Ea Ei CR LF. split; [split|].
  - rewrite CL. unfold loader_for. rewrite Ea, Ei. apply LoaderProofs.npy_disk.
  - rewrite CR. discriminate.
  - intros q l e _. unfold flow_content, LoaderProofs.npy_content. cbn. discriminate.
  - exists [60; 60; 2], [0; 0], [0; 0]. split; [reflexivity|]. split; [reflexivity|]. split; [reflexivity|].
    intros x Hx. apply in_flat_map in Hx. destruct Hx as (q & _ & Hx). rewrite flow_slices in Hx. destruct Hx as [<-|[]].
    split; [split; [vm_compute; reflexivity | reflexivity] | discriminate | discriminate | exists q; reflexivity].
  - destruct files as [|q files]; [discriminate LF|]. cbn [epoch flat_map]. rewrite flow_slices. discriminate.
  - lia.
  - intros x Hx. apply in_flat_map in Hx. destruct Hx as (q & _ & Hx). rewrite flow_slices in Hx. destruct Hx as [<-|[]].
    exact (constant_everywhere 59).
Qed.

Lemma still_built :
  outline (make (exact_world (still_world 2)) (PDict (still_dict ".npy" 3 2 0 0 30))) =
    Some (2, 2, 1, (0, 0, Some (Npy, false, (256, 256)), Some (false, true, ["d/flow_1.npy"; "d/flow_2.npy"; "d/flow_3.npy"]))) /\
  outline (make (exact_world (still_world 2)) (PDict (still_dict ".npy" 2 2 3 0 30))) =
    Some (2, 2, 1, (3, 3, Some (Npy, false, (256, 256)), Some (false, true, ["d/flow_1.npy"; "d/flow_2.npy"; "d/flow_3.npy"]))) /\
  outline (make (exact_world (still_world 1)) (PDict (still_dict ".mat" 1 1 0 2 128))) =
    Some (1, 1, 1, (0, 0, Some (Mat, false, (256, 256)), None)) /\
  outline (make (exact_world (still_world 1)) (PDict (still_dict ".mat" 1 1 3 2 128))) =
    Some (1, 1, 1, (2, 3, Some (Mat, false, (256, 256)), None)).
Proof. split; [|split; [|split]]; vm_compute; reflexivity. Qed.

(** Three images per batch asked for, so four on two devices, from two flow
    fields per batch; three files read for ever. *)
Example C95_case : exists p at_ c s files,
  make (exact_world (still_world 2)) (PDict (still_dict ".npy" 3 2 0 0 30)) = Ok (SyntheticSampler p (SFile at_ c s)) /\
  asked (exact_world (still_world 2)) (still_dict ".npy" 3 2 0 0 30) (SFile at_ c s) (still_settings 3 2 2 30 60) /\
  listed (exact_world (still_world 2)) (still_dict ".npy" 3 2 0 0 30) at_ c files /\ usable c flow_content files 9 /\
  (forall x, In x (epoch flow_content files) -> everywhere (1 # 2) 1 (sd_flow x)).
Proof.
  pose proof (proj1 still_built) as H.
  destruct (make (exact_world (still_world 2)) (PDict (still_dict ".npy" 3 2 0 0 30))) as [[B sch|p sch]|e] eqn:E;
    [discriminate | cbn [outline] in H | discriminate].
  injection H as ED EF EB H. destruct sch as [at_ c s|at_ ec s|B N [at_ c s|at_ ec s|B' N' sch]]; try discriminate H.
  injection H as E1 E2 E3 E4 E5 E6.
  assert (AS : asked (exact_world (still_world 2)) (still_dict ".npy" 3 2 0 0 30) (SFile at_ c s) (still_settings 3 2 2 30 60)).
  { apply (still_asked ".npy" 3 2 2 0 0 30 60); try lia. unfold flow_shape, file_flow_shape, npy_flow_shape. rewrite E1, E6. reflexivity. }
  destruct (C96_files (still_world 2) _ _ _ _ _ _ ltac:(cbn; lia) E AS) as (files & LI & LO & _).
  exists p, at_, c, s, files. split; [reflexivity|]. split; [exact AS|]. split; [exact LI|].
  exact (still_usable c at_ files LO E1 E2 E4 (still_listed _ _ _ _ _ _ E1 LI)).
Qed.

(** The same files through a buffer of three batches, in batches of two. *)
Example C96_prefetched_case : exists p at_ c s files,
  make (exact_world (still_world 2)) (PDict (still_dict ".npy" 2 2 3 0 30)) = Ok (SyntheticSampler p (SPrefetch 2 3 (SFile at_ c s))) /\
  asked (exact_world (still_world 2)) (still_dict ".npy" 2 2 3 0 30) (SPrefetch 2 3 (SFile at_ c s)) (still_settings 2 2 2 30 60) /\
  listed (exact_world (still_world 2)) (still_dict ".npy" 2 2 3 0 30) at_ c files /\ usable c flow_content files 9 /\
  (forall x, In x (epoch flow_content files) -> everywhere (1 # 2) 1 (sd_flow x)) /\
  prompt exP_tm.
Proof.
  pose proof (proj1 (proj2 still_built)) as H.
  destruct (make (exact_world (still_world 2)) (PDict (still_dict ".npy" 2 2 3 0 30))) as [[B sch|p sch]|e] eqn:E;
    [discriminate | cbn [outline] in H | discriminate].
  injection H as ED EF EB H. destruct sch as [at_ c s|at_ ec s|B N [at_ c s|at_ ec s|B' N' sch]]; try discriminate H.
  injection H as -> -> E1 E2 E3 E4 E5 E6.
  assert (AS : asked (exact_world (still_world 2)) (still_dict ".npy" 2 2 3 0 30) (SPrefetch 2 3 (SFile at_ c s)) (still_settings 2 2 2 30 60)).
  { apply (still_asked ".npy" 2 2 2 3 0 30 60); try lia. unfold flow_shape, file_flow_shape, npy_flow_shape. rewrite E1, E6. reflexivity. }
  destruct (C96_prefetched (still_world 2) _ _ _ _ _ _ _ _ ltac:(cbn; lia) E AS) as (files & LI & LO & _).
  exists p, at_, c, s, files. split; [reflexivity|]. split; [exact AS|]. split; [exact LI|].
  destruct (still_usable c at_ files LO E1 E2 E4 (still_listed _ _ _ _ _ _ E1 LI)) as [U ST].
  split; [exact U|]. split; [exact ST|]. intros i. cbn. repeat split; lia.
Qed.

(** The other conditions of C96 hold for all of these settings. *)
Example C96_files_case :
  Nat.divide (a_devices (still_settings 3 2 2 30 60)) (a_F (still_settings 3 2 2 30 60)) /\
  clean RenderProps.toy_ex (fun a => a) RenderProps.toy_gen (still_settings 3 2 2 30 60) (settings_geom 30 60) 3 /\
  whole_pixels (still_settings 3 2 2 30 60) (1 # 2) 1 2 1.
Proof. split; [exists 1; reflexivity|]. split; [apply settings_clean; auto | apply settings_pixels]. Qed.

(** Episodes of two steps over three files of a directory, one window per
    batch: any window is spread, so every batch shows the flow, with and
    without a buffer. *)
Definition mat_files : string -> content := LoaderProofs.mat_content (w_pil (still_world 1)) (w_mat (still_world 1)) false 256 256.
Lemma mat_file : forall q, mat_files q = Slices [mkSD big_array None None None (Some [q])].
Proof. intros q. reflexivity. Qed.
Lemma one_spread : forall L x, spread L [x].
Proof.
  intros L x. split.
  - intros [|e] w _; [discriminate|]. destruct e; discriminate.
  - intros _ d y. cbn. intros H1 H2. injection H1 as H1. rewrite H1 in H2. injection H2 as H2. lia.
Qed.

Lemma big_wf : wf_arr big_array.
Proof.
  unfold wf_arr, big_array. cbn [shape data]. unfold size. cbn [fold_right].
  assert (G : forall n, List.length (List.concat (repeat [1 # 2; 1]%Q n)) = n * 2).
  { induction n as [|n IH]; [reflexivity|]. cbn [repeat List.concat app List.length]. rewrite IH. lia. }
  rewrite G. generalize 256. intros n. nia.
Qed.

Section Windows.
Variables (at_ : fattrs) (c : cfg) (base : st) (buffer : Z).
Hypotheses (FS : file_stage (exact_world (still_world 1)) (still_dict ".mat" 1 1 buffer 2 128) at_ c base).
Hypotheses (E1 : fa_class at_ = Mat) (E2 : fa_images at_ = false) (E3 : fa_shape at_ = (256, 256)).

Lemma window_conditions :
  enum_ok (w_dirs (still_world 1)) /\ choice_ok (w_rng (still_world 1)) /\ disk (c_loader c) mat_files /\ c_randomize c = false /\
  single_slices mat_files (w_dirs (still_world 1)) (s_files base) /\ distinct_files (w_dirs (still_world 1)) (s_files base) /\
  (forall dir path x, leaf (w_dirs (still_world 1)) (s_files base) dir -> In path (dir_files (w_dirs (still_world 1)) dir) ->
     mat_files path = Slices [x] -> everywhere (1 # 2) 1 (sd_flow x)).
Proof.
  split. { intro l. split; [apply NoDup_nodup|]. intro x. apply nodup_In. }
  split. { intros k n m H. cbn [w_rng still_world exM_world exM_rng rchoice]. rewrite map_length, seq_length. split; [reflexivity|].
    intros i Hi. apply in_map_iff in Hi. destruct Hi as (j & <- & _). apply Nat.mod_upper_bound. lia. }
  destruct FS as [_ [F1 _] (fl & segs & F3 & _)].
  split. { rewrite F1. unfold loader_for. rewrite E1, E2, E3. apply LoaderProofs.mat_disk_ok. }
  split. { destruct F3 as (_ & [R|[R _]] & _); [|discriminate R]. change (given "randomize" (still_dict ".mat" 1 1 buffer 2 128)) with (Some (PBool false)) in R.
    now injection R as R. }
  split. { exists [256; 256; 2], [0; 0], [0; 0]. intros d q _ _. eexists. split; [apply mat_file|].
    constructor; cbn [sd_flow sd_im1 sd_im2 sd_files]; try discriminate; [split; [apply big_wf | reflexivity] | eexists; reflexivity]. }
  split. { intros d d' i j q [(x & _ & Hd) _] [(x' & _ & Hd') _] H1 H2. cbn in Hd, Hd'. subst. split; [reflexivity|].
    revert H1 H2. change (dir_files (w_dirs (still_world 1)) "d") with ["d/flow_1.mat"; "d/flow_2.mat"; "d/flow_3.mat"].
    destruct i as [|[|[|i]]]; destruct j as [|[|[|j]]]; cbn; try congruence; try (destruct i; discriminate); destruct j; discriminate. }
  intros dir path x _ _ H. rewrite mat_file in H. injection H as <-. exact (constant_everywhere 255).
Qed.
End Windows.

Lemma plays_weaken : forall (P Q : nat -> nat -> nat -> batch flow pair_out -> Prop) B L ops obs e t m,
  (forall e t m b, P e t m b -> Q e t m b) -> plays_as P B L e t m ops obs -> plays_as Q B L e t m ops obs.
Proof. intros P Q B L ops obs e t m H. now apply plays_mono. Qed.

Example C96_episodes_case : exists p at_ ec s,
  make (exact_world (still_world 1)) (PDict (still_dict ".mat" 1 1 0 2 128)) = Ok (SyntheticSampler p (SEpisodic at_ ec s)) /\
  asked (exact_world (still_world 1)) (still_dict ".mat" 1 1 0 2 128) (SEpisodic at_ ec s) (still_settings 1 1 1 128 256) /\
  forall tm ops, Forall (fun o => o = SNext \/ o = SNextEpisode) ops ->
    let sc := compiled RenderProps.toy_ex (fun a => a) RenderProps.toy_gen (still_settings 1 1 1 128 256) (still_world 1) p (SEpisodic at_ ec s) 9 in
    plays_as (fun e t m b => all_move 1 (o_pb (settings_geom 128 256)) (o_off (settings_geom 128 256)) 3 2 1 b) 1 2 0 0 0 ops
      (fst (srun sc ops (syn_init sc (start_of 9 tm (SEpisodic at_ ec s))))).
Proof.
  pose proof (proj1 (proj2 (proj2 still_built))) as H.
  destruct (make (exact_world (still_world 1)) (PDict (still_dict ".mat" 1 1 0 2 128))) as [[B sch|p sch]|e] eqn:E;
    [discriminate | cbn [outline] in H | discriminate].
  injection H as ED EF EB H. destruct sch as [at_ c s|at_ ec s|B N [at_ c s|at_ ec s|B' N' sch]]; try discriminate H.
  injection H as E1 E2 E3.
  assert (AS : asked (exact_world (still_world 1)) (still_dict ".mat" 1 1 0 2 128) (SEpisodic at_ ec s) (still_settings 1 1 1 128 256)).
  { apply (still_asked ".mat" 1 1 1 0 2 128 256); try lia. unfold flow_shape, file_flow_shape, mat_flow_shape. rewrite E1, E3. reflexivity. }
  exists p, at_, ec, s. split; [reflexivity|]. split; [exact AS|].
  destruct (C96_episodes (still_world 1) _ _ _ _ _ _ ltac:(cbn; lia) E AS) as (L & c & base & PL & FS & W).
  assert (EL : L = 2).
  { destruct PL as (v & G & I & _). change (given "episode_length" (still_dict ".mat" 1 1 0 2 128)) with (Some (PInt 2)) in G.
    injection G as <-. inversion I. lia. }
  subst L. destruct (window_conditions at_ c base 0 FS E1 E2 E3) as (W1 & W2 & W3 & W4 & W5 & W6 & W7).
  destruct (W mat_files 9 RenderProps.toy_ex (fun a => a) RenderProps.toy_gen (settings_geom 128 256) 3%Z (1 # 2)%Q 1%Q 2%Z 1%Z
     W1 W2 W3 W4 W5 W6 ltac:(cbn; lia) eq_refl eq_refl (settings_clean _ _ _ _ _ (or_intror (conj eq_refl eq_refl))) (settings_pixels _ _ _ _ _) W7)
    as (ws & X1 & X2).
  assert (SP : forall e, spread 2 (ws e)).
  { intros e. destruct (X1 e) as [Y _]. destruct (ws e) as [|x [|y l]]; try discriminate Y. apply one_spread. }
  intros tm ops HO sc. specialize (X2 (or_intror SP) tm ops HO). cbv zeta in X2. revert X2. apply plays_weaken.
  intros e t m b Z. exact (Z (SP e)).
Qed.

Example C96_prefetched_episodes_case : exists p at_ ec s,
  make (exact_world (still_world 1)) (PDict (still_dict ".mat" 1 1 3 2 128)) = Ok (SyntheticSampler p (SPrefetch 1 3 (SEpisodic at_ ec s))) /\
  asked (exact_world (still_world 1)) (still_dict ".mat" 1 1 3 2 128) (SPrefetch 1 3 (SEpisodic at_ ec s)) (still_settings 1 1 1 128 256) /\
  forall ops, Forall (fun o => o = SNext \/ o = SNextEpisode) ops ->
    let sc := compiled RenderProps.toy_ex (fun a => a) RenderProps.toy_gen (still_settings 1 1 1 128 256) (still_world 1) p
                (SPrefetch 1 3 (SEpisodic at_ ec s)) 9 in
    plays_as (fun e t m b => all_move 1 (o_pb (settings_geom 128 256)) (o_off (settings_geom 128 256)) 3 2 1 b) 1 2 0 0 0 (SNext :: ops)
      (fst (srun sc (SNext :: ops) (syn_init sc (start_of 9 exP_tm (SPrefetch 1 3 (SEpisodic at_ ec s)))))).
Proof.
  pose proof (proj2 (proj2 (proj2 still_built))) as H.
  destruct (make (exact_world (still_world 1)) (PDict (still_dict ".mat" 1 1 3 2 128))) as [[B sch|p sch]|e] eqn:E;
    [discriminate | cbn [outline] in H | discriminate].
  injection H as ED EF EB H. destruct sch as [at_ c s|at_ ec s|B N [at_ c s|at_ ec s|B' N' sch]]; try discriminate H.
  injection H as -> -> E1 E2 E3.
  assert (AS : asked (exact_world (still_world 1)) (still_dict ".mat" 1 1 3 2 128) (SPrefetch 1 3 (SEpisodic at_ ec s)) (still_settings 1 1 1 128 256)).
  { apply (still_asked ".mat" 1 1 1 3 2 128 256); try lia. unfold flow_shape, file_flow_shape, mat_flow_shape. rewrite E1, E3. reflexivity. }
  exists p, at_, ec, s. split; [reflexivity|]. split; [exact AS|].
  destruct (C96_prefetched_episodes (still_world 1) _ _ _ _ _ _ _ _ ltac:(cbn; lia) E AS) as (L & c & base & PL & FS & W).
  assert (EL : L = 2).
  { destruct PL as (v & G & I & _). change (given "episode_length" (still_dict ".mat" 1 1 3 2 128)) with (Some (PInt 2)) in G.
    injection G as <-. inversion I. lia. }
  subst L. destruct (window_conditions at_ c base 3 FS E1 E2 E3) as (W1 & W2 & W3 & W4 & W5 & W6 & W7).
  destruct (W mat_files 9 RenderProps.toy_ex (fun a => a) RenderProps.toy_gen (settings_geom 128 256) 3%Z (1 # 2)%Q 1%Q 2%Z 1%Z
     W1 W2 W3 W4 W5 W6 ltac:(cbn; lia) eq_refl eq_refl eq_refl (settings_clean _ _ _ _ _ (or_intror (conj eq_refl eq_refl))) (settings_pixels _ _ _ _ _) W7)
    as (ws & X1 & X2).
  assert (SP : forall e, spread 2 (ws e)).
  { intros e. destruct (X1 e) as [Y _]. destruct (ws e) as [|x [|y l]]; try discriminate Y. apply one_spread. }
  intros ops HO sc. specialize (X2 (or_intror SP) exP_tm (SNext :: ops) ltac:(intros i; cbn; repeat split; lia) (Forall_cons _ (or_introl eq_refl) HO)).
  cbv zeta in X2. revert X2. apply plays_weaken. intros e t m b Z. exact (Z (SP e)).
Qed.
