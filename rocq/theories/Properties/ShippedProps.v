(** Property C108: acceptance in any arithmetic; the shipped configurations. *)
From Coq Require Import List Arith ZArith QArith Qabs Qminmax String Bool Lia Permutation.
From Flocq Require Import IEEE754.BinarySingleNaN.
From Verif Require Import Prelude Model.PyVal Model.Types Model.Base Model.Files Model.Loaders Model.Episodic Model.Prefetch Model.Sampler Model.Stack.
From Verif Require Import Model.Interp Model.DataGen Model.Geometry Model.Make Model.Synthetic Model.Configured Model.Shipped.
From Verif Require Import Spec.BaseSpec Spec.TypesSpec Spec.FilesSpec Spec.MakeSpec Spec.SamplerSpec Spec.PipelineSpec Spec.ConfiguredSpec Spec.AcceptSpec Spec.ArithSpec Spec.ShippedSpec.
From Verif Require Import Proofs.LoaderProofs Proofs.MakeProofs Proofs.MakeMore Proofs.ConfiguredProofs Proofs.AcceptProofs Proofs.ArithProofs Proofs.ShippedProofs.
From Verif Require Import Properties.MakeProps Properties.ConfiguredProps Properties.AcceptProps Properties.GeometryProps Properties.PipelineProps Properties.RealProps.
Import ListNotations.
Local Open Scope string_scope.
Local Open Scope nat_scope.

(** ** C108 *)

Lemma make_ruling : forall w d sch a, 0 < w_devices w -> asked w d sch a -> schedulable w d (sp_batch (a_spec a)) sch ->
  ((exists g, fits_in w d sch a g) /\ exists p, make w (PDict d) = Ok (SyntheticSampler p sch) /\ construct (w_num w) (args_in w a) = Ok (sy_geom p)) \/
  (~ (exists g, fits_in w d sch a g) /\ make w (PDict d) = Err ValueError).
Proof.
  intros w d sch a WD AS SC. apply schedulable_build in SC. destruct SC as (cls & N & L & BD).
  assert (E : make w (PDict d) = bind (synthetic_from_config w d sch) (fun p => Ok (SyntheticSampler p sch))).
  { unfold make. cbn [load_config bind]. rewrite make_dict_build, BD. cbn [bind finish].
    destruct (as_repeat _ _ _ _ AS) as (v & G & I & _). rewrite dict_get_given, G.
    destruct I; destruct (0 <? L); reflexivity. }
  rewrite E. destruct (from_config_ruling w d sch a WD AS) as [[F (p & H & R)] | [F H]]; rewrite H; cbn [bind].
  - left. split; [exact F|]. exists p. split; [reflexivity | exact R].
  - right. split; [exact F | reflexivity].
Qed.

(** Whatever the arithmetic, a configuration with finite numbers is accepted
    exactly when its scheduler can be built, its entries fit together and the
    geometry can be computed; the sampler then has this geometry. *)
Theorem C108_accepts : forall w d sch a g, 0 < w_devices w -> asked w d sch a ->
  ((exists p, make w (PDict d) = Ok (SyntheticSampler p sch) /\ sy_geom p = g) <->
   schedulable w d (sp_batch (a_spec a)) sch /\ fits_in w d sch a g).
Proof.
  intros w d sch a g WD AS.
  assert (U : forall g', fits_in w d sch a g' -> forall p, construct (w_num w) (args_in w a) = Ok (sy_geom p) -> sy_geom p = g').
  { intros g' F p E. destruct (fi_room _ _ _ _ _ F) as [E' _]. congruence. }
  split.
  - intros (p & H & <-).
    assert (SC : schedulable w d (sp_batch (a_spec a)) sch).
    { pose proof H as H'. apply make_ok in H'. destruct H' as (cls & B & N & L & inc & seed & at_ & c & s & sch' & S1 & S2 & S3 & S4 & S5 & S6).
      destruct inc; [discriminate S6|]. destruct S6 as (p' & v & _ & _ & _ & _ & E). inversion E. subst sch'.
      rewrite (positive_fun _ _ _ _ (as_batch _ _ _ _ AS) (ss_batch _ _ _ _ _ _ _ S1)).
      exists cls, N, L, seed, at_, c, s. auto. }
    split; [exact SC|]. destruct (make_ruling w d sch a WD AS SC) as [[[g F] (p' & H' & E)] | [_ E]]; [|congruence].
    assert (EP : p' = p) by congruence. subst p'. rewrite (U _ F _ E). exact F.
  - intros [SC F]. destruct (make_ruling w d sch a WD AS SC) as [[_ (p & H & E)] | [NF _]]; [|exfalso; apply NF; exists g; exact F].
    exists p. split; [exact H | exact (U _ F _ E)].
Qed.
Print Assumptions C108_accepts.

(** Otherwise the exception is a ValueError. *)
Theorem C108_refuses : forall w d sch a, 0 < w_devices w -> asked w d sch a ->
  schedulable w d (sp_batch (a_spec a)) sch -> (forall g, ~ fits_in w d sch a g) -> make w (PDict d) = Err ValueError.
Proof.
  intros w d sch a WD AS SC NF. destruct (make_ruling w d sch a WD AS SC) as [[[g F] _] | [_ E]]; [exfalso; exact (NF g F) | exact E].
Qed.
Print Assumptions C108_refuses.

(** *** main.yaml, cylinder.yaml, Jassal.yaml *)

(** The three differ in the size of the images, in how often a flow field is
    used, in the noise and in their directory. *)
Definition mat_args (n : Z) (nd bpf : nat) (gm gs : Q) : syn_args :=
  mkSynArgs (mkGspec 1 (n, n) (0, 0)%Z (3 # 100, 4 # 100)%Q (1 # 10000) (1 # 10000) [(15 # 10, 25 # 10)%Q] (3 # 100)
    [(150, 230)%Q] (1 # 100) [(-(1 # 10), 1 # 10)%Q] (1 # 10) 1 (1 # 1000) gm gs)
    (0, 0)%Q nd 1 bpf (inject_Z n, inject_Z n) (256, 256)%Z 1 (10 # 10) (0, 0)%Q (0, 0)%Q true 0 None None.

Lemma main_asked : forall w sch, 0 < w_devices w -> flow_shape w sch = Ok [256; 256; 2] ->
  asked w main_yaml sch (mat_args 1024 1 1 (1 # 100) (1 # 1000)).
Proof.
  intros w sch WD FS. constructor; try fin; try pos; try two; try rngs.
  - exists [0]. split; [|reflexivity]. right. exists (PList [PInt 0]), [PInt 0]. split; [reflexivity|]. split; [left; reflexivity|].
    split; [|discriminate]. constructor; [|constructor]. exists 0%Z. split; [constructor|]. split; [lia|]. left. split; reflexivity.
  - eexists _, _, _, _. split; [reflexivity|]. split; [left; reflexivity|]. split; value.
  - exists 256, 256, 2. split; [exact FS | reflexivity].
  - split; fin.
  - split; fin.
  - reflexivity.
  - exists None. split; [right; split; reflexivity | reflexivity].
  - exists None. split; [right; split; reflexivity | split; reflexivity].
Qed.

Lemma other_asked : forall w sch d n bpf gm gs, d = cylinder_yaml /\ n = 256%Z /\ bpf = 1 /\ gm = (1 # 1000)%Q /\ gs = (1 # 1000000)%Q \/
    d = jassal_yaml /\ n = 256%Z /\ bpf = 100 /\ gm = (0 # 10)%Q /\ gs = (0 # 10)%Q ->
  flow_shape w sch = Ok [256; 256; 2] ->
  asked w d sch (mat_args n (w_devices w) bpf gm gs).
Proof.
  intros w sch d n bpf gm gs H FS.
  destruct H as [(-> & -> & -> & -> & ->) | (-> & -> & -> & -> & ->)]; (constructor; try fin; try pos; try two; try rngs;
  [ exists (seq 0 (w_devices w)); split; [left; split; [right; split; reflexivity | reflexivity] | cbn [a_devices mat_args]; rewrite seq_length; reflexivity]
  | eexists _, _, _, _; split; [reflexivity|]; split; [left; reflexivity|]; split; value
  | exists 256, 256, 2; split; [exact FS | reflexivity]
  | split; fin | split; fin | reflexivity
  | exists None; split; [right; split; reflexivity | reflexivity]
  | exists None; split; [right; split; reflexivity | split; reflexivity] ]).
Qed.

(** What the float geometry of the three comes to. *)
Definition mat_geometry (n : Z) : gcfg float64 :=
  mkGcfg float64 (n, n) (f64_ofQ 0, f64_ofQ 0) (f64_ofQ 1) (f64_ofQ (inject_Z n), f64_ofQ (inject_Z n)) (256, 256)%Z
    (f64_ofQ 1) (f64_ofQ (10 # 10)) (f64_ofQ (25 # 10)) (f64_ofQ 0, f64_ofQ 0) (f64_ofQ 0, f64_ofQ 0) true.

Lemma mat_geometry_ok : forall n, n = 1024%Z \/ n = 256%Z ->
  exists g, construct float64 (mat_geometry n) = Ok g /\ o_off g = (7, 7)%Z /\ o_pb g = (n + 7, n + 7)%Z /\ o_out g = (n, n).
Proof.
  intros n H.
  destruct (ok_test (construct float64 (mat_geometry n))
    (fun g => (fst (o_off g) =? 7) && (snd (o_off g) =? 7) && (fst (o_pb g) =? n + 7) && (snd (o_pb g) =? n + 7) &&
              (fst (o_out g) =? n) && (snd (o_out g) =? n))%Z) as (g & E & B).
  { destruct H as [-> | ->]; vm_cast_no_check (eq_refl true). }
  rewrite !andb_true_iff, !Z.eqb_eq in B. destruct B as [[[[[B1 B2] B3] B4] B5] B6].
  exists g. split; [exact E|]. destruct (o_off g), (o_pb g), (o_out g). cbn [fst snd] in *. subst. auto.
Qed.

Ltac reals := repeat first [apply conj | apply Forall_cons | apply Forall_nil | discriminate | progress unfold positive_range, correlation_range, probability, non_negative, lt, le | assumption |
  solve [cbn; unfold Qle; cbn; lia] ].

Lemma mat_fits : forall w d sch n nd bpf gm gs g, given "flow_field_size" d = Some (PList [PInt n; PInt n]) ->
  given "mask" d = None -> given "histogram" d = None -> n = 1024%Z \/ n = 256%Z -> (0 <= gm)%Q -> (0 <= gs)%Q ->
  flow_shape (float_world w) sch = Ok [256; 256; 2] -> construct float64 (mat_geometry n) = Ok g -> o_off g = (7, 7)%Z ->
  fits_in (float_world w) d sch (mat_args n nd bpf gm gs) g.
Proof.
  intros w d sch n nd bpf gm gs g G1 G2 G3 Hn HM HS FS E EO. constructor.
  - clear - Hn HM HS. constructor; cbn; destruct Hn as [-> | ->]; reals.
  - cbn. lia.
  - eexists _, _. split; [exact G1|]. split; [left; reflexivity|].
    repeat constructor; eexists; (split; [constructor|]); destruct Hn as [-> | ->]; split; cbn; unfold Qle; cbn; lia.
  - exists 256, 256, 2. repeat split; auto; lia.
  - cbn. split; reflexivity.
  - cbn. lia.
  - cbn. split; unfold Qle; cbn; lia.
  - intros m (p & G & _). congruence.
  - intros h (p & G & _). congruence.
  - split; [exact E|]. change (w_num (float_world w)) with float64. rewrite EO. cbn. lia.
Qed.

Definition mat_configs : list (list (string * pyval) * string * Z) :=
  [(main_yaml, "/shared/fluids/fluids-estimation/eye_candies_main", 1024%Z);
   (cylinder_yaml, "/shared/fluids/fluids-estimation/piv_dataset_final/train/cylinder_full", 256%Z);
   (jassal_yaml, "/shared/fluids/fluids-estimation/Jassal/temp_res/buoyancy_mixing", 256%Z)].

Lemma mat_config_cases : forall (P : list (string * pyval) -> string -> Z -> Prop),
  P main_yaml "/shared/fluids/fluids-estimation/eye_candies_main" 1024%Z ->
  P cylinder_yaml "/shared/fluids/fluids-estimation/piv_dataset_final/train/cylinder_full" 256%Z ->
  P jassal_yaml "/shared/fluids/fluids-estimation/Jassal/temp_res/buoyancy_mixing" 256%Z ->
  forall d dir n, In (d, dir, n) mat_configs -> P d dir n.
Proof. intros P H1 H2 H3 d dir n [E|[E|[E|[]]]]; inversion E; subst; assumption. Qed.

Lemma mat_settings : forall d dir n, In (d, dir, n) mat_configs ->
  stack_settings d Mat 1 0 0 false 0 /\ file_settings d [dir] false true.
Proof.
  apply (mat_config_cases (fun d dir _ => stack_settings d Mat 1 0 0 false 0 /\ file_settings d [dir] false true)).
  all: split; [constructor|split; [|split]].
  all: try (eexists; split; [reflexivity|]; split; [exact (integer_int _) | lia]).
  all: try (eexists; split; [right; split; reflexivity | exact (integer_int _)]).
  all: try (eexists; split; [left; reflexivity|]; split; [exact (integer_int _) | lia]).
  all: try (left; reflexivity).
  all: try (right; split; reflexivity).
  all: first [reflexivity | discriminate].
Qed.

Lemma mat_entries : forall d dir n, In (d, dir, n) mat_configs ->
  given "flow_field_size" d = Some (PList [PInt n; PInt n]) /\ given "mask" d = None /\ given "histogram" d = None.
Proof.
  apply (mat_config_cases (fun d _ n => given "flow_field_size" d = Some (PList [PInt n; PInt n]) /\ given "mask" d = None /\ given "histogram" d = None)).
  all: repeat split; reflexivity.
Qed.

Lemma mat_asked : forall w d dir n sch, In (d, dir, n) mat_configs -> 0 < w_devices w -> flow_shape w sch = Ok [256; 256; 2] ->
  (n = 1024%Z \/ n = 256%Z) /\ exists nd bpf gm gs, asked w d sch (mat_args n nd bpf gm gs) /\ (0 <= gm)%Q /\ (0 <= gs)%Q.
Proof.
  intros w d dir n sch IN WD FS. revert d dir n IN.
  apply (mat_config_cases (fun d dir n => (n = 1024%Z \/ n = 256%Z) /\
    exists nd bpf gm gs, asked w d sch (mat_args n nd bpf gm gs) /\ (0 <= gm)%Q /\ (0 <= gs)%Q)).
  - split; [auto|]. eexists _, _, _, _. split; [apply main_asked; assumption | split; discriminate].
  - split; [auto|]. eexists _, _, _, _. split; [apply other_asked; [left; repeat split; reflexivity | assumption] | split; discriminate].
  - split; [auto|]. eexists _, _, _, _. split; [apply other_asked; [right; repeat split; reflexivity | assumption] | split; discriminate].
Qed.

(** A stack without wrappers: the sampler stands directly on the files. *)
Lemma plain_ok : forall w d cls B seed entries smp, stack_settings d cls B 0 0 false seed -> file_settings d entries false true ->
  make w (PDict d) = Ok smp ->
  exists p a c s, smp = SyntheticSampler p (SFile a c s) /\ fa_class a = cls /\ fa_images a = false /\
    file_stage w d a c s /\ found w cls entries (s_files s) /\ synthetic_from_config w d (SFile a c s) = Ok p.
Proof.
  intros w d cls' B' seed' entries smp SS FS H. apply make_ok in H.
  destruct H as (cls & B & N & L & inc & seed & a & c & s & sch & S1 & S2 & S3 & S4 & S5 & S6).
  destruct (stage_found _ _ _ _ _ _ S4 FS) as (files & FO & ES & RA & LO).
  assert (EC : cls = cls').
  { pose proof (ss_class _ _ _ _ _ _ _ S1) as E1. rewrite (ss_class _ _ _ _ _ _ _ SS) in E1. destruct cls, cls'; try discriminate E1; reflexivity. }
  assert (EI : inc = false).
  { pose proof (setting_unique _ _ _ _ _ (ss_images _ _ _ _ _ _ _ S1) (ss_images _ _ _ _ _ _ _ SS)) as E1. injection E1 as E1. exact E1. }
  assert (size0 : forall k m, size_setting d k m -> size_setting d k 0 -> m = 0).
  { intros k m (v & E1 & I1) (v' & E2 & I2). rewrite (setting_unique _ _ _ _ _ E1 E2) in I1. pose proof (integer_fun _ _ _ I1 I2). lia. }
  pose proof (size0 _ _ (ss_buffer _ _ _ _ _ _ _ S1) (ss_buffer _ _ _ _ _ _ _ SS)) as EN.
  pose proof (size0 _ _ (ss_episode _ _ _ _ _ _ _ S1) (ss_episode _ _ _ _ _ _ _ SS)) as EL.
  rewrite EI in S3, S6. rewrite EC in S2. rewrite EN, EL in S5. destruct S6 as (p & v & _ & _ & _ & SO & ->).
  destruct S5 as (core & [[_ ->] | [Z _]] & [[_ ->] | [Z' _]]); try lia. exists p, a, c, s. split; [reflexivity|].
  split; [exact S2|]. split; [exact S3|]. split; [exact S4|].
  assert (EF : s_files s = files) by (rewrite ES; unfold init; rewrite RA; reflexivity).
  rewrite EF. rewrite S2 in FO. split; [exact FO | exact SO].
Qed.

(** In Python's arithmetic each is accepted exactly when its directory holds at
    least one .mat file; then the images are cut out, without loss, 7 pixels
    inside an area that is 7 pixels higher and wider. *)
Theorem C108_mat_configs : forall w d dir n, In (d, dir, n) mat_configs -> 0 < w_devices w ->
  ((exists smp, make (float_world w) (PDict d) = Ok smp) <-> exists files, found w Mat [dir] files) /\
  forall smp, make (float_world w) (PDict d) = Ok smp ->
    exists p a c s, smp = SyntheticSampler p (SFile a c s) /\ found w Mat [dir] (s_files s) /\
      o_off (sy_geom p) = (7, 7)%Z /\ o_pb (sy_geom p) = (n + 7, n + 7)%Z /\ o_out (sy_geom p) = (n, n).
Proof.
  intros w d dir n IN WD. destruct (mat_settings d dir n IN) as [SS FS].
  assert (A : forall smp, make (float_world w) (PDict d) = Ok smp ->
    exists p a c s, smp = SyntheticSampler p (SFile a c s) /\ found w Mat [dir] (s_files s) /\
      flow_shape (float_world w) (SFile a c s) = Ok [256; 256; 2]).
  { intros smp H. destruct (plain_ok _ _ _ _ _ _ _ SS FS H) as (p & a & c & s & -> & S2 & S3 & S4 & FO & _). exists p, a, c, s.
    split; [reflexivity|]. split; [exact FO|].
    pose proof (fst_shape _ _ _ _ _ S4) as SH. rewrite S3 in SH. cbn [image_setting] in SH.
    cbn [flow_shape]. unfold file_flow_shape. rewrite S2, SH. reflexivity. }
  split.
  - split.
    + intros [smp H]. destruct (A smp H) as (p & a & c & s & _ & F & _). exists (s_files s). exact F.
    + intros [files F]. pose proof (found_stage (float_world w) d Mat [dir] files FS F) as ST. cbv zeta in ST.
      set (a := mkFattrs Mat false (256, 256)) in *. set (c := mkCfg (loader_for (float_world w) a) (w_rng (float_world w)) false true) in *.
      set (s := init c files (Seed 0)) in *.
      assert (SH : flow_shape (float_world w) (SFile a c s) = Ok [256; 256; 2]) by reflexivity.
      destruct (mat_asked (float_world w) d dir n _ IN WD SH) as [Hn (nd & bpf & gm & gs & AS & GM & GS)].
      destruct (mat_geometry_ok n Hn) as (g & EG & EO & _).
      destruct (proj2 (C108_accepts (float_world w) d (SFile a c s) _ g WD AS)) as (p & H & _); [|exists (SyntheticSampler p (SFile a c s)); exact H].
      split.
      * exists Mat, 0, 0, 0%Z, a, c, s. split; [exact SS|]. split; [reflexivity|]. split; [reflexivity|]. split; [exact ST|].
        exists (SFile a c s). split; left; split; reflexivity.
      * destruct (mat_entries d dir n IN) as (M1 & M2 & M3). apply mat_fits; auto.
  - intros smp H. destruct (A smp H) as (p & a & c & s & E & F & SH). exists p, a, c, s. split; [exact E|]. split; [exact F|]. subst smp.
    destruct (mat_asked (float_world w) d dir n _ IN WD SH) as [Hn (nd & bpf & gm & gs & AS & GM & GS)].
    destruct (mat_geometry_ok n Hn) as (g & EG & EO & EB & ET).
    destruct (proj1 (C108_accepts (float_world w) d (SFile a c s) _ (sy_geom p) WD AS)) as [_ FI]; [exists p; split; [exact H | reflexivity]|].
    destruct (fi_room _ _ _ _ _ FI) as [E' _].
    assert (EQ : sy_geom p = g).
    { assert (Z : Ok (sy_geom p) = Ok g) by exact (eq_trans (eq_sym E') EG). injection Z as Z. exact Z. }
    rewrite EQ. exact (conj EO (conj EB ET)).
Qed.
Print Assumptions C108_mat_configs.

(** *** JHTDB.yaml *)

Definition jhtdb_files : list string :=
  map (fun n => "/shared/fluids/fluids-estimation/files_to_modify/split_files/channel_full_ts_" ++ n ++ ".h5")
    ["0984_part1"; "0984_part2"; "0988_part1"; "0988_part2"; "0992_part1"; "0992_part2"; "0996_part1"; "0996_part2"].

Definition jhtdb_args (nd y x : nat) : syn_args :=
  mkSynArgs (mkGspec 128 (1216, 1936)%Z (0, 0)%Z (1 # 1000, 1 # 100)%Q (1 # 100) (1 # 100) [(1 # 10, 1)%Q] (1 # 10)
    [(10, 255)%Q] (1 # 10) [(-(2 # 10), 2 # 10)%Q] (1 # 10) (26 # 1000) (0 # 10) (0 # 10) (0 # 10))
    (25 # 1000, 5 # 100)%Q nd 64 500 (942477796 # 100000000, 1256637061 # 100000000)%Q (Z.of_nat y, Z.of_nat x) 200 (10 # 10)
    (501191258430481 # 1000000000000000, 13489508628845215 # 10000000000000000)%Q
    (-(45968499779701233 # 100000000000000000), -(10241036862134933 # 100000000000000000))%Q false 0 None None.

Lemma jhtdb_asked : forall w sch y x, flow_shape w sch = Ok [y; x; 2] -> asked w jhtdb_yaml sch (jhtdb_args (w_devices w) y x).
Proof.
  intros w sch y x FS. constructor; try fin; try pos; try two; try rngs.
  - exists (seq 0 (w_devices w)); split; [left; split; [right; split; reflexivity | reflexivity] | cbn [a_devices jhtdb_args]; rewrite seq_length; reflexivity].
  - eexists _, _, _, _; split; [reflexivity|]; split; [left; reflexivity|]; split; value.
  - exists y, x, 2; split; [exact FS | reflexivity].
  - split; fin.
  - split; fin.
  - reflexivity.
  - exists None; split; [right; split; reflexivity | reflexivity].
  - exists None; split; [right; split; reflexivity | split; reflexivity].
Qed.

Definition jhtdb_geometry (y x : Z) : gcfg float64 :=
  mkGcfg float64 (1216, 1936)%Z (f64_ofQ (25 # 1000), f64_ofQ (5 # 100)) (f64_ofQ (26 # 1000))
    (f64_ofQ (942477796 # 100000000), f64_ofQ (1256637061 # 100000000)) (y, x) (f64_ofQ 200) (f64_ofQ (10 # 10)) (f64_ofQ 1)
    (f64_ofQ (501191258430481 # 1000000000000000), f64_ofQ (13489508628845215 # 10000000000000000))
    (f64_ofQ (-(45968499779701233 # 100000000000000000)), f64_ofQ (-(10241036862134933 # 100000000000000000))) true.

Lemma jhtdb_geometry_ok : forall y x, (0 < y < 2 ^ 31)%Z -> (0 < x < 2 ^ 31)%Z ->
  exists g, construct float64 (jhtdb_geometry y x) = Ok g /\
    o_off g = (3, 7)%Z /\ o_pb g = (1221, 1943)%Z /\ o_out g = (1216, 1936)%Z /\ o_pad g = (0, 0)%Z.
Proof.
  intros y x Hy Hx.
  destruct (ok_test (construct float64 (jhtdb_geometry 1 1))
    (fun g => (fst (o_off g) =? 3) && (snd (o_off g) =? 7) && (fst (o_pb g) =? 1221) && (snd (o_pb g) =? 1943) &&
              (fst (o_out g) =? 1216) && (snd (o_out g) =? 1936) &&
              negb (f64_ltb (f64_ofZ 0) (n_neg float64 (fst (l_pbo g)))) && negb (f64_ltb (f64_ofZ 0) (n_neg float64 (snd (l_pbo g)))))%Z) as (g & E & B).
  { vm_cast_no_check (eq_refl true). }
  rewrite !andb_true_iff, !Z.eqb_eq, !negb_true_iff in B. destruct B as [[[[[[[B1 B2] B3] B4] B5] B6] B7] B8].
  destruct (construct_shape float64 (jhtdb_geometry 1 1) g y x 0 0 E) as [res E'].
  - lia.
  - lia.
  - apply no_padding; [|exact B7]. apply quotient_finite; [exact Hy|..].
    + vm_compute. reflexivity.
    + apply at_least_one; vm_compute; reflexivity.
  - apply no_padding; [|exact B8]. apply quotient_finite; [exact Hx|..].
    + vm_compute. reflexivity.
    + apply at_least_one; vm_compute; reflexivity.
  - eexists. split; [exact E'|]. cbn [o_off o_pb o_out o_pad].
    destruct (o_off g), (o_pb g), (o_out g). cbn [fst snd] in *. subst. auto.
Qed.

Lemma jhtdb_settings : stack_settings jhtdb_yaml H5 128 0 0 false 0 /\ file_settings jhtdb_yaml jhtdb_files false true.
Proof.
  split; [constructor|split; [|split]].
  all: try (eexists; split; [reflexivity|]; split; [exact (integer_int _) | lia]).
  all: try (eexists; split; [right; split; reflexivity | exact (integer_int _)]).
  all: try (eexists; split; [left; reflexivity|]; split; [exact (integer_int _) | lia]).
  all: try (left; reflexivity).
  all: try (right; split; reflexivity).
  all: first [reflexivity | discriminate].
Qed.

Lemma jhtdb_fits : forall w sch y x g, 0 < y -> 0 < x -> flow_shape (float_world w) sch = Ok [y; x; 2] ->
  construct float64 (jhtdb_geometry (Z.of_nat y) (Z.of_nat x)) = Ok g -> o_off g = (3, 7)%Z ->
  fits_in (float_world w) jhtdb_yaml sch (jhtdb_args (w_devices w) y x) g.
Proof.
  intros w sch y x g Hy Hx FS E EO. constructor.
  - clear. constructor; cbn; reals.
  - cbn. lia.
  - eexists _, _. split; [reflexivity|]. split; [left; reflexivity|].
    constructor; [|constructor; [|constructor]]; (eexists; split; [constructor|]; split; cbn; unfold Qle; cbn; lia).
  - exists y, x, 2. repeat split; auto; lia.
  - cbn. split; reflexivity.
  - cbn. lia.
  - cbn. split; unfold Qle; cbn; lia.
  - intros m (p & G & _). discriminate G.
  - intros h (p & G & _). discriminate G.
  - split; [exact E|]. change (w_num (float_world w)) with float64. rewrite EO. cbn. lia.
Qed.

Lemma h5_shape_opens : forall w s y x, h5_flow_shape (w_h5 w) s = Ok [y; x; 2] <-> opens w (s_files s) y x.
Proof.
  intros w s y x. unfold h5_flow_shape. split.
  - destruct (s_files s) as [|p rest]; [discriminate|]. destruct (w_h5 w p) as [a| |] eqn:E; try discriminate.
    destruct (nth_error (shape a) 0) as [y'|] eqn:E0; [|discriminate]. destruct (nth_error (shape a) 2) as [x'|] eqn:E2; [|discriminate].
    intros H. injection H as -> ->. exists p, rest, a. auto.
  - intros (p & rest & a & -> & -> & -> & ->). reflexivity.
Qed.

(** Accepted exactly when the eight files are there and the first of them opens
    as an array whose first and third sides are positive, whatever these are. *)
Theorem C108_jhtdb : forall w, 0 < w_devices w -> sensible_sizes w ->
  ((exists smp, make (float_world w) (PDict jhtdb_yaml) = Ok smp) <->
   exists files y x, found w H5 jhtdb_files files /\ opens w files y x /\ 0 < y /\ 0 < x) /\
  forall smp, make (float_world w) (PDict jhtdb_yaml) = Ok smp ->
    exists p a c s, smp = SyntheticSampler p (SFile a c s) /\ found w H5 jhtdb_files (s_files s) /\
      o_off (sy_geom p) = (3, 7)%Z /\ o_pb (sy_geom p) = (1221, 1943)%Z /\ o_out (sy_geom p) = (1216, 1936)%Z /\
      o_pad (sy_geom p) = (0, 0)%Z.
Proof.
  intros w WD SZ. destruct jhtdb_settings as [SS FS].
  assert (R : forall files y x, opens w files y x -> (Z.of_nat y < 2 ^ 31 /\ Z.of_nat x < 2 ^ 31)%Z).
  { intros files y x (p & rest & a & _ & E & E0 & E2). pose proof (SZ p a E) as F. rewrite Forall_forall in F.
    split; apply F; eapply nth_error_In; eassumption. }
  assert (A : forall smp, make (float_world w) (PDict jhtdb_yaml) = Ok smp ->
    exists p a c s y x, smp = SyntheticSampler p (SFile a c s) /\ found w H5 jhtdb_files (s_files s) /\
      opens w (s_files s) y x /\ 0 < y /\ 0 < x /\
      exists g, construct float64 (jhtdb_geometry (Z.of_nat y) (Z.of_nat x)) = Ok g /\ sy_geom p = g).
  { intros smp H. destruct (plain_ok _ _ _ _ _ _ _ SS FS H) as (p & a & c & s & -> & S2 & S3 & S4 & FO & SO).
    destruct (sn_flow_shape _ _ _ _ (synthetic_ok (float_world w) _ _ _ WD SO)) as (y & x & fc & SH & Py & Px & _).
    assert (O : opens w (s_files s) y x /\ fc = 2).
    { pose proof SH as SH'. cbn [flow_shape] in SH'. unfold file_flow_shape in SH'. rewrite S2 in SH'.
      assert (F2 : fc = 2).
      { unfold h5_flow_shape in SH'. destruct (s_files s); [discriminate|]. destruct (w_h5 _ _); try discriminate.
        destruct (nth_error _ 0); [|discriminate]. destruct (nth_error _ 2); [|discriminate]. injection SH' as _ _ <-. reflexivity. }
      split; [|exact F2]. subst fc. apply (h5_shape_opens w s y x). exact SH'. }
    destruct O as [O ->]. pose proof (jhtdb_asked (float_world w) _ y x SH) as AS.
    destruct (proj1 (C108_accepts (float_world w) jhtdb_yaml (SFile a c s) _ (sy_geom p) WD AS)) as [_ FI]; [exists p; split; [exact H | reflexivity]|].
    destruct (fi_room _ _ _ _ _ FI) as [E' _].
    exists p, a, c, s, y, x. split; [reflexivity|]. split; [exact FO|]. split; [exact O|]. split; [exact Py|]. split; [exact Px|].
    exists (sy_geom p). split; [exact E' | reflexivity]. }
  split.
  - split.
    + intros [smp H]. destruct (A smp H) as (p & a & c & s & y & x & _ & F & O & Py & Px & _). exists (s_files s), y, x. auto.
    + intros (files & y & x & F & O & Py & Px). pose proof (found_stage (float_world w) jhtdb_yaml H5 jhtdb_files files FS F) as ST. cbv zeta in ST.
      set (a := mkFattrs H5 false (256, 256)) in *. set (c := mkCfg (loader_for (float_world w) a) (w_rng (float_world w)) false true) in *.
      set (s := init c files (Seed 0)) in *.
      assert (SH : flow_shape (float_world w) (SFile a c s) = Ok [y; x; 2]).
      { cbn [flow_shape]. unfold file_flow_shape. cbn [a fa_class]. apply (h5_shape_opens w s y x). exact O. }
      pose proof (jhtdb_asked (float_world w) _ y x SH) as AS.
      destruct (R _ _ _ O) as [Ry Rx].
      destruct (jhtdb_geometry_ok (Z.of_nat y) (Z.of_nat x) ltac:(lia) ltac:(lia)) as (g & EG & EO & _).
      destruct (proj2 (C108_accepts (float_world w) jhtdb_yaml (SFile a c s) _ g WD AS)) as (p & H & _); [|exists (SyntheticSampler p (SFile a c s)); exact H].
      split.
      * exists H5, 0, 0, 0%Z, a, c, s. split; [exact SS|]. split; [reflexivity|]. split; [reflexivity|]. split; [exact ST|].
        exists (SFile a c s). split; left; split; reflexivity.
      * exact (jhtdb_fits w _ y x g Py Px SH EG EO).
  - intros smp H. destruct (A smp H) as (p & a & c & s & y & x & E & F & O & Py & Px & g & EG & EQ). exists p, a, c, s.
    split; [exact E|]. split; [exact F|]. destruct (R _ _ _ O) as [Ry Rx].
    destruct (jhtdb_geometry_ok (Z.of_nat y) (Z.of_nat x) ltac:(lia) ltac:(lia)) as (g' & EG' & EO & EB & ET & EP).
    assert (EE : g' = g) by (assert (Z : Ok g' = Ok g) by exact (eq_trans (eq_sym EG') EG); injection Z as Z; exact Z). subst g'.
    rewrite EQ. exact (conj EO (conj EB (conj ET EP))).
Qed.
Print Assumptions C108_jhtdb.

(** *** What is always refused *)

(** A list of files must be a list; .npy files with images are not supported;
    the units are spelled with spaces. *)
Theorem C108_never : forall w d smp, make w (PDict d) = Ok smp ->
  (forall p, given "file_list" d <> Some (PStr p)) /\
  ~ (given "include_images" d = Some (PBool true) /\ given "scheduler_class" d <> Some (PStr ".mat")) /\
  (0 < w_devices w -> given "output_units" d = Some (PStr "measure_units_per_second") -> exists B sch, smp = RealSampler B sch).
Proof.
  intros w d smp H. apply make_ok in H. destruct H as (cls & B & N & L & inc & seed & a & c & s & sch & S1 & S2 & S3 & S4 & S5 & S6).
  split; [|split].
  - intros p G. destruct (fst_files _ _ _ _ _ S4) as (fl & segs & (F1 & _) & _). destruct F1 as [F1|[F1 _]]; congruence.
  - intros [G NM]. destruct (ss_images _ _ _ _ _ _ _ S1) as [F1|[F1 _]]; [|congruence].
    rewrite G in F1. injection F1 as <-. pose proof (ss_class _ _ _ _ _ _ _ S1) as E1. pose proof (ss_supported _ _ _ _ _ _ _ S1 eq_refl) as E2.
    rewrite E2 in E1. apply NM. exact E1.
  - intros WD G. destruct inc; [exists B, sch; exact S6|]. destruct S6 as (p & v & _ & _ & _ & SO & _).
    destruct (sn_units _ _ _ _ (synthetic_ok _ _ _ _ WD SO)) as [G' [E|E]]; rewrite E in G'; congruence.
Qed.
Print Assumptions C108_never.

(** The examples of the documentation and config/test_data.yaml as they are, on
    any machine: the two examples and test_data.yaml lack a required entry, and
    the tutorial's list of files is not a list.  With a list, the entry
    "noise_level" of the tutorial has taken the place of entries that are
    required. *)
Theorem C108_documented : forall w,
  make w (PDict mat_example) = Err ValueError /\ make w (PDict npy_example) = Err ValueError /\
  make w (PDict test_data_yaml) = Err ValueError /\ make w (PDict tutorial_yaml) = Err ValueError /\
  forall dir files, found w Mat [dir] files ->
    make w (PDict (("file_list", PList [PStr dir]) :: tutorial_yaml)) = Err KeyError.
Proof.
  intros w. repeat (split; [reflexivity|]). intros dir files F.
  assert (FS : file_settings (("file_list", PList [PStr dir]) :: tutorial_yaml) [dir] false true) by (split; [|split]; left; reflexivity).
  pose proof (found_stage w _ Mat [dir] files FS F) as ST. cbv zeta in ST.
  set (d := ("file_list", PList [PStr dir]) :: tutorial_yaml) in *.
  set (a := mkFattrs Mat false (256, 256)) in *. set (c := mkCfg (loader_for w a) (w_rng w) false true) in *. set (s := init c files (Seed 0)) in *.
  assert (SC : schedulable w d 1 (SFile a c s)).
  { exists Mat, 0, 0, 0%Z, a, c, s. split.
    - constructor.
      all: try (eexists; split; [reflexivity|]; split; [exact (integer_int _) | lia]).
      all: try (eexists; split; [right; split; reflexivity | exact (integer_int _)]).
      all: try (eexists; split; [left; reflexivity|]; split; [exact (integer_int _) | lia]).
      all: try (left; reflexivity).
      all: try (right; split; reflexivity).
      all: first [reflexivity | discriminate].
    - split; [reflexivity|]. split; [reflexivity|]. split; [exact ST|]. exists (SFile a c s). split; left; split; reflexivity. }
  apply schedulable_build in SC. destruct SC as (cls & N & L & BD).
  unfold make. cbn [load_config bind]. rewrite make_dict_build, BD. cbn [bind finish].
  change (dict_get d "batches_per_flow_batch" PNone) with (PInt 1). cbv iota.
  replace (if 0 <? L then py_lt one (PInt 1) else Ok false) with (Ok false : result bool) by (destruct (0 <? L); reflexivity).
  reflexivity.
Qed.
Print Assumptions C108_documented.

(** *** The image example, repaired *)

Definition image_example (v : pyval) : list (string * pyval) :=
  ("file_list", PList [PStr "docs/examples/mat"]) :: ("flow_fields_per_batch", v) :: mat_example.

Lemma image_settings : forall v, stack_settings (image_example v) Mat 10 0 0 true 0 /\
  file_settings (image_example v) ["docs/examples/mat"] false true.
Proof.
  intros v. split; [constructor|split; [|split]].
  all: try (eexists; split; [reflexivity|]; split; [exact (integer_int _) | lia]).
  all: try (eexists; split; [right; split; reflexivity | exact (integer_int _)]).
  all: try (eexists; split; [left; reflexivity|]; split; [exact (integer_int _) | lia]).
  all: try (left; reflexivity).
  all: try (right; split; reflexivity).
  all: first [reflexivity | discriminate].
Qed.

(** With the list a list and any value at all for the missing entry, the example
    is accepted exactly when the directory holds .mat files.  If it holds one
    file, all ten entries of each batch, for ever, are its one pair of images. *)
Theorem C108_image_example : forall w v,
  ((exists smp, make w (PDict (image_example v)) = Ok smp) <-> exists files, found w Mat ["docs/examples/mat"] files) /\
  forall smp, make w (PDict (image_example v)) = Ok smp -> exists a c s, smp = RealSampler 10 (SFile a c s) /\
    forall p x F I1 I2, found w Mat ["docs/examples/mat"] [p] ->
      mat_load (w_pil w) (w_mat w) true 256 256 p = Ok x ->
      List.length F = 3 -> List.length I1 = 2 -> List.length I2 = 2 -> stackable F I1 I2 x ->
      forall fuel tm m, 2 < fuel ->
        exists b, answer_real (sif_of fuel (SFile a c s)) 10 (start_of fuel tm (SFile a c s)) m = Some (Ok b) /\
          same_pair 10 p x (ba_flows b) (ba_images b) (ba_mask b) (ba_files b).
Proof.
  intros w v. destruct (image_settings v) as [SS FS]. split.
  - split.
    + intros [smp H]. apply make_ok in H. destruct H as (cls & B & N & L & inc & seed & a & c & s & sch & S1 & S2 & S3 & S4 & S5 & S6).
      destruct (stage_found _ _ _ _ _ _ S4 FS) as (files & FO & _). exists files.
      pose proof (ss_class _ _ _ _ _ _ _ S1) as E1. rewrite (ss_class _ _ _ _ _ _ _ SS) in E1. destruct cls; try discriminate E1.
      rewrite S2 in FO. exact FO.
    + intros [files (segs & F1 & -> & F2 & F3 & F4)].
      set (a := mkFattrs Mat true (256, 256)). set (c := mkCfg (loader_for w a) (w_rng w) false true).
      exists (RealSampler 10 (SFile a c (init c (List.concat segs) (Seed 0)))). apply C63_real.
      exists 0, 0, 0%Z, a, c, (init c (List.concat segs) (Seed 0)). split; [exact SS|]. split; [reflexivity|]. split; [reflexivity|]. split.
      * constructor.
        -- eexists _, (PInt 256), (PInt 256). split; [left; reflexivity|]. split; [right; reflexivity|].
           cbn. split; [exact (integer_int _)|]. split; [exact (integer_int _)|]. lia.
        -- split; reflexivity.
        -- exists ["docs/examples/mat"], segs. split; [exact FS|]. split; [exact F1|]. split; [exact F2|]. split; [exact F3|]. split; [reflexivity|]. exact F4.
      * exists (SFile a c (init c (List.concat segs) (Seed 0))). split; left; split; reflexivity.
  - intros smp H. pose proof H as HM. apply make_ok in HM. destruct HM as (cls & B & N & L & inc & seed & a & c & s & sch & S1 & S2 & S3 & S4 & S5 & S6).
    assert (EI : inc = true).
    { pose proof (setting_unique _ _ _ _ _ (ss_images _ _ _ _ _ _ _ S1) (ss_images _ _ _ _ _ _ _ SS)) as E1. injection E1 as E1. exact E1. }
    pose proof (ss_supported _ _ _ _ _ _ _ S1 EI) as EC.
    assert (size0 : forall k m, size_setting (image_example v) k m -> size_setting (image_example v) k 0 -> m = 0).
    { intros k m (u & E1 & J1) (u' & E2 & J2). rewrite (setting_unique _ _ _ _ _ E1 E2) in J1. pose proof (integer_fun _ _ _ J1 J2). lia. }
    pose proof (size0 _ _ (ss_buffer _ _ _ _ _ _ _ S1) (ss_buffer _ _ _ _ _ _ _ SS)) as EN.
    pose proof (size0 _ _ (ss_episode _ _ _ _ _ _ _ S1) (ss_episode _ _ _ _ _ _ _ SS)) as EL.
    pose proof (positive_fun _ _ _ _ (ss_batch _ _ _ _ _ _ _ S1) (ss_batch _ _ _ _ _ _ _ SS)) as EB.
    rewrite EI in S3, S6. rewrite EC in S2. rewrite EN, EL in S5. rewrite EB in S6. subst smp.
    destruct S5 as (core & [[_ ->] | [Z _]] & [[_ ->] | [Z' _]]); try lia.
    exists a, c, s. split; [reflexivity|]. intros p x F I1 I2 FO HL LF L1 L2 ST fuel tm m HF.
    destruct (C98_files _ _ _ _ _ _ H) as (_ & files & LI & CL & _ & PL).
    destruct (stage_found _ _ _ _ _ _ S4 FS) as (files' & _ & _ & RA & LO).
    assert (EF : files = [p]).
    { destruct LI as (fl & segs & (G1 & _) & F1 & ->). destruct FO as (segs' & F1' & E' & _). rewrite E'.
      assert (EE : fl = ["docs/examples/mat"]).
      { pose proof (setting_unique _ _ _ _ _ G1 (proj1 FS)) as E. injection E as E. destruct fl as [|q [|? ?]]; try discriminate E. injection E as ->. reflexivity. }
      rewrite EE in F1. rewrite S2 in F1. rewrite <- (expand_unique _ _ _ _ F1), <- (expand_unique _ _ _ _ F1'). reflexivity. }
    assert (ESH : fa_shape a = (256, 256)).
    { pose proof (fst_shape _ _ _ _ _ S4) as SH. rewrite S3 in SH. destruct SH as (u & i & j & G & Q & J1 & J2 & _).
      destruct G as [G|[G _]]; [|discriminate G]. injection G as <-. destruct Q as [Q|Q]; [discriminate Q|]. injection Q as <- <-.
      pose proof (integer_fun _ _ _ J1 (integer_int 256)). pose proof (integer_fun _ _ _ J2 (integer_int 256)).
      destruct (fa_shape a). cbn [fst snd] in *. f_equal; lia. }
    set (C := mat_content (w_pil w) (w_mat w) true 256 256).
    assert (DK : disk (c_loader c) C).
    { rewrite CL. unfold loader_for. rewrite S2, S3, ESH. apply mat_disk_ok. }
    assert (EPC : forall q, slices_of C q = if String.eqb q p then [x] else slices_of C q).
    { intros q. destruct (String.eqb_spec q p) as [->|]; [|reflexivity]. unfold slices_of, C, mat_content. rewrite HL. reflexivity. }
    assert (EP : epoch C [p] = [x]).
    { unfold epoch. cbn [flat_map]. rewrite EPC, String.eqb_refl. reflexivity. }
    destruct (PL C fuel tm) as (st & (P & P1 & P2 & P3 & P4) & PR).
    { rewrite EF. constructor.
      - exact DK.
      - rewrite RA. discriminate.
      - intros q l e [<-|[]]. unfold C, mat_content. rewrite HL. discriminate.
      - exists F, I1, I2. split; [exact LF|]. split; [exact L1|]. split; [exact L2|]. rewrite EP. intros y [<-|[]]. exact ST.
      - rewrite EP. discriminate.
      - cbn. lia. }
    assert (EX : forall i, st i = Some x).
    { intros i. destruct (P4 LO (S i) i ltac:(lia)) as [E _]. rewrite E.
      assert (R : forall l, flat_map (fun j => epoch C (collapse (P j))) l = repeat x (List.length l)).
      { induction l as [|j l IH]; [reflexivity|]. cbn [flat_map List.length repeat]. rewrite IH, (P2 RA j), EF. cbn [collapse]. rewrite EP. reflexivity. }
      rewrite R, seq_length. apply nth_error_repeat. lia. }
    rewrite LO in PR. destruct (PR m) as (b & EA & SI & SFl & SH). exists b. split; [exact EA|].
    assert (XF : sd_files x = Some [p]).
    { clear - HL. unfold mat_load in HL. apply bind_ok in HL. destruct HL as (dd & _ & HL). destruct (lookup "V" dd); [|discriminate].
      apply bind_ok in HL. destruct HL as (im & _ & HL). apply bind_ok in HL. destruct HL as (fw & _ & HL). injection HL as <-. reflexivity. }
    assert (SX : forall i, i < 10 -> labelled (ba_mask b) (ba_files b) i (Some x) /\
      exists a0 a1, nth_error (ba_flows b) i = Some (sd_flow x) /\ nth_error (ba_images b) i = Some (a0, a1) /\
        sd_im1 x = Some a0 /\ sd_im2 x = Some a1).
    { intros i Hi. pose proof (SH i Hi) as Q. cbv zeta in Q. rewrite EX in Q. destruct Q as (Q & f & a0 & a1 & -> & Q1 & Q2 & Q3). split; [exact Q|]. exists a0, a1. auto. }
    destruct (SX 0 ltac:(lia)) as [(mk & fs & MK & FI & _) (a0 & a1 & _ & _ & A0 & A1)].
    exists a0, a1, mk, fs. split; [exact A0|]. split; [exact A1|].
    assert (SL : forall i, i < 10 -> nth_error mk i = Some true /\ nth_error fs i = Some p).
    { intros i Hi. destruct (SX i Hi) as [(mk' & fs' & MK' & FI' & T & q & Q & R) _]. rewrite MK in MK'. injection MK' as <-.
      rewrite FI in FI'. injection FI' as <-. rewrite XF in Q. injection Q as <-. auto. }
    split; [apply all_same; [exact SFl|]; intros i Hi; destruct (SX i Hi) as [_ (? & ? & Q & _)]; exact Q|].
    split; [apply all_same; [exact SI|]; intros i Hi; destruct (SX i Hi) as [_ (b0 & b1 & _ & Q & B0 & B1)];
      rewrite A0 in B0; rewrite A1 in B1; injection B0 as <-; injection B1 as <-; exact Q|].
    split; [exact MK|]. split; [apply first_same; intros i Hi; apply SL, Hi|].
    split; [exact FI|]. apply first_same. intros i Hi. apply SL, Hi.
Qed.
Print Assumptions C108_image_example.

(** *** A machine on which all of them can be run *)

Definition shipped_world : world :=
  mkWorld (w_exists exM_world)
    (mkFs (fun p => negb (ends_with p ".mat" || ends_with p ".h5")) (fun p => ends_with p ".mat" || ends_with p ".h5")
       (fun p _ => [p ++ "/a.mat"]))
    (w_yaml exM_world) (fun _ => H5Data (mkArr [3; 2; 4; 2] (repeat 0%Q 48))) (w_npy exM_world) (w_jpg exM_world)
    (mkMat (fun _ => Ok [("V", MArr big_array); ("I0", MArr (exR_const [256; 256] 7)); ("I1", MArr (exR_const [256; 256] 8))])
       (fun _ => false) (fun _ => Err ValueError)) (w_pil exM_world) (w_dirs exM_world) (w_rng exM_world) 2
    (w_npload exM_world) (w_num exM_world) (w_conv exM_world).

Example ex_C108_found :
  (forall d dir n, In (d, dir, n) mat_configs -> found shipped_world Mat [dir] [dir ++ "/a.mat"]) /\
  found shipped_world Mat ["docs/examples/mat"] ["docs/examples/mat/a.mat"] /\
  found shipped_world H5 jhtdb_files jhtdb_files /\ opens shipped_world jhtdb_files 3 4 /\ sensible_sizes shipped_world.
Proof.
  assert (D : forall dir, ends_with dir ".mat" || ends_with dir ".h5" = false -> ends_with (dir ++ "/a.mat") ".mat" = true ->
    found shipped_world Mat [dir] [dir ++ "/a.mat"]).
  { intros dir E E'. exists [[dir ++ "/a.mat"]]. split; [|split; [reflexivity|split; [discriminate|split]]].
    - constructor; [|constructor]. right. split; [cbn; rewrite E; reflexivity|]. split; [apply Permutation_refl | repeat constructor].
    - intros p [<-|[]]. cbn. rewrite E'. reflexivity.
    - intros p [<-|[]]. apply FilesProofs.ends_with_spec. exact E'. }
  split; [apply (mat_config_cases (fun _ dir _ => found shipped_world Mat [dir] [dir ++ "/a.mat"])); apply D; reflexivity|].
  split; [apply (D "docs/examples/mat"); reflexivity|]. split; [|split].
  - exists (map (fun p => [p]) jhtdb_files). split; [|split; [reflexivity|split; [discriminate|split]]].
    + repeat constructor.
    + assert (Q : forallb (fun p => ends_with p ".mat" || ends_with p ".h5") jhtdb_files = true) by reflexivity.
      rewrite forallb_forall in Q. exact Q.
    + apply forallb_suffix. reflexivity.
  - exists (hd "" jhtdb_files), (tl jhtdb_files), (mkArr [3; 2; 4; 2] (repeat 0%Q 48)). repeat split.
  - intros p a E. injection E as <-. cbn [shape]. repeat (constructor; [reflexivity|]). constructor.
Qed.

Example ex_C108_image : exists x, mat_load (w_pil shipped_world) (w_mat shipped_world) true 256 256 "docs/examples/mat/a.mat" = Ok x /\
  stackable [256; 256; 2] [256; 256] [256; 256] x.
Proof.
  exists (mkSD big_array (Some (exR_const [256; 256] 7)) (Some (exR_const [256; 256] 8)) None (Some ["docs/examples/mat/a.mat"])).
  split; [reflexivity|].
  assert (W : forall q, wf_arr (exR_const [256; 256] q)).
  { intros q. unfold wf_arr, exR_const. cbn [shape data]. apply repeat_length. }
  constructor; cbn [sd_flow sd_im1 sd_im2 sd_files].
  - split; [exact big_wf | reflexivity].
  - intros a E. injection E as <-. split; [apply W | reflexivity].
  - intros a E. injection E as <-. split; [apply W | reflexivity].
  - eexists. reflexivity.
Qed.
