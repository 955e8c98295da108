(** Property C125: what the constructors of the schedulers accept, for arguments
    of any type. *)
From Coq Require Import List Arith ZArith QArith String Bool Lia.
From Verif Require Import Prelude Model.PyVal Model.Types Spec.TypesSpec Model.Base Model.Files Spec.FilesSpec
  Model.Loaders Model.Episodic Spec.EpisodicSpec Proofs.EpisodicProofs Model.Prefetch Model.Sampler Model.Stack Model.Geometry
  Model.Make Spec.MakeSpec Proofs.MakeProofs Model.Construct Spec.ConstructSpec Proofs.NamesProofs Proofs.ConstructProofs
  Properties.MakeProps.
Import ListNotations.
Local Open Scope string_scope.
Local Open Scope nat_scope.

(** ** File schedulers *)

(** The extension is asked of the entries of the list, so that a directory must
    itself be called <...>.h5. *)
Theorem C125_h5 : forall w fl rand loop k,
  (forall sch, init_h5 w fl rand loop k = Ok sch <->
     exists entries files r b, file_args w H5 fl rand loop entries files r b /\
       (forall p, In p entries -> has_suffix p ".h5") /\ sch = fresh_file w h5_attrs r b files k) /\
  (forall e, init_h5 w fl rand loop k = Err e -> e = ValueError).
Proof. intros. split; intros; [apply init_h5_ok|eapply init_h5_err; eassumption]. Qed.
Print Assumptions C125_h5.

Theorem C125_mat : forall w fl rand loop inc shape k,
  (forall sch, init_mat w fl rand loop inc shape k = Ok sch <->
     exists entries files r b i u v h x, file_args w Mat fl rand loop entries files r b /\
       inc = PBool i /\ shape = PTuple [u; v] /\ size u h /\ size v x /\
       (forall p, In p (in_order w (mkFattrs Mat i (h, x)) r b files k) -> has_suffix p ".mat") /\
       sch = fresh_file w (mkFattrs Mat i (h, x)) r b files k) /\
  (forall e, init_mat w fl rand loop inc shape k = Err e -> e = ValueError).
Proof. intros. split; intros; [apply init_mat_ok|eapply init_mat_err; eassumption]. Qed.
Print Assumptions C125_mat.

(** FileNotFoundError means: with images, and going through the files in their
    shuffled order, one lacks an image before any is misnamed. *)
Theorem C125_npy : forall w fl rand loop inc k,
  (forall sch, init_npy w fl rand loop inc k = Ok sch <->
     exists entries files r b i, file_args w Npy fl rand loop entries files r b /\ inc = PBool i /\
       (forall p, In p (in_order w (npy_attrs i) r b files k) -> has_suffix p ".npy") /\
       (i = true -> forall p, In p (in_order w (npy_attrs i) r b files k) -> has_images w p) /\
       sch = fresh_file w (npy_attrs i) r b files k) /\
  (init_npy w fl rand loop inc k = Err FileNotFoundError <->
     exists entries files r b, file_args w Npy fl rand loop entries files r b /\ inc = PBool true /\
       (forall p, In p (in_order w (npy_attrs true) r b files k) -> has_suffix p ".npy") /\
       exists l1 p l2, (in_order w (npy_attrs true) r b files k = l1 ++ p :: l2)%list /\
         (forall q, In q l1 -> has_images w q) /\ lacks_images w p) /\
  (forall e, init_npy w fl rand loop inc k = Err e -> e = FileNotFoundError \/ e = ValueError).
Proof. intros. split; [|split]; intros; [apply init_npy_ok|apply init_npy_missing|eapply init_npy_err; eassumption]. Qed.
Print Assumptions C125_npy.

(** The pictures that go with a flow are read from the paths the constructor
    looked for. *)
Theorem C125_pictures : forall jpg d p,
  (forall it, npy_slice true jpg (Some d) (Some p) 0 = Base.SItem it <->
     exists t q1 q2 i1 i2, picture p t (Z.of_nat t - 1) q1 /\ picture p t (Z.of_nat t) q2 /\
       jpg q1 = Ok i1 /\ jpg q2 = Ok i2 /\ it = mkSD (sd_flow d) (Some i1) (Some i2) (sd_mask d) (sd_files d)) /\
  ((forall t, ~ numbered p t) -> npy_slice true jpg (Some d) (Some p) 0 = Base.SRaise ValueError).
Proof.
  intros jpg d p. unfold npy_slice. cbn [Nat.eqb negb]. destruct (flow_number (basename p)) as [t|] eqn:F.
  - split; [|intros N; exfalso; apply (N t), numbered_iff, F]. intro it. split.
    + destruct (jpg (img_path p (Z.of_nat t - 1))) as [i1|] eqn:J1; [|discriminate].
      destruct (jpg (img_path p (Z.of_nat t))) as [i2|] eqn:J2; [|discriminate]. intros H. injection H as <-.
      exists t, (img_path p (Z.of_nat t - 1)), (img_path p (Z.of_nat t)), i1, i2. rewrite !picture_iff. auto 10.
    + intros (t' & q1 & q2 & i1 & i2 & P1 & P2 & J1 & J2 & ->). apply picture_iff in P1, P2.
      destruct P1 as [F' ->], P2 as [_ ->]. rewrite F in F'. injection F' as <-. rewrite J1, J2. reflexivity.
  - split; [|reflexivity]. intro it. split; [discriminate|].
    intros (t' & q1 & q2 & i1 & i2 & P1 & _). apply picture_iff in P1. destruct P1 as [F' _]. congruence.
Qed.
Print Assumptions C125_pictures.

(** ** The wrappers *)

Theorem C125_episodic : forall w B L k,
  init_episodic w None B L k = Err TypeError /\
  forall a c s, enum_ok (w_dirs w) ->
    (forall sch, init_episodic w (Some (a, c, s)) B L k = Ok sch -> exists b l ec es, size B b /\ size L l /\
       ep_construct (w_dirs w) c (w_rng w) s b l (match k with Some k => k | None => Seed 0 end) = Ok (ec, es) /\
       sch = SEpisodic a ec es) /\
    ((exists sch, init_episodic w (Some (a, c, s)) B L k = Ok sch) <->
       exists b l, size B b /\ size L l /\ episodes_fit w (s_files s) l) /\
    (forall e, init_episodic w (Some (a, c, s)) B L k = Err e -> e = ValueError).
Proof.
  intros w B L k. split; [reflexivity|]. intros a c s EN. unfold init_episodic. split; [|split].
  - intros sch H. apply bind_ok in H. destruct H as (b & HB & H). apply bind_ok in H. destruct H as (l & HL & H).
    apply bind_ok in H. destruct H as ([ec es] & H & E). injection E as <-. apply pos_int_ok in HB, HL. exists b, l, ec, es. auto.
  - split.
    + intros [sch H]. apply bind_ok in H. destruct H as (b & HB & H). apply bind_ok in H. destruct H as (l & HL & H).
      apply bind_ok in H. destruct H as ([ec es] & H & _). apply pos_int_ok in HB, HL. exists b, l. split; [exact HB|]. split; [exact HL|].
      apply (construct_fails (w_dirs w) c (w_rng w) s b l (key_or_default k) EN (proj2 HB) (proj2 HL)). exists ec, es. exact H.
    + intros (b & l & HB & HL & F). pose proof HB as HB'. pose proof HL as HL'. apply pos_int_ok in HB', HL'. rewrite HB'. cbn [bind].
      rewrite HL'. cbn [bind]. apply (construct_fails (w_dirs w) c (w_rng w) s b l (key_or_default k) EN (proj2 HB) (proj2 HL)) in F.
      destruct F as (ec & es & ->). eexists. reflexivity.
  - intros e. destruct (pos_int B) as [b|] eqn:HB; cbn [bind]; [|intros X; injection X as <-; eapply pos_int_err, HB].
    destruct (pos_int L) as [l|] eqn:HL; cbn [bind]; [|intros X; injection X as <-; eapply pos_int_err, HL].
    apply pos_int_ok in HB, HL.
    destruct (ep_construct _ _ _ _ _ _ _) as [r|e'] eqn:E; cbn [bind]; [discriminate|]. intros X. injection X as ->.
    destruct (construct_fails (w_dirs w) c (w_rng w) s b l (key_or_default k) EN (proj2 HB) (proj2 HL)) as [_ N].
    rewrite N in E; [congruence|]. intros (ec & es & E'). congruence.
Qed.
Print Assumptions C125_episodic.

Theorem C125_prefetch : forall inner B N startup steady,
  (forall sch, init_prefetch inner B N startup steady = Ok sch <->
     exists b n, size B b /\ size N n /\ seconds startup /\ seconds steady /\ sch = SPrefetch b n inner) /\
  (forall e, init_prefetch inner B N startup steady = Err e -> e = ValueError).
Proof.
  intros inner B N t1 t2. unfold init_prefetch. destruct (timeout_iff t1) as [I1 O1]. destruct (timeout_iff t2) as [I2 O2]. split.
  - intro sch. split.
    + intros H. apply bind_ok in H. destruct H as (b & HB & H). apply bind_ok in H. destruct H as (n & HN & H).
      apply bind_ok in H. destruct H as ([] & H1 & H). apply bind_ok in H. destruct H as ([] & H2 & H). injection H as <-.
      apply pos_int_ok in HB, HN. exists b, n. unfold size. tauto.
    + intros (b & n & HB & HN & S1 & S2 & ->). apply pos_int_ok in HB, HN. apply I1 in S1. apply I2 in S2.
      rewrite HB. cbn [bind]. rewrite HN. cbn [bind]. rewrite S1. cbn [bind]. rewrite S2. reflexivity.
  - intros e. destruct (pos_int B) as [b|] eqn:HB; cbn [bind]; [|intros X; injection X as <-; eapply pos_int_err, HB].
    destruct (pos_int N) as [l|] eqn:HL; cbn [bind]; [|intros X; injection X as <-; eapply pos_int_err, HL].
    destruct O1 as [-> | ->]; cbn [bind]; [|congruence]. destruct O2 as [-> | ->]; cbn [bind]; congruence.
Qed.
Print Assumptions C125_prefetch.

(** "Timeouts are positive numbers" is false: NaN passes the check. *)
Theorem C125_timeout_refuted : exists inner B N v sch,
  init_prefetch inner B N v v = Ok sch /\ (forall x, ~ (number v x /\ lt (Num 0) x)).
Proof.
  exists (SPrefetch 1 1 (SFile h5_attrs (mkCfg (loader_for exM_world h5_attrs) exM_rng false false) (init (mkCfg (loader_for exM_world h5_attrs) exM_rng false false) [] (Seed 0)))).
  exists (PInt 2), (PInt 3), (PFloat NaN). eexists. split; [reflexivity|]. intros x [H _]. inversion H.
Qed.
Print Assumptions C125_timeout_refuted.

(** ** Configurations *)

(** The three [from_config] methods read these entries and no others. *)
Theorem C125_configured : forall w d,
  (forall r, h5_from_config w d = r <-> exists fl rand loop, setting d "file_list" (PList []) fl /\
     setting d "randomize" (PBool false) rand /\ setting d "loop" (PBool true) loop /\ init_h5 w fl rand loop None = r) /\
  (forall r, npy_from_config w d = r <-> exists fl rand loop inc, setting d "file_list" (PList []) fl /\
     setting d "randomize" (PBool false) rand /\ setting d "loop" (PBool true) loop /\
     setting d "include_images" (PBool false) inc /\ init_npy w fl rand loop inc None = r) /\
  (forall sch, mat_from_config w d = Ok sch <-> exists fl rand loop inc shape l, setting d "file_list" (PList []) fl /\
     setting d "randomize" (PBool false) rand /\ setting d "loop" (PBool false) loop /\
     setting d "include_images" (PBool false) inc /\ setting d "output_shape" (PTuple [PInt 256; PInt 256]) shape /\
     sequence shape l /\ init_mat w fl rand loop inc (PTuple l) None = Ok sch) /\
  (forall e, mat_from_config w d = Err e -> e = ValueError \/
     e = TypeError /\ exists shape, setting d "output_shape" (PTuple [PInt 256; PInt 256]) shape /\ forall l, ~ sequence shape l).
Proof.
  intros w d. split; [|split; [|split]].
  - intro r. unfold h5_from_config. split.
    + intros H. do 3 eexists. rewrite !setting_get. repeat (split; [reflexivity|]). exact H.
    + intros (fl & rand & loop & E1 & E2 & E3 & <-). apply setting_get in E1, E2, E3. now rewrite E1, E2, E3.
  - intro r. unfold npy_from_config. split.
    + intros H. do 4 eexists. rewrite !setting_get. repeat (split; [reflexivity|]). exact H.
    + intros (fl & rand & loop & inc & E1 & E2 & E3 & E4 & <-). apply setting_get in E1, E2, E3, E4. now rewrite E1, E2, E3, E4.
  - intro sch. unfold mat_from_config. split.
    + intros H. apply bind_ok in H. destruct H as (shape & HS & H). apply bind_ok in HS. destruct HS as (l & HI & HS). injection HS as <-.
      assert (Q : sequence (dict_get d "output_shape" (PTuple [PInt 256; PInt 256])) l).
      { apply init_mat_ok in H. destruct H as (_ & _ & _ & _ & _ & u & v & h & x & _ & _ & E & [SU _] & _). injection E as ->.
        destruct (dict_get d "output_shape" (PTuple [PInt 256; PInt 256])) as [ | | | | s | l | l | l ]; cbn [py_iter] in HI; try discriminate.
        - injection HI as E. destruct (list_ascii_of_string s); [discriminate|]. injection E as <- _. inversion SU.
        - injection HI as ->. left. reflexivity.
        - injection HI as ->. right. reflexivity.
        - injection HI as E. destruct l; [discriminate|]. injection E as <- _. inversion SU. }
      do 4 eexists. exists (dict_get d "output_shape" (PTuple [PInt 256; PInt 256])), l. rewrite !setting_get.
      repeat (split; [reflexivity|]). split; [exact Q|exact H].
    + intros (fl & rand & loop & inc & shape & l & E1 & E2 & E3 & E4 & E5 & Q & H). apply setting_get in E1, E2, E3, E4, E5.
      rewrite E1, E2, E3, E4, E5. unfold py_tuple. destruct Q as [-> | ->]; cbn [py_iter bind]; exact H.
  - intros e. unfold mat_from_config. destruct (py_tuple _) as [shape|e'] eqn:T; cbn [bind].
    + intros H. left. eapply init_mat_err, H.
    + intros H. injection H as ->. right. unfold py_tuple in T.
      assert (X : e = TypeError /\ forall l, ~ sequence (dict_get d "output_shape" (PTuple [PInt 256; PInt 256])) l).
      { destruct (dict_get d "output_shape" (PTuple [PInt 256; PInt 256])); cbn in T; try discriminate; injection T as <-;
        (split; [reflexivity|intros l [Q|Q]; discriminate]). }
      split; [apply X|]. eexists. split; [apply setting_get; reflexivity|apply X].
Qed.
Print Assumptions C125_configured.

(** Without an entry "loop" a .mat scheduler ends and the other two start over. *)
Theorem C125_loop_default : forall w d sch, given "loop" d = None ->
  (h5_from_config w d = Ok sch -> c_loop (file_config sch) = true) /\
  (npy_from_config w d = Ok sch -> c_loop (file_config sch) = true) /\
  (mat_from_config w d = Ok sch -> c_loop (file_config sch) = false).
Proof.
  intros w d sch L. split; [|split].
  - unfold h5_from_config. rewrite (dict_get_given d "loop"), L. intros H. apply init_h5_ok in H.
    destruct H as (en & fs & r & b & A & _ & ->). pose proof (fg_loop _ _ _ _ _ _ _ _ _ A) as E. injection E as <-. reflexivity.
  - unfold npy_from_config. rewrite (dict_get_given d "loop"), L. intros H. apply init_npy_ok in H.
    destruct H as (en & fs & r & b & i & A & _ & _ & _ & ->). pose proof (fg_loop _ _ _ _ _ _ _ _ _ A) as E. injection E as <-. reflexivity.
  - unfold mat_from_config. rewrite (dict_get_given d "loop"), L. intros H. apply bind_ok in H. destruct H as (sh & _ & H).
    apply init_mat_ok in H. destruct H as (en & fs & r & b & i & u & v & h & x & A & _ & _ & _ & _ & _ & ->).
    pose proof (fg_loop _ _ _ _ _ _ _ _ _ A) as E. injection E as <-. reflexivity.
Qed.
Print Assumptions C125_loop_default.

(** [make] builds its file scheduler as from_config does, from the same entries. *)
Theorem C125_same_as_make : forall w kw,
  file_scheduler w h5_attrs kw = h5_from_config w kw /\
  (forall i, setting kw "include_images" (PBool false) (PBool i) -> file_scheduler w (npy_attrs i) kw = npy_from_config w kw) /\
  (forall i b u v h x, setting kw "include_images" (PBool false) (PBool i) -> given "loop" kw = Some b ->
     setting kw "output_shape" (PTuple [PInt 256; PInt 256]) (PTuple [u; v]) -> size u h -> size v x ->
     file_scheduler w (mkFattrs Mat i (h, x)) kw = mat_from_config w kw).
Proof.
  intros w kw. unfold file_scheduler. split; [|split].
  - unfold h5_from_config, init_h5, init_base, construct_h5, construct_base. cbn [fa_class h5_attrs].
    destruct (dict_get kw "file_list" _) as [ | | | | | l | | ]; try reflexivity. destruct (strings l) as [en|] eqn:E; [|reflexivity].
    apply strings_ok in E. subst l. rewrite forallb_py_str.
    destruct (dict_get kw "randomize" (PBool false)), (dict_get kw "loop" (PBool true)); try (destruct (expand _ _ _); cbn [List.length Nat.eqb bind]; try reflexivity; destruct (forallb (fs_isfile _) _); reflexivity); destruct (expand _ _ _); cbn [List.length Nat.eqb bind]; try reflexivity;
      destruct (forallb (fs_isfile _) _); cbn [negb bind fst snd]; try reflexivity; destruct (forallb _ en); reflexivity.
  - intros i HI. apply setting_get in HI. unfold npy_from_config, init_npy, init_base, construct_npy, construct_base. rewrite HI.
    cbn [fa_class fa_images npy_attrs].
    destruct (dict_get kw "file_list" _) as [ | | | | | l | | ]; try reflexivity. destruct (strings l) as [en|]; [|reflexivity].
    destruct (dict_get kw "randomize" (PBool false)), (dict_get kw "loop" (PBool true)); try (destruct (expand _ _ _); cbn [List.length Nat.eqb bind]; try reflexivity; destruct (forallb (fs_isfile _) _); reflexivity); destruct (expand _ _ _); cbn [List.length Nat.eqb bind]; try reflexivity;
      destruct (forallb (fs_isfile _) _); cbn [negb bind fst snd key_or_default]; try reflexivity;
      match goal with |- context [init ?c ?l ?k] => set (st0 := init c l k) end;
      destruct (forallb _ (s_files st0)); cbn [negb bind]; try reflexivity; destruct i; cbn [bind]; try reflexivity;
      destruct (check_images _ _); reflexivity.
  - intros i b u v h x HI HB HS HU HV. apply setting_get in HI, HS. unfold mat_from_config. rewrite HI, HS. cbn [py_tuple py_iter bind].
    apply pos_int_ok in HU, HV. unfold init_mat. rewrite HU, HV. cbn [bind]. unfold init_base, construct_mat, construct_base. cbn [fa_class].
    rewrite !(dict_get_given kw "loop"), HB.
    destruct (dict_get kw "file_list" _) as [ | | | | | l | | ]; try reflexivity. destruct (strings l) as [en|]; [|reflexivity].
    destruct (dict_get kw "randomize" (PBool false)), b; try (destruct (expand _ _ _); cbn [List.length Nat.eqb bind]; try reflexivity; destruct (forallb (fs_isfile _) _); reflexivity); destruct (expand _ _ _); cbn [List.length Nat.eqb bind]; try reflexivity;
      destruct (forallb (fs_isfile _) _); cbn [negb bind fst snd key_or_default]; try reflexivity;
      match goal with |- context [init ?c ?l ?k] => set (st0 := init c l k) end;
      destruct (forallb _ (s_files st0)); reflexivity.
Qed.
Print Assumptions C125_same_as_make.

(** ** Concrete cases *)

Definition exN_verdict (r : result scheduler) : list string + exn :=
  match r with Ok (SFile _ _ s) => inl (s_files s) | Ok (SEpisodic _ _ s) => inl (s_files (e_base s)) | Ok _ => inl [] | Err e => inr e end.
(** The three .npy files with images 0, 1, 2 beside them, and two more. *)
Definition exN_world : world :=
  mkWorld (w_exists exM_world)
    (mkFs (fs_isdir exM_fs) (fun p => existsb (String.eqb p) ["d/img_0.jpg"; "d/img_1.jpg"; "d/img_2.jpg"; "d/flow_001.npy"; "d//flow_02.npy";
         "d/flow_.npy"; "flow_0.npy"; "img_-1.jpg"; "img_0.jpg"] || fs_isfile exM_fs p) (fs_glob exM_fs))
    (w_yaml exM_world) (w_h5 exM_world) (w_npy exM_world) (w_jpg exM_world) (w_mat exM_world) (w_pil exM_world) (w_dirs exM_world)
    (w_rng exM_world) 2 (w_npload exM_world) exact (fun x => match x with Fin q => q | _ => 0%Q end).

Example exN_npy :
  map (fun fl => exN_verdict (init_npy exN_world (PList (map PStr fl)) (PBool false) (PBool true) (PBool true) None))
    [["d/flow_2.npy"; "d/flow_001.npy"; "d//flow_02.npy"]; ["flow_0.npy"]; ["d/flow_1.npy"; "d/flow_3.npy"; "d/flow_.npy"];
     ["d/flow_1.npy"; "d/flow_.npy"; "d/flow_3.npy"]; ["d"]; []; ["d/img_0.jpg"]] =
  [inl ["d/flow_2.npy"; "d/flow_001.npy"; "d//flow_02.npy"]; inl ["flow_0.npy"]; inr FileNotFoundError;
   inr ValueError; inr FileNotFoundError; inr ValueError; inr ValueError].
Proof. vm_compute. reflexivity. Qed.
Example exN_types :
  map exN_verdict
    [init_npy exN_world (PList [PStr "d"]) (PBool true) (PBool true) (PBool false) None;
     init_npy exN_world (PList [PStr "d"]) (PInt 1) (PBool true) (PBool false) None;
     init_npy exN_world (PTuple [PStr "d"]) (PBool true) (PBool true) (PBool false) None;
     init_npy exN_world (PList [PInt 1]) (PBool true) (PBool true) (PBool false) None;
     init_npy exN_world (PList [PStr "d"]) (PBool true) (PBool true) PNone None;
     init_mat exN_world (PList [PStr "d"]) (PBool true) (PBool true) (PBool false) (PTuple [PInt 4; PBool true]) None;
     init_mat exN_world (PList [PStr "d"]) (PBool true) (PBool true) (PBool false) (PList [PInt 4; PInt 4]) None;
     init_mat exN_world (PList [PStr "d"]) (PBool true) (PBool true) (PBool false) (PTuple [PInt 4; PInt 0]) None;
     mat_from_config exN_world [("file_list", PList [PStr "d"]); ("output_shape", PList [PInt 4; PInt 4])];
     mat_from_config exN_world [("file_list", PList [PStr "d"]); ("output_shape", PInt 4)];
     h5_from_config exN_world [("file_list", PList [PStr "d"])]] =
  [inl ["d/flow_3.npy"; "d/flow_2.npy"; "d/flow_1.npy"]; inr ValueError; inr ValueError; inr ValueError; inr ValueError;
   inl ["d/flow_3.mat"; "d/flow_2.mat"; "d/flow_1.mat"]; inr ValueError; inr ValueError;
   inl ["d/flow_1.mat"; "d/flow_2.mat"; "d/flow_3.mat"]; inr TypeError; inr ValueError].
Proof. vm_compute. reflexivity. Qed.
Example exN_picture : picture "a//b///flow_007.npy" 7 6 "a//b/img_6.jpg" /\ picture "flow_0.npy" 0 (-1) "img_-1.jpg" /\
  picture "//flow_10.npy" 10 10 "//img_10.jpg" /\ forall t, ~ numbered "d/flow_.npy" t.
Proof.
  rewrite !picture_iff. repeat (split; [split; vm_compute; reflexivity|]). intros t N. apply numbered_iff in N. vm_compute in N. discriminate.
Qed.
Definition exN_file : option (fattrs * cfg * st) :=
  match init_mat exM_world (PList [PStr "d"]) (PBool false) (PBool true) (PBool false) (PTuple [PInt 4; PInt 4]) None with
  | Ok (SFile a c s) => Some (a, c, s) | _ => None end.
Example exN_wrappers :
  map exN_verdict [init_episodic exM_world exN_file (PInt 2) (PInt 2) None; init_episodic exM_world exN_file (PInt 2) (PInt 4) None;
    init_episodic exM_world exN_file (PFloat (Fin 2)) (PInt 2) None; init_episodic exM_world None (PInt 2) (PInt 2) None] =
  [inl ["d/flow_1.mat"; "d/flow_2.mat"; "d/flow_2.mat"; "d/flow_3.mat"]; inr ValueError; inr ValueError; inr TypeError] /\
  map (fun t => exN_verdict (bind (init_mat exM_world (PList [PStr "d"]) (PBool false) (PBool true) (PBool false) (PTuple [PInt 4; PInt 4]) None)
         (fun f => init_prefetch f (PInt 2) (PInt 3) t (PInt 1)))) [PInt 1; PFloat (Fin (1 # 2)); PInt 0; PStr "1"; PNone; PFloat (Inf false)] =
  [inl []; inl []; inr ValueError; inr ValueError; inr ValueError; inl []].
Proof. vm_compute. split; reflexivity. Qed.
