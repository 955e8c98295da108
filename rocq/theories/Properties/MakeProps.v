(** Properties C63-C65, C81: what [make] builds. *)
From Coq Require Import List Arith ZArith QArith String Bool Lia.
From Verif Require Import Prelude Model.PyVal Model.Types Spec.TypesSpec Model.Base Model.Files Spec.FilesSpec
  Model.Loaders Model.Episodic Model.Prefetch Model.Sampler Model.Stack Model.Geometry Model.Make Model.Keys
  Spec.MakeSpec Spec.SamplerSpec Proofs.MakeProofs Proofs.MakeMore.
Import ListNotations.
Local Open Scope string_scope.
Local Open Scope nat_scope.

(** * A world for the concrete cases *)

(** Three .npy files and three .mat files with images in the directory "d",
    two devices, exact arithmetic. *)
Definition exM_files (e : string) : list string := map (fun n => "d/flow_" ++ n ++ e)%string ["2"; "1"; "3"].
Definition exM_fs : fs :=
  mkFs (fun p => String.eqb p "d") (fun p => existsb (String.eqb p) (exM_files ".npy" ++ exM_files ".mat"))
       (fun dir pat => if String.eqb dir "d" then exM_files (if String.eqb pat "flow_*.npy" then ".npy" else ".mat") else []).
Definition exM_dirs : dirs :=
  mkDirs (fun _ => "d") (nodup string_dec) (fun d => if String.eqb d "d" then ScanLeaf else ScanFails) (fun _ => exM_files ".mat").
Definition exM_rng : rng := mkRng (fun k n => match k with Child (Seed 0) _ => rev (seq 0 n) | _ => seq 0 n end) (fun _ n m => map (fun i => i mod n) (seq 0 m)).
Definition exM_world : world :=
  mkWorld (fun p => String.eqb p "c.yaml" || String.eqb p "dir.yaml")
    (mkFs (fs_isdir exM_fs) (fun p => String.eqb p "c.yaml" || fs_isfile exM_fs p) (fs_glob exM_fs))
    (fun _ => Ok (PList []))
    (fun _ => H5Fails IndexError) (fun _ => Ok (mkArr [8; 8; 2] (repeat 0%Q 128))) (fun _ => Err FileNotFoundError)
    (mkMat (fun _ => Err ValueError) (fun _ => false) (fun _ => Err ValueError)) (fun _ _ _ => Err ValueError)
    exM_dirs exM_rng 2 (fun _ => Err FileNotFoundError) exact
    (fun x => match x with Fin q => q | _ => 0%Q end).

Definition exM_dict (cls : string) (batch flows buffer len : Z) (more : list (string * pyval)) : list (string * pyval) :=
  more ++
  [("scheduler_class", PStr cls); ("batch_size", PInt batch); ("flow_fields_per_batch", PInt flows);
   ("buffer_size", PInt buffer); ("episode_length", PInt len); ("batches_per_flow_batch", PInt 3);
   ("file_list", PList [PStr "d"]); ("randomize", PBool true);
   ("image_shape", PList [PInt 4; PInt 4]); ("img_offset", PList [PInt 1; PInt 1]);
   ("seeding_density_range", PList [PFloat (Fin (1 # 16)); PFloat (Fin (1 # 10))]);
   ("p_hide_img1", PFloat (Fin 0)); ("p_hide_img2", PFloat (Fin 0));
   ("diameter_ranges", PList [PList [PFloat (Fin 1); PFloat (Fin 1)]]); ("diameter_var", PInt 0);
   ("intensity_ranges", PList [PList [PInt 80; PInt 100]]); ("intensity_var", PInt 0);
   ("rho_ranges", PList [PList [PFloat (Fin (-1 # 4)); PFloat (Fin (1 # 4))]]); ("rho_var", PInt 0);
   ("dt", PInt 1); ("noise_uniform", PInt 0); ("noise_gaussian_mean", PInt 0); ("noise_gaussian_std", PInt 0);
   ("flow_field_size", PList [PInt 8; PInt 8]); ("resolution", PInt 1); ("velocities_per_pixel", PInt 1);
   ("max_speed_x", PInt 0); ("max_speed_y", PInt 0); ("min_speed_x", PInt 0); ("min_speed_y", PInt 0);
   ("output_units", PStr "pixels")].
Definition seed_is (z : Z) : list (string * pyval) := [("seed", PInt z)].
Definition with_images : list (string * pyval) := [("include_images", PBool true)].


(** * C63 *)

Theorem C63_stack : forall w d smp, make w (PDict d) = Ok smp ->
  exists cls B N L inc seed a c s,
    stack_settings d cls B N L inc seed /\ fa_class a = cls /\ fa_images a = inc /\ file_stage w d a c s /\
    wrapped w B N L (snd (make_keys seed)) a c s (scheduler_of smp) /\
    match smp with
    | RealSampler B' _ => inc = true /\ B' = B
    | SyntheticSampler _ _ => inc = false
    end.
Proof.
  intros w d smp H. apply make_ok in H. destruct H as (cls & B & N & L & inc & seed & a & c & s & sch & H1 & H2 & H3 & H4 & H5 & H6).
  exists cls, B, N, L, inc, seed, a, c, s. repeat (split; [assumption|]). destruct inc.
  - subst smp. cbn [scheduler_of]. auto.
  - destruct H6 as (p & v & _ & _ & _ & _ & ->). cbn [scheduler_of]. auto.
Qed.
Print Assumptions C63_stack.

(** With images the settings decide everything. *)
Theorem C63_real : forall w d B sch,
  make w (PDict d) = Ok (RealSampler B sch) <->
  exists N L seed a c s, stack_settings d Mat B N L true seed /\ fa_class a = Mat /\ fa_images a = true /\
    file_stage w d a c s /\ wrapped w B N L (snd (make_keys seed)) a c s sch.
Proof.
  intros w d B sch. rewrite make_ok. split.
  - intros (cls & B' & N & L & inc & seed & a & c & s & sch' & H1 & H2 & H3 & H4 & H5 & H6). destruct inc.
    + inversion H6. subst B' sch'. pose proof (ss_supported _ _ _ _ _ _ _ H1 eq_refl). subst cls.
      exists N, L, seed, a, c, s. rewrite H in *. auto 10.
    + destruct H6 as (p & v & _ & _ & _ & _ & H). discriminate.
  - intros (N & L & seed & a & c & s & H1 & H2 & H3 & H4 & H5).
    exists Mat, B, N, L, true, seed, a, c, s, sch. auto 10.
Qed.
Print Assumptions C63_real.

(** The synthetic sampler is built from the entries of the same names. *)
Theorem C63_synthetic : forall w d p sch, 0 < w_devices w -> make w (PDict d) = Ok (SyntheticSampler p sch) ->
  synthetic_settings w d sch p /\
  forall fuel oflow bflow img adapt bounds render, sizes_ok (@scfg_of w fuel p sch oflow bflow img adapt bounds render).
Proof.
  intros w d p sch WD H. apply make_ok in H. destruct H as (cls & B & N & L & inc & seed & a & c & s & sch' & _ & _ & _ & _ & _ & H).
  destruct inc; [discriminate|]. destruct H as (p' & v & _ & _ & _ & H & E). inversion E. subst p' sch'.
  pose proof (synthetic_ok w d sch p WD H) as S. split; [exact S|]. exact (settings_sizes w d sch p WD S).
Qed.
Print Assumptions C63_synthetic.

Theorem C63_rejects : forall w d, invalid d ->
  exists e, make w (PDict d) = Err e /\ (e = ValueError \/ e = TypeError \/ e = OtherExn 1).
Proof. exact rejected. Qed.
Print Assumptions C63_rejects.

(** A configuration file must be an existing .yaml file with a dictionary in it;
    then it is as good as the dictionary. *)
Theorem C63_path : forall w config,
  match config with
  | PDict _ => True
  | PStr p =>
      (~ has_suffix p ".yaml" -> make w config = Err ValueError) /\
      (has_suffix p ".yaml" -> w_exists w p = false -> make w config = Err FileNotFoundError) /\
      (has_suffix p ".yaml" -> w_exists w p = true -> fs_isfile (w_fs w) p = false -> make w config = Err ValueError) /\
      (has_suffix p ".yaml" -> w_exists w p = true -> fs_isfile (w_fs w) p = true ->
         (forall e, w_yaml w p = Err e -> make w config = Err e) /\
         (forall d, w_yaml w p = Ok (PDict d) -> make w config = make w (PDict d)) /\
         (forall v, w_yaml w p = Ok v -> (forall d, v <> PDict d) -> make w config = Err TypeError))
  | _ => make w config = Err TypeError
  end.
Proof.
  intros w config. destruct config as [ | | | | p | | | d ]; try reflexivity; try exact I.
  assert (S : ends_with p ".yaml" = true <-> has_suffix p ".yaml").
  { pose proof (forallb_suffix ".yaml" [p]) as H. cbn [forallb In] in H. rewrite andb_true_r in H. rewrite H.
    split; [intros K; apply K; auto | intros K q [<-|[]]; exact K]. }
  unfold make, load_config. repeat split.
  - intros H. destruct (ends_with p ".yaml"); [exfalso; apply H, S; reflexivity | reflexivity].
  - intros H E. rewrite (proj2 S H), E. reflexivity.
  - intros H E F. rewrite (proj2 S H), E, F. reflexivity.
  - intros e E. rewrite (proj2 S H), H0, H1, E. reflexivity.
  - intros d E. rewrite (proj2 S H), H0, H1, E. reflexivity.
  - intros v E ND. rewrite (proj2 S H), H0, H1, E. cbn [negb bind]. destruct v; try reflexivity. exfalso. exact (ND _ eq_refl).
Qed.
Print Assumptions C63_path.

Definition shape_of {w} (r : result (sampler w)) : option (bool * list nat) + exn :=
  match r with
  | Err e => inr e
  | Ok smp =>
      inl (Some (match smp with RealSampler _ _ => true | _ => false end,
                 (fix go sch := match sch with
                    | SFile a _ s => [List.length (s_files s)]
                    | SEpisodic _ ec s => ec_B ec :: ec_L ec :: [List.length (s_files (e_base s))]
                    | SPrefetch B N inner => B :: N :: go inner
                    end) (scheduler_of smp)))
  end.
(** All stacks over the directory of three files; batches of 3, buffer 4,
    episodes of 2 steps. *)
Example C63_cases :
  map (fun x => shape_of (make exM_world (PDict x)))
    [exM_dict ".npy" 3 2 0 0 (seed_is 7); exM_dict ".npy" 3 2 4 0 (seed_is 7); exM_dict ".mat" 3 3 0 2 (seed_is 7);
     exM_dict ".mat" 3 3 4 2 (seed_is 7); exM_dict ".mat" 3 3 4 2 with_images; exM_dict ".npy" 3 3 4 2 with_images;
     exM_dict ".h5" 3 3 4 2 (seed_is 7)] =
  [inl (Some (false, [3])); inl (Some (false, [3; 4; 3])); inl (Some (false, [3; 2; 6])); inl (Some (false, [3; 4; 3; 2; 6]));
   inl (Some (true, [3; 4; 3; 2; 6])); inr ValueError; inr ValueError].
Proof. vm_compute. reflexivity. Qed.
Example C63_paths :
  map (fun p => shape_of (make exM_world (PStr p))) ["c.yml"; "no.yaml"; "dir.yaml"; "c.yaml"] =
  [inr ValueError; inr FileNotFoundError; inr ValueError; inr TypeError].
Proof. vm_compute. reflexivity. Qed.
Example C63_invalid : invalid (exM_dict ".npy" 0 2 0 0 (seed_is 7)) /\ invalid (exM_dict ".npy" 3 2 (-1) 0 (seed_is 7)).
Proof.
  split; [apply inv_batch | apply inv_buffer].
  - intros n (v & H & I & P). cbn in H. inversion H. subst v. inversion I. lia.
  - intros n (v & [H|[H _]] & I); cbn in H; [|discriminate]. inversion H. subst v. inversion I. lia.
Qed.

(** * C64 *)

(** Two configurations that differ in nothing but the seed get the same file
    scheduler: same class, same file order (shuffled with the key of seed 0), and
    so the same whole scheduler unless episodes are configured.  The keys of the
    episodes and the seeds of the samplers do follow the seed. *)
Theorem C64_same_files : forall w d1 d2 smp1 smp2, same_but_seed d1 d2 ->
  make w (PDict d1) = Ok smp1 -> make w (PDict d2) = Ok smp2 ->
  exists B N L seed1 seed2 a c s files,
    seed_setting d1 seed1 /\ seed_setting d2 seed2 /\ s = init c files (Seed 0) /\
    wrapped w B N L (snd (make_keys seed1)) a c s (scheduler_of smp1) /\
    wrapped w B N L (snd (make_keys seed2)) a c s (scheduler_of smp2) /\
    (L = 0 -> scheduler_of smp1 = scheduler_of smp2) /\
    (seed1 <> seed2 -> snd (make_keys seed1) <> snd (make_keys seed2)).
Proof.
  intros w d1 d2 smp1 smp2 E H1 H2. apply C63_stack in H1, H2.
  destruct H1 as (cls & B & N & L & inc & seed1 & a & c & s & S1 & C1 & I1 & F1 & W1 & _).
  destruct H2 as (cls' & B' & N' & L' & inc' & seed2 & a' & c' & s' & S2 & C2 & I2 & F2 & W2 & _).
  destruct (stack_settings_transfer _ _ _ _ _ _ _ _ _ _ _ _ _ _ E S1 S2) as (<- & <- & <- & <- & <-).
  destruct (file_stage_unique w d2 a c s a' c' s') as (<- & <- & <-).
  { rewrite I1, C1. exact (ss_supported _ _ _ _ _ _ _ S1). }
  { congruence. } { congruence. } { exact (file_stage_transfer _ _ _ _ _ _ E F1). } { exact F2. }
  destruct (fst_files _ _ _ _ _ F1) as (fl & segs & _ & _ & _ & _ & Hs & _).
  exists B, N, L, seed1, seed2, a, c, s, (List.concat segs).
  split; [exact (ss_seed _ _ _ _ _ _ _ S1)|]. split; [exact (ss_seed _ _ _ _ _ _ _ S2)|]. split; [exact Hs|].
  split; [exact W1|]. split; [exact W2|]. split.
  - intros ->. destruct W1 as (k1 & [[_ ->]|[Z _]] & N1); [|lia]. destruct W2 as (k2 & [[_ ->]|[Z _]] & N2); [|lia].
    destruct N1 as [[-> ->]|[P1 ->]], N2 as [[Z ->]|[P2 ->]]; try lia; reflexivity.
  - intros D X. apply D. cbn in X. congruence.
Qed.
Print Assumptions C64_same_files.

Theorem C64_sampler_seed : forall w d p sch seed, 0 < w_devices w -> make w (PDict d) = Ok (SyntheticSampler p sch) ->
  seed_setting d seed -> sy_seed p = seed.
Proof.
  intros w d p sch seed WD H (v & [G|[G _]] & I & _); destruct (C63_synthetic w d p sch WD H) as [S _];
  destruct (sn_seed _ _ _ _ S) as (v' & G' & I' & _); rewrite G in G'; [|discriminate].
  inversion G'. subst v'. exact (integer_fun _ _ _ I' I).
Qed.
Print Assumptions C64_sampler_seed.

Definition files_of {w} (r : result (sampler w)) : list string :=
  match r with
  | Ok smp => match scheduler_of smp with SFile _ _ s => s_files s | SEpisodic _ _ s => s_files (e_base s) | _ => [] end
  | Err _ => []
  end.
Example C64_case :
  same_but_seed (exM_dict ".npy" 3 2 0 0 (seed_is 7)) (exM_dict ".npy" 3 2 0 0 (seed_is 8)) /\
  files_of (make exM_world (PDict (exM_dict ".npy" 3 2 0 0 (seed_is 7)))) = ["d/flow_3.npy"; "d/flow_2.npy"; "d/flow_1.npy"] /\
  files_of (make exM_world (PDict (exM_dict ".npy" 3 2 0 0 (seed_is 8)))) = ["d/flow_3.npy"; "d/flow_2.npy"; "d/flow_1.npy"].
Proof.
  split; [|split; vm_compute; reflexivity]. intros k Hk. unfold exM_dict, seed_is. cbn [app]. rewrite !given_cons.
  destruct (String.eqb_spec k "seed"); [congruence | reflexivity].
Qed.

(** * C65 *)

(** Any wrapper, and a number of flow fields that is not the batch size: however
    often and in whatever order the sampler is called, and whatever the
    background thread does, every [next] raises. *)
Theorem C65_never : forall w d p sch, make w (PDict d) = Ok (SyntheticSampler p sch) ->
  (forall a c s, sch <> SFile a c s) -> ~ positive_setting d "batch_size" (sy_F p) ->
  forall fuel tm oflow bflow img adapt bounds render ops j, nth_error ops j = Some SNext ->
  let cf := @scfg_of w fuel p sch oflow bflow img adapt bounds render in
  nth_error (fst (srun cf ops (syn_init cf (start_of fuel tm sch)))) j = Some (SRaise ValueError).
Proof.
  intros w d p sch H NF HF fuel tm oflow bflow img adapt bounds render ops j Hj cf. apply C63_stack in H.
  destruct H as (cls & B & N & L & inc & seed & a & c & s & S & _ & _ & _ & W & _). cbn [scheduler_of] in W.
  pose proof (ss_batch _ _ _ _ _ _ _ S) as PB. pose proof PB as (v & _ & _ & P).
  apply (wrong_size w B N L _ a c s sch W P NF fuel tm oflow bflow img cf); [|exact Hj].
  cbn [cf scfg_of sc_F]. intros E. apply HF. rewrite E. exact PB.
Qed.
Print Assumptions C65_never.

(** Without a wrapper, or with equal sizes, no call is refused for its size:
    a ValueError can only be one of the file scheduler's own. *)
Theorem C65_right_size : forall w d p sch, make w (PDict d) = Ok (SyntheticSampler p sch) ->
  (exists a c s, sch = SFile a c s) \/ positive_setting d "batch_size" (sy_F p) ->
  forall fuel u, fst (si_get (sif_of fuel sch) (sy_F p) u) = Err ValueError ->
  exists s, fst (get_batch (file_config sch) fuel (sy_F p) s) = CRaise ValueError.
Proof.
  intros w d p sch H OR fuel u E. apply C63_stack in H.
  destruct H as (cls & B & N & L & inc & seed & a & c & s & S & _ & _ & _ & W & _). cbn [scheduler_of] in W.
  apply (right_size fuel sch (sy_F p)) with (u := u); [|exact E].
  destruct OR as [(a' & c' & s' & ->)|PF]; [exact I|].
  assert (EB : sy_F p = B) by exact (positive_unique _ _ _ _ PF (ss_batch _ _ _ _ _ _ _ S)). rewrite EB.
  destruct W as (core & HC & [[_ ->]|[_ ->]]); [|reflexivity].
  destruct HC as [[_ ->]|(_ & ec & es & H & ->)]; [exact I | apply construct_fields in H; tauto].
Qed.
Print Assumptions C65_right_size.

(** Accepted: two flow fields per batch of three, prefetched. *)
Example C65_case : exists p sch, make exM_world (PDict (exM_dict ".npy" 3 2 4 0 (seed_is 7))) = Ok (SyntheticSampler p sch) /\
  (forall a c s, sch <> SFile a c s) /\ ~ positive_setting (exM_dict ".npy" 3 2 4 0 (seed_is 7)) "batch_size" (sy_F p).
Proof.
  destruct (make exM_world (PDict (exM_dict ".npy" 3 2 4 0 (seed_is 7)))) as [[B sch|p sch]|e] eqn:E.
  - exfalso. apply (f_equal shape_of) in E. vm_compute in E. discriminate.
  - exists p, sch. split; [reflexivity|].
    assert (F : sy_F p = 2).
    { pose proof (f_equal (fun r => match r with Ok (SyntheticSampler q _) => sy_F q | _ => 0 end) E) as K. vm_compute in K. symmetry. exact K. }
    split.
    + intros a c s ->. apply (f_equal shape_of) in E. vm_compute in E. discriminate.
    + rewrite F. intros (v & G & I & _). cbn in G. inversion G. subst v. inversion I.
  - exfalso. apply (f_equal shape_of) in E. vm_compute in E. discriminate.
Qed.

(** * C81 *)

(** The docstring lists the seed as optional (make.py:68); only the real-image
    sampler can do without it. *)
Theorem C81_seed_required : forall w d, given "seed" d = None -> setting d "include_images" (PBool false) (PBool false) ->
  exists e, make w (PDict d) = Err e.
Proof.
  intros w d G HI. destruct (make w (PDict d)) as [smp|e] eqn:E; [|eauto]. exfalso. apply make_ok in E.
  destruct E as (cls & B & N & L & inc & seed & a & c & s & sch & S & _ & _ & _ & _ & H).
  assert (EI : PBool inc = PBool false) by exact (setting_unique _ _ _ _ _ (ss_images _ _ _ _ _ _ _ S) HI).
  inversion EI. subst inc. destruct H as (p & v & _ & _ & _ & H & _). exact (synthetic_needs_seed _ _ _ _ H G).
Qed.
Print Assumptions C81_seed_required.

Example C81_case :
  given "seed" (exM_dict ".npy" 3 2 0 0 []) = None /\
  setting (exM_dict ".npy" 3 2 0 0 []) "include_images" (PBool false) (PBool false) /\
  shape_of (make exM_world (PDict (exM_dict ".npy" 3 2 0 0 []))) = inr KeyError /\
  shape_of (make exM_world (PDict (exM_dict ".npy" 3 2 0 0 (seed_is 0)))) = inl (Some (false, [3])) /\
  shape_of (make exM_world (PDict (exM_dict ".mat" 3 2 0 0 with_images))) = inl (Some (true, [3])).
Proof. split; [reflexivity|]. split; [right; split; reflexivity|]. repeat split; vm_compute; reflexivity. Qed.
