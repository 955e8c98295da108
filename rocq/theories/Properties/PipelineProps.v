(** Properties C90, C91: from the configuration and the files to the batches. *)
From Coq Require Import List Arith ZArith QArith String Bool Lia Permutation.
From Verif Require Import Prelude Model.PyVal Model.Types Model.Base Model.Files Model.Loaders Model.Episodic Model.Prefetch
  Model.Sampler Model.Stack Model.Geometry Model.Make
  Spec.TypesSpec Spec.BaseSpec Spec.FilesSpec Spec.SamplerSpec Spec.StackSpec Spec.MakeSpec Spec.PipelineSpec
  Proofs.BaseProofs Proofs.BaseRun Proofs.LoaderProofs Proofs.SamplerProofs Proofs.StackProofs Proofs.PipelineProofs
  Properties.MakeProps.
Import ListNotations.
Local Open Scope string_scope.
Local Open Scope nat_scope.

(** What call number [m] of [next] on a new sampler yields. *)
Definition answer {si oflow bflow img} (sc : scfg si oflow bflow img) (u : si_state si) (m : nat) : option (@sobs oflow img) :=
  nth_error (fst (srun sc (repeat SNext (S m)) (syn_init sc u))) m.
Definition answer_real (si : sif) (B : nat) (u : si_state si) (m : nat) :=
  nth_error (fst (real_run si B (S m) u)) m.

(** * C90 *)

Theorem C90_synthetic : forall c C fl k fuel oflow bflow img (sc : scfg (base_sif c fuel) oflow bflow img),
  usable c C fl fuel -> sizes_ok sc -> sc_F sc mod sc_nd sc = 0 ->
  exists x, stream_of (c_randomize c) (c_loop c) C fl x /\
    played (sc_nd sc) (sc_B sc) (sc_F sc) (sc_bpf sc) (sc_seed sc) (sc_adapt sc) (sc_bounds sc) (sc_render sc) (c_loop c) x
      (answer sc (init c fl k)).
Proof.
  intros c C fl k fuel oflow bflow img sc [U1 U2 U3 U4 U5 U6] OK FM. assert (Fp : 0 < sc_F sc) by (destruct OK; lia).
  destruct (base_delivers c C fl k fuel (sc_F sc) U1 U2 U3 U4 U5 U6 Fp) as (x & D & S_ & ST & HL & HF & CA).
  assert (GO : forall j, si_protocol (base_sif c fuel) = true -> si_steps (base_sif c fuel) (S_ j) <> 0%Z) by (intros; discriminate).
  assert (CA' : forall j, x (j * sc_F sc) <> None -> carries (imgt := arr) field_of (sc_F sc) (j * sc_F sc) x (D j)) by (intros j Hj; apply CA, Hj).
  exists x. split; [exact ST|]. unfold played. destruct (c_loop c).
  - destruct (HL eq_refl) as [De NN]. intros m.
    exact (over_loop sc field_of x _ D S_ OK FM GO CA' De NN (syn_init sc (init c fl k)) m (init_fresh sc _) eq_refl).
  - destruct (HF eq_refl) as (J & LB & De). exists J. split; [exact LB|].
    destruct (over_upto sc field_of x _ D S_ OK FM GO CA' J LB De (syn_init sc (init c fl k)) (init_fresh sc _) eq_refl) as [A B].
    split; [exact A | exact B].
Qed.
Print Assumptions C90_synthetic.

(** With a prefetcher in between, whatever its thread does, as long as it keeps
    up: exactly the same. *)
Theorem C90_prefetched : forall c C fl k fuel N tm oflow bflow img B (sc : scfg (prefetch_sif (base_sif c fuel) None B N) oflow bflow img),
  usable c C fl fuel -> sizes_ok sc -> sc_F sc mod sc_nd sc = 0 -> sc_F sc = B -> 1 <= N -> prompt tm ->
  exists x, stream_of (c_randomize c) (c_loop c) C fl x /\
    played (sc_nd sc) (sc_B sc) (sc_F sc) (sc_bpf sc) (sc_seed sc) (sc_adapt sc) (sc_bounds sc) (sc_render sc) (c_loop c) x
      (answer sc (mkTst (pinit (sched_of (base_sif c fuel) None B) (init c fl k)) tm)).
Proof.
  intros c C fl k fuel N tm oflow bflow img B sc [U1 U2 U3 U4 U5 U6] OK FM EB HN PR. assert (Fp : 0 < sc_F sc) by (destruct OK; lia).
  destruct (base_delivers c C fl k fuel (sc_F sc) U1 U2 U3 U4 U5 U6 Fp) as (x & D & S_ & ST & HL & HF & CA).
  set (u := mkTst (pinit (sched_of (base_sif c fuel) None B) (init c fl k)) tm : si_state (prefetch_sif (base_sif c fuel) None B N)).
  assert (GO : forall S' : nat -> si_state (prefetch_sif (base_sif c fuel) None B N),
    forall j, si_protocol (prefetch_sif (base_sif c fuel) None B N) = true -> si_steps (prefetch_sif (base_sif c fuel) None B N) (S' j) <> 0%Z)
    by (intros S' j _; discriminate).
  assert (CA' : forall j, x (j * sc_F sc) <> None -> carries (imgt := arr) field_of (sc_F sc) (j * sc_F sc) x (D j)) by (intros j Hj; apply CA, Hj).
  exists x. split; [exact ST|]. unfold played. rewrite EB in HL, HF. destruct (c_loop c).
  - destruct (HL eq_refl) as [De NN]. destruct (prefetch_stream _ B N _ D S_ tm HN PR De) as (S' & De' & _). intros m.
    assert (De2 : delivers (prefetch_sif (base_sif c fuel) None B N) (sc_F sc) u D S') by (rewrite EB; exact De').
    exact (over_loop sc field_of x u D S' OK FM (GO S') CA' De2 NN (syn_init sc u) m (init_fresh sc _) eq_refl).
  - destruct (HF eq_refl) as (J & LB & De). destruct (prefetch_upto _ B N J _ D S_ tm HN PR De) as (S' & De' & _).
    assert (LB2 : last_batch (sc_F sc) x J) by (rewrite EB; exact LB).
    assert (De2 : delivers_upto (prefetch_sif (base_sif c fuel) None B N) (sc_F sc) J u D S') by (rewrite EB; exact De').
    exists J. split; [exact LB2|].
    destruct (over_upto sc field_of x u D S' OK FM (GO S') CA' J LB2 De2 (syn_init sc u) (init_fresh sc _) eq_refl) as [A A'].
    split; [exact A | exact A'].
Qed.
Print Assumptions C90_prefetched.

(** Real images, with and without a prefetcher. *)
Lemma real_carries : forall C fl r lo x D n, stream_of r lo C fl x -> (forall s, In s (epoch C fl) -> sd_im1 s <> None /\ sd_im2 s <> None) ->
  (forall j, x (j * n) <> None -> carries field_of n (j * n) x (D j) /\
     exists l b, D j = fdata_of b /\ batch_of n l b /\ forall i, i < n -> nth_error l i = x (j * n + i)) ->
  forall j, x (j * n) <> None -> carries (imgt := arr) field_of n (j * n) x (D j) /\
  exists r1 r2, fd_images1 (D j) = Some r1 /\ fd_images2 (D j) = Some r2 /\ List.length r1 = n /\ List.length r2 = n /\
    forall q, q < n -> exists a0 a1, nth_error r1 q = Some a0 /\ nth_error r2 q = Some a1 /\ pictures (x (j * n + q)) a0 a1.
Proof.
  intros C fl r lo x D n ST IM CA j Hj. destruct (CA j Hj) as (A & l & b & E & Bo & Hl). split; [exact A|]. rewrite E.
  apply (batch_pictures n (j * n) x l b Bo Hl). intros i s Hs. apply IM. eapply stream_in; eauto.
Qed.

Theorem C90_real : forall c C fl k fuel B,
  usable c C fl fuel -> 0 < B -> (forall s, In s (epoch C fl) -> sd_im1 s <> None /\ sd_im2 s <> None) ->
  exists x, stream_of (c_randomize c) (c_loop c) C fl x /\
    played_real B (c_loop c) x (answer_real (base_sif c fuel) B (init c fl k)) /\
    forall N tm, 1 <= N -> prompt tm ->
      played_real B (c_loop c) x
        (answer_real (prefetch_sif (base_sif c fuel) None B N) B (mkTst (pinit (sched_of (base_sif c fuel) None B) (init c fl k)) tm)).
Proof.
  intros c C fl k fuel B [U1 U2 U3 U4 U5 U6] HB IM.
  destruct (base_delivers c C fl k fuel B U1 U2 U3 U4 U5 U6 HB) as (x & D & S_ & ST & HL & HF & CA).
  pose proof (real_carries C fl _ _ x D B ST IM CA) as CA'. exists x. split; [exact ST|].
  assert (GO : forall j, si_protocol (base_sif c fuel) = true -> si_steps (base_sif c fuel) (S_ j) <> 0%Z) by (intros; discriminate).
  unfold played_real. destruct (c_loop c).
  - destruct (HL eq_refl) as [De NN]. split.
    + intros m. exact (real_loop (base_sif c fuel) B field_of pictures x D S_ GO CA' _ De NN m).
    + intros N tm HN PR m. destruct (prefetch_stream _ B N _ D S_ tm HN PR De) as (S' & De' & _).
      refine (real_loop (prefetch_sif (base_sif c fuel) None B N) B field_of pictures x D S' _ CA' _ De' NN m). intros j _; discriminate.
  - destruct (HF eq_refl) as (J & LB & De). split.
    + exists J. split; [exact LB|]. exact (real_upto (base_sif c fuel) B field_of pictures x D S_ GO CA' _ J LB De).
    + intros N tm HN PR. destruct (prefetch_upto _ B N J _ D S_ tm HN PR De) as (S' & De' & _). exists J. split; [exact LB|].
      refine (real_upto (prefetch_sif (base_sif c fuel) None B N) B field_of pictures x D S' _ CA' _ J LB De'). intros j _; discriminate.
Qed.
Print Assumptions C90_real.

(** What [make] builds from a configuration without episodes and images, over
    the files its list stands for. *)
Definition listed (w : world) (d : list (string * pyval)) (a : fattrs) (c : cfg) (files : list string) : Prop :=
  exists fl segs, file_settings d fl (c_randomize c) (c_loop c) /\
    Forall2 (stands_for (w_fs w) (search (fa_class a))) fl segs /\ files = List.concat segs.

Theorem C90_make : forall w d p a c s, 0 < w_devices w -> make w (PDict d) = Ok (SyntheticSampler p (SFile a c s)) ->
  exists files, listed w d a c files /\ c_loader c = loader_for w a /\ c_rng c = w_rng w /\
  forall C fuel tm oflow bflow img (adapt : arr -> oflow) (bounds : arr -> bflow) (render : key -> nat -> bflow -> img),
  usable c C files fuel -> Nat.divide (List.length (sy_devices p)) (sy_F p) ->
  exists x, stream_of (c_randomize c) (c_loop c) C files x /\
    played (List.length (sy_devices p)) (sy_batch p) (sy_F p) (sy_bpf p) (sy_seed p) adapt bounds render (c_loop c) x
      (answer (@scfg_of w fuel p (SFile a c s) oflow bflow img adapt bounds render) (start_of fuel tm (SFile a c s))).
Proof.
  intros w d p a c s WD H. destruct (C63_synthetic w d p _ WD H) as [_ SZ]. apply C63_stack in H.
  destruct H as (cls & B & N & L & inc & seed & a' & c' & s' & SS & _ & _ & FS & W & _). cbn [scheduler_of] in W.
  assert (E : a' = a /\ c' = c /\ s' = s).
  { destruct W as (core & [[_ ->] | [_ (ec & es & _ & ->)]] & [[_ X]|[_ X]]); try discriminate. now inversion X. }
  destruct E as (-> & -> & ->). destruct FS as [_ [F1 F2] (fl & segs & F3 & F4 & _ & _ & F5 & _)].
  exists (List.concat segs). split; [exists fl, segs; auto|]. split; [exact F1|]. split; [exact F2|].
  intros C fuel tm oflow bflow img adapt bounds render U DV.
  pose proof (SZ fuel oflow bflow img adapt bounds render) as OK.
  assert (FM : sc_F (@scfg_of w fuel p (SFile a c s) oflow bflow img adapt bounds render) mod
               sc_nd (@scfg_of w fuel p (SFile a c s) oflow bflow img adapt bounds render) = 0).
  { apply Nat.mod_divide; [destruct OK; lia | exact DV]. }
  destruct (C90_synthetic c C (List.concat segs) (Seed 0) fuel oflow bflow img _ U OK FM) as (x & ST & PL).
  exists x. split; [exact ST|]. rewrite <- F5 in PL. exact PL.
Qed.
Print Assumptions C90_make.

Theorem C90_make_prefetched : forall w d p B N a c s, 0 < w_devices w ->
  make w (PDict d) = Ok (SyntheticSampler p (SPrefetch B N (SFile a c s))) ->
  positive_setting d "batch_size" B /\
  exists files, listed w d a c files /\ c_loader c = loader_for w a /\ c_rng c = w_rng w /\
  forall C fuel tm oflow bflow img (adapt : arr -> oflow) (bounds : arr -> bflow) (render : key -> nat -> bflow -> img),
  usable c C files fuel -> Nat.divide (List.length (sy_devices p)) (sy_F p) -> sy_F p = B -> prompt tm ->
  exists x, stream_of (c_randomize c) (c_loop c) C files x /\
    played (List.length (sy_devices p)) (sy_batch p) (sy_F p) (sy_bpf p) (sy_seed p) adapt bounds render (c_loop c) x
      (answer (@scfg_of w fuel p (SPrefetch B N (SFile a c s)) oflow bflow img adapt bounds render)
              (start_of fuel tm (SPrefetch B N (SFile a c s)))).
Proof.
  intros w d p B N a c s WD H. destruct (C63_synthetic w d p _ WD H) as [_ SZ]. apply C63_stack in H.
  destruct H as (cls & B' & N' & L & inc & seed & a' & c' & s' & SS & _ & _ & FS & W & _). cbn [scheduler_of] in W.
  assert (E : a' = a /\ c' = c /\ s' = s /\ B' = B /\ 1 <= N).
  { destruct W as (core & [[_ ->] | [_ (ec & es & _ & ->)]] & [[_ X]|[Np X]]); try discriminate. inversion X. subst. repeat split. lia. }
  destruct E as (-> & -> & -> & -> & HN). split; [exact (ss_batch _ _ _ _ _ _ _ SS)|].
  destruct FS as [_ [F1 F2] (fl & segs & F3 & F4 & _ & _ & F5 & _)].
  exists (List.concat segs). split; [exists fl, segs; auto|]. split; [exact F1|]. split; [exact F2|].
  intros C fuel tm oflow bflow img adapt bounds render U DV EB PR.
  pose proof (SZ fuel oflow bflow img adapt bounds render) as OK.
  set (sc := @scfg_of w fuel p (SPrefetch B N (SFile a c s)) oflow bflow img adapt bounds render) in *.
  assert (FM : sc_F sc mod sc_nd sc = 0) by (apply Nat.mod_divide; [destruct OK; lia | exact DV]).
  destruct (C90_prefetched c C (List.concat segs) (Seed 0) fuel N tm oflow bflow img B sc U OK FM EB HN PR) as (x & ST & PL).
  exists x. split; [exact ST|]. rewrite <- F5 in PL. exact PL.
Qed.
Print Assumptions C90_make_prefetched.

(** ** A concrete case: three .npy files of different constant values, two
    devices, a list shuffled at construction, no loop. *)
Definition exP_world (w : world) : world :=
  mkWorld (w_exists w) (w_fs w) (w_yaml w) (w_h5 w)
    (fun p => Ok (mkArr [8; 8; 2] (repeat (if String.eqb p "d/flow_1.npy" then 1 else if String.eqb p "d/flow_2.npy" then 2 else 3)%Q 128)))
    (w_jpg w) (w_mat w) (w_pil w) (w_dirs w) (w_rng w) (w_devices w) (w_npload w) (w_num w) (w_conv w).
Definition exP_dict (batch buffer : Z) : list (string * pyval) := exM_dict ".npy" batch 2 buffer 0 (("loop", PBool false) :: seed_is 7).
Definition exP_view {img} (o : option (@sobs arr img)) :=
  match o with
  | Some (SBatch b) => inl (map (fun f => hd 0%Q (data f)) (ba_flows b), ba_mask b, ba_files b, ba_done b)
  | Some (SRaise e) => inr (Some e)
  | _ => inr None
  end.
Definition exP_tm : timing := fun _ => ((2, false), (5, false)).
(** Adapter, cropping and rendering that pass the field through. *)
Definition exP_answer {w} (p : synthetic w) (sch : scheduler) (m : nat) : option (@sobs arr (key * nat * arr)) :=
  match sch with
  | SFile a c s =>
      answer (@scfg_of w 9 p (SFile a c s) arr arr _ (fun f => f) (fun f => f) (fun k j f => (k, j, f))) (start_of 9 exP_tm (SFile a c s)) m
  | SPrefetch B N (SFile a c s) =>
      answer (@scfg_of w 9 p (SPrefetch B N (SFile a c s)) arr arr _ (fun f => f) (fun f => f) (fun k j f => (k, j, f)))
        (start_of 9 exP_tm (SPrefetch B N (SFile a c s))) m
  | _ => None
  end.
Definition exP_run (batch buffer : Z) (k : nat) :=
  match make (exP_world exM_world) (PDict (exP_dict batch buffer)) with
  | Ok (SyntheticSampler p sch) =>
      map (fun m => exP_view (exP_answer p sch m)) (seq 0 k)
  | _ => []
  end.

(** Batches of four made from two fields, three batches from each pair: *)
Example C90_case : exP_run 4 0 7 =
  (repeat (inl ([3; 3; 2; 2]%Q, Some [true; true], Some ["d/flow_3.npy"; "d/flow_2.npy"], None)) 3 ++
   repeat (inl ([1; 1; 0; 0]%Q, Some [true; false], Some ["d/flow_1.npy"; ""], None)) 3 ++ [inr (Some StopIteration)])%list.
Proof. vm_compute. reflexivity. Qed.

(** The same files through a buffer, in batches of two: *)
Example C90_case_prefetched : exP_run 2 3 7 =
  (repeat (inl ([3; 2]%Q, Some [true; true], Some ["d/flow_3.npy"; "d/flow_2.npy"], Some [false; false])) 3 ++
   repeat (inl ([1; 0]%Q, Some [true; false], Some ["d/flow_1.npy"; ""], Some [false; false])) 3 ++ [inr (Some StopIteration)])%list.
Proof. vm_compute. reflexivity. Qed.

(** These files are usable, the timing is prompt. *)
Lemma exP_slices : forall p, slices_of (npy_content false (w_npy (exP_world exM_world)) (w_jpg (exP_world exM_world))) p =
  [mkSD (mkArr [8; 8; 2] (repeat (if String.eqb p "d/flow_1.npy" then 1 else if String.eqb p "d/flow_2.npy" then 2 else 3)%Q 128)) None None None (Some [p])].
Proof. intros p. unfold slices_of, npy_content. reflexivity. Qed.
Example C90_usable : exists p a c s files,
  make (exP_world exM_world) (PDict (exP_dict 4 0)) = Ok (SyntheticSampler p (SFile a c s)) /\
  listed (exP_world exM_world) (exP_dict 4 0) a c files /\
  usable c (npy_content false (w_npy (exP_world exM_world)) (w_jpg (exP_world exM_world))) files 9 /\
  Nat.divide (List.length (sy_devices p)) (sy_F p) /\ prompt exP_tm.
Proof.
  assert (D : 0 < w_devices (exP_world exM_world)) by (cbn; lia).
  assert (OKM : exists p a c s, make (exP_world exM_world) (PDict (exP_dict 4 0)) = Ok (SyntheticSampler p (SFile a c s)) /\
    fa_class a = Npy /\ fa_images a = false /\ List.length (sy_devices p) = 2 /\ sy_F p = 2).
  { destruct (make (exP_world exM_world) (PDict (exP_dict 4 0))) as [[B sch|p sch]|e] eqn:E; vm_compute in E; try discriminate.
    injection E as <- <-. eexists _, _, _, _. split; [reflexivity|]. auto. }
  destruct OKM as (p & a & c & s & E & Ea & Ei & Ed & EF).
  destruct (C90_make _ _ _ _ _ _ D E) as (files & LI & CL & CR & _).
  exists p, a, c, s, files. split; [exact E|]. split; [exact LI|]. split; [|split].
  - assert (LF : List.length files = 3).
    { destruct LI as (fl & segs & (FL & _) & F2 & ->). destruct FL as [FL|[FL _]]; [|discriminate FL].
      assert (EL : fl = ["d"]).
      { change (given "file_list" (exP_dict 4 0)) with (Some (PList [PStr "d"])) in FL. injection FL as FL.
        destruct fl as [|x [|y fl]]; try discriminate. injection FL as <-. reflexivity. }
      subst fl. inversion F2 as [|? seg ? ? SF F2']; subst. inversion F2'; subst. cbn [List.concat]. rewrite app_nil_r.
      destruct SF as [[DI _]|(_ & PM & _)]; [discriminate DI|]. rewrite (Permutation_length PM), Ea. reflexivity. }
    split.
    + rewrite CL. unfold loader_for. rewrite Ea, Ei. apply npy_disk.
    + intros _. rewrite CR. intros k n. cbn. destruct k as [z|[z|k' i'] i]; try apply Permutation_refl.
      destruct z; try apply Permutation_refl. apply Permutation_sym, Permutation_rev.
    + intros q l e _. unfold npy_content. cbn. discriminate.
    + exists [8; 8; 2], [0; 0], [0; 0]. split; [reflexivity|]. split; [reflexivity|]. split; [reflexivity|].
      intros x Hx. apply in_flat_map in Hx. destruct Hx as (q & _ & Hx). rewrite exP_slices in Hx. destruct Hx as [<-|[]].
      split; [split; reflexivity | discriminate | discriminate | exists q; reflexivity].
    + destruct files as [|q files]; [discriminate LF|]. cbn [epoch flat_map]. rewrite exP_slices. discriminate.
    + lia.
  - rewrite Ed, EF. exists 1. reflexivity.
  - intros i. cbn. repeat split; lia.
Qed.

(** * C91 *)

(** Over a scheduler without episodes the consumer is told so. *)
Theorem C91_plain : forall si oflow bflow img (sc : scfg si oflow bflow img) ops s, si_protocol si = false ->
  Forall2 without_episodes ops (fst (srun sc ops s)).
Proof.
  intros si oflow bflow img sc ops s PT. revert s. induction ops as [|o ops IH]; intros s; [constructor|]. cbn [srun].
  destruct (do_sop sc o s) as [r s1] eqn:E. specialize (IH s1). destruct (srun sc ops s1) as [rs s2]. cbn [fst] in *.
  constructor; [|exact IH]. destruct o; cbn [do_sop] in E.
  - unfold syn_next, sampler_next in E. rewrite PT in E. cbn [andb] in E.
    destruct (syn_get_next sc s) as [[b|e] s'] eqn:G; injection E as <- <-; [|exact I].
    unfold syn_get_next in G. destruct (syn_fetch sc s) as [[x|e] s0]; [|discriminate]. unfold syn_generate in G.
    destruct (y_cur s0) as [| |o1 o2]; try discriminate. destruct o2; try discriminate.
    destruct (shard (sc_nd sc) (b0 :: o2)); try discriminate. injection G as <- <-. reflexivity.
  - injection E as <- <-. reflexivity.
  - unfold syn_next_episode in E. rewrite PT in E. injection E as <- <-. reflexivity.
Qed.
Print Assumptions C91_plain.

(** Through a prefetcher it is not: whatever is underneath and however the
    background thread is timed, [next_episode] succeeds, every batch carries a done
    flag, which is never set, and no episode ever ends. *)
Theorem C91_prefetched : forall si B N oflow bflow img (sc : scfg (prefetch_sif si None B N) oflow bflow img) v tm ops, 1 <= N ->
  Forall2 (looks_episodic (sc_B sc)) ops (fst (srun sc ops (syn_init sc (mkTst (pinit (sched_of si None B) v) tm)))).
Proof.
  intros si B N oflow bflow img sc v tm ops HN.
  assert (G : forall ops (s : sst (prefetch_sif si None B N) oflow bflow), calm si None B N (y_sched s) ->
    Forall2 (looks_episodic (sc_B sc)) ops (fst (srun sc ops s))).
  { clear ops. induction ops as [|o ops IH]; intros s CA; [constructor|]. cbn [srun].
    destruct (do_sop sc o s) as [r s1] eqn:E. specialize (IH s1). destruct (srun sc ops s1) as [rs s2]. cbn [fst] in *.
    destruct o; cbn [do_sop] in E.
    - unfold syn_next, sampler_next in E. cbn [prefetch_sif si_protocol si_steps] in E. cbn [psteps_remaining sched_of sc_len Z.eqb andb] in E.
      assert (K : forall r' s', syn_get_next sc s = (r', s') -> calm si None B N (y_sched s') /\ r' <> Err EpisodeEnd).
      { intros r' s'. unfold syn_get_next, syn_fetch.
        assert (GE : forall s0 : sst (prefetch_sif si None B N) oflow bflow, calm si None B N (y_sched s0) -> forall r' s', syn_generate sc s0 = (r', s') -> calm si None B N (y_sched s') /\ r' <> Err EpisodeEnd).
        { intros s0 C0 r0 s0'. unfold syn_generate. destruct (y_cur s0) as [| |o1 [|x o2]]; try (intros [= <- <-]; split; [exact C0 | discriminate]).
          destruct (shard (sc_nd sc) (x :: o2)); intros [= <- <-]; (split; [exact C0 | discriminate]). }
        destruct (match y_cur s with CurNone => true | _ => sc_bpf sc <=? y_gen s end); [|apply GE, CA].
        cbn [prefetch_sif si_get]. destruct (pf_get si None B N (sc_F sc) (y_sched s)) as [rg u'] eqn:EG.
        pose proof (calm_get si None B N HN _ _ _ _ CA EG) as CA'.
        assert (NE : rg <> Err EpisodeEnd).
        { unfold pf_get in EG. set (s0 := wait si None B N (fst (t_time (y_sched s) 0)) (t_st (y_sched s))) in *.
          destruct (Prefetch.pstep (sched_of si None B) B N s0 (LCallGet (sc_F sc))) as [[ev s1']|] eqn:EP; [|injection EG as <- <-; discriminate].
          destruct (call_get_cases si None B N _ _ _ _ EP) as (_ & [(_ & -> & _) | [(_ & (L & X & _) & _) | (_ & _ & -> & _)]]); [|discriminate|].
          - injection EG as <- <-; discriminate.
          - destruct (Prefetch.pstep (sched_of si None B) B N (wait si None B N (snd (t_time (y_sched s) 0)) s1') LTake) as [[[|[]] s3]|]; injection EG as <- <-; discriminate. }
        destruct rg as [d|e].
        - match goal with |- context [match shard ?n ?l with _ => _ end] => destruct (shard n l) eqn:ES end.
          + apply GE. exact CA'.
          + intros [= <- <-]. split; [exact CA'|]. unfold shard in ES. destruct (_ =? 0); congruence.
        - intros [= <- <-]. split; [exact CA' | congruence]. }
      destruct (syn_get_next sc s) as [[b|e] s'] eqn:EG; injection E as <- <-; destruct (K _ _ eq_refl) as [C1 C2];
        (constructor; [|apply IH, C1]); [reflexivity | congruence].
    - injection E as <- <-. constructor; [reflexivity|]. apply IH. unfold syn_reset. destruct scheduler_reset; cbn; [apply calm_reset; auto | exact CA].
    - unfold syn_next_episode in E. cbn [prefetch_sif si_protocol si_next] in E.
      destruct (pf_next si None B N (y_sched s)) as [rn u'] eqn:EN. destruct (calm_next si None B N HN _ _ _ CA EN) as [-> CA'].
      injection E as <- <-. constructor; [reflexivity|]. apply IH. exact CA'. }
  apply G. exact (calm_init si None B N v tm).
Qed.
Print Assumptions C91_prefetched.

(** And it means nothing: the batches are what they would be without the calls
    of [next_episode]. *)
Theorem C91_no_episodes : forall si B N oflow bflow img (sc : scfg (prefetch_sif si None B N) oflow bflow img) v D S_ tm ops,
  1 <= N -> prompt tm -> sizes_ok sc -> sc_F sc = B -> delivers si B v D S_ -> (forall j, shardable sc (D j)) ->
  Forall (fun o => o = SNext \/ o = SNextEpisode) ops ->
  unbroken sc D 0 ops (fst (srun sc ops (syn_init sc (mkTst (pinit (sched_of si None B) v) tm)))).
Proof.
  intros si B N oflow bflow img sc v D S_ tm ops HN PR OK EF DE SH HO.
  apply (unbroken_run sc D (taken si B D S_) OK SH eq_refl); [reflexivity| | |exact HO|].
  - intros j u T. rewrite EF. exact (taken_get si B N v D S_ HN DE j u T).
  - intros j u T. exact (taken_next si B N v D S_ HN DE j u T).
  - split; [reflexivity|]. split; [reflexivity|]. exact (taken_init si B v D S_ DE tm PR).
Qed.
Print Assumptions C91_no_episodes.

(** ** The files of C90_case: [next_episode] between the batches. *)
Definition exP_episodes (buffer : Z) :=
  let ops := [SNextEpisode; SNext; SNextEpisode; SNext; SNext; SNextEpisode; SNext] in
  match make (exP_world exM_world) (PDict (exP_dict 2 buffer)) with
  | Ok (SyntheticSampler p (SFile a c s)) =>
      let sc := @scfg_of _ 9 p (SFile a c s) arr arr (key * nat * arr) (fun f => f) (fun f => f) (fun k j f => (k, j, f)) in
      map (fun o => exP_view (Some o)) (fst (srun sc ops (syn_init sc (start_of 9 exP_tm (SFile a c s)))))
  | Ok (SyntheticSampler p (SPrefetch B N (SFile a c s))) =>
      let sc := @scfg_of _ 9 p (SPrefetch B N (SFile a c s)) arr arr (key * nat * arr) (fun f => f) (fun f => f) (fun k j f => (k, j, f)) in
      map (fun o => exP_view (Some o)) (fst (srun sc ops (syn_init sc (start_of 9 exP_tm (SPrefetch B N (SFile a c s))))))
  | _ => []
  end.
Example C91_case :
  let b d := inl ([3; 2]%Q, Some [true; true], Some ["d/flow_3.npy"; "d/flow_2.npy"], d) in
  let l d := inl ([1; 0]%Q, Some [true; false], Some ["d/flow_1.npy"; ""], d) in
  let no := Some [false; false] in
  exP_episodes 3 = [inr None; b no; inr None; b no; b no; inr None; l no] /\
  exP_episodes 0 = [inr (Some AttributeError); b None; inr (Some AttributeError); b None; b None; inr (Some AttributeError); l None].
Proof. split; vm_compute; reflexivity. Qed.
