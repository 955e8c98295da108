(** Property C92: from the files to the batches, in episodes. *)
From Coq Require Import List Arith ZArith QArith String Bool Lia Permutation.
From Verif Require Import Prelude Model.PyVal Model.Types Model.Base Model.Files Model.Loaders Model.Episodic Model.Prefetch
  Model.Sampler Model.Stack Model.Geometry Model.Make Model.Keys
  Spec.TypesSpec Spec.BaseSpec Spec.FilesSpec Spec.EpisodicSpec Spec.SamplerSpec Spec.StackSpec Spec.MakeSpec Spec.PipelineSpec
  Proofs.BaseFinal Proofs.EpisodicProofs Proofs.SamplerProofs Proofs.StackProofs Proofs.PipelineProofs Proofs.EpisodePipeline
  Properties.MakeProps Properties.SamplerProps Properties.EpisodicProps.
Import ListNotations.
Local Open Scope string_scope.
Local Open Scope nat_scope.

(** * C92 *)

(** Step [t] of episode [e], if its windows are spread (C18), is what batch [m] shows. *)
Definition shown_of {si oflow bflow img} (sc : scfg si oflow bflow img) (adapt : arr -> oflow) (bounds : arr -> bflow)
    (C : string -> content) (files : string -> list string) (L : nat) (ws : nat -> list (string * nat)) (e t m : nat) (b : batch oflow img) : Prop :=
  spread L (ws e) -> shows_step (sc_nd sc) (sc_B sc) (sc_F sc) (sc_seed sc) adapt bounds (sc_render sc) C files (ws e) t m b.

Theorem C92_episodes : forall D c g base B L k ec s0 C fuel,
  enum_ok D -> choice_ok g -> ep_construct D c g base B L k = Ok (ec, s0) ->
  disk (c_loader c) C -> c_randomize c = false -> single_slices C D (s_files base) -> distinct_files D (s_files base) ->
  2 * (L * B) < fuel ->
  exists ws : nat -> list (string * nat),
    (forall e, List.length (ws e) = B /\ (forall w, In w (ws e) -> window D (s_files base) L w) /\
       time_major (dir_files D) L (ws e) (s_files (e_base (Nat.iter e (next_episode ec) s0)))) /\
    (c_loop c = true \/ (forall e, spread L (ws e)) ->
     (forall oflow bflow img (sc : scfg (episodic_sif ec fuel) oflow bflow img) ops,
        sizes_ok sc -> sc_bpf sc = 1 -> sc_F sc = B -> B mod sc_nd sc = 0 -> Forall (fun o => o = SNext \/ o = SNextEpisode) ops ->
        plays_as (shown_of sc (sc_adapt sc) (sc_bounds sc) C (dir_files D) L ws) (sc_B sc) L 0 0 0 ops (fst (srun sc ops (syn_init sc s0)))) /\
     (forall N tm oflow bflow img (sc : scfg (prefetch_sif (episodic_sif ec fuel) (Some L) B N) oflow bflow img) ops,
        1 <= N -> prompt tm ->
        sizes_ok sc -> sc_bpf sc = 1 -> sc_F sc = B -> B mod sc_nd sc = 0 -> Forall (fun o => o = SNext \/ o = SNextEpisode) ops ->
        let obs := fst (srun sc ops (syn_init sc (mkTst (pinit (sched_of (episodic_sif ec fuel) (Some L) B) s0) tm))) in
        let shown := shown_of sc (sc_adapt sc) (sc_bounds sc) C (dir_files D) L ws in
        match ops, obs with
        | SNextEpisode :: ops', o :: obs' => o = SUnit /\ plays_as shown (sc_B sc) L 0 0 0 ops' obs'
        | _, _ => plays_as shown (sc_B sc) L 0 0 0 ops obs
        end)).
Proof.
  intros D c g base B L k ec s0 C fuel HE HC HM HD HR HS HF Hf.
  assert (BL : 0 < B /\ 0 < L) by (destruct (built D c g base B L k ec s0 HE HC HM) as (_ & _ & _ & _ & _ & BL); exact BL).
  destruct BL as [Bp Lp].
  exists (draws k ec). split.
  { intros e. rewrite (iter_order D c g base B L k ec s0 fuel HE HC HM HR Hf e). exact (draws_ok D c g base B L k ec s0 HE HC HM e). }
  intros GO.
  pose proof (episodes_are D c g base B L k ec s0 C fuel HE HC HM HD HR HS HF Hf GO) as EP.
  pose proof (episodes_end D c g base B L k ec s0 fuel HE HC HM) as EE.
  pose proof (fed_length D c g base B L k ec s0 C fuel HE HC HM HD HR HS HF Hf GO) as FL.
  pose proof (at_first D c g base B L k ec s0 fuel HE HC HM HR Hf) as A0.
  pose proof (fun of bf im => fed_shows D c g base B L k ec s0 C fuel HE HC HM HD HR HS HF Hf GO of bf im) as FS.
  split.
  - intros oflow bflow img sc ops OK B1 EF MN HO.
    assert (FL' : forall e t, t < L -> List.length (@fd_flows (si_flow (episodic_sif ec fuel)) (si_img (episodic_sif ec fuel)) (fed c base B k ec fuel e t)) = B) by exact FL.
    apply (plays_weaken (episodic_sif ec fuel) oflow bflow img sc L (fed c base B k ec fuel)).
    + intros e t m b HT (M1 & M2 & M3 & M4 & M5) SP. rewrite (FL' e t HT) in M3. rewrite EF.
      apply FS; auto; destruct OK as (? & ? & ? & ? & ? & ?); auto.
    + assert (EP' : episodic (episodic_sif ec fuel) (sc_F sc) L (fed c base B k ec fuel) (at_ep c base B L k ec fuel)) by (rewrite EF; exact EP).
      apply (C31_any_calls _ _ _ _ sc L _ _ OK B1 EP'); auto.
      intros e t HT. split; [rewrite (FL' e t HT); auto | rewrite EF; exact MN].
  - intros N tm oflow bflow img sc ops HN PR OK B1 EF MN HO. cbv zeta.
    set (pf := prefetch_sif (episodic_sif ec fuel) (Some L) B N) in *.
    assert (FL' : forall e t, t < L -> List.length (@fd_flows (si_flow pf) (si_img pf) (fed c base B k ec fuel e t)) = B) by exact FL.
    pose proof (prefetch_episodic (episodic_sif ec fuel) B N L _ _ HN Lp EP EE) as EPP.
    assert (W : forall ops', Forall (fun o => o = SNext \/ o = SNextEpisode) ops' -> forall tm', prompt tm' ->
       plays_as (shown_of sc (sc_adapt sc) (sc_bounds sc) C (dir_files D) L (draws k ec)) (sc_B sc) L 0 0 0 ops'
         (fst (srun sc ops' (syn_init sc (mkTst (Prefetch.start _ (pinit (sched_of (episodic_sif ec fuel) (Some L) B) s0)) tm'))))).
    { intros ops' HO' tm' PR'. apply (plays_weaken _ oflow bflow img sc L (fed c base B k ec fuel)).
      - intros e t m b HT (M1 & M2 & M3 & M4 & M5) SP. rewrite (FL' e t HT) in M3. rewrite EF.
        apply FS; auto; destruct OK as (? & ? & ? & ? & ? & ?); auto.
      - assert (EP' : episodic pf (sc_F sc) L (fed c base B k ec fuel) (started_at (episodic_sif ec fuel) B L (fed c base B k ec fuel) (at_ep c base B L k ec fuel)))
          by (rewrite EF; exact EPP).
        apply (C31_any_calls _ _ _ _ sc L _ _ OK B1 EP'); auto.
        + intros e t HT. split; [rewrite (FL' e t HT); auto | rewrite EF; exact MN].
        + apply (started_first (episodic_sif ec fuel) B N L _ _ HN Lp); auto. }
    subst pf. destruct ops as [|[|r|] ops].
    + exact I.
    + assert (E1 : do_sop sc SNext (syn_init sc (mkTst (pinit (sched_of (episodic_sif ec fuel) (Some L) B) s0) tm)) =
                   do_sop sc SNext (syn_init sc (mkTst (Prefetch.start _ (pinit (sched_of (episodic_sif ec fuel) (Some L) B) s0)) (warmed tm)))).
      { cbn [do_sop]. unfold syn_next, sampler_next, syn_get_next, syn_fetch. cbn [prefetch_sif si_protocol si_steps si_get y_sched y_cur syn_init].
        assert (NZ : (Z.of_nat L - Z.of_nat 0 =? 0)%Z = false) by (apply Z.eqb_neq; lia).
        change (@psteps_remaining (sched_of (episodic_sif ec fuel) (Some L) B) (t_st (mkTst (pinit (sched_of (episodic_sif ec fuel) (Some L) B) s0) tm)))
          with (Z.of_nat L - Z.of_nat 0)%Z.
        change (@psteps_remaining (sched_of (episodic_sif ec fuel) (Some L) B) (t_st (mkTst (Prefetch.start _ (pinit (sched_of (episodic_sif ec fuel) (Some L) B) s0)) (warmed tm))))
          with (Z.of_nat L - Z.of_nat 0)%Z.
        rewrite NZ, EF, first_get. reflexivity. }
      pose proof (W (SNext :: ops) HO (warmed tm) (warmed_prompt tm PR)) as W'. cbn [srun] in W' |- *. rewrite E1. exact W'.
    + exfalso. inversion HO as [|? ? X _]; destruct X; discriminate.
    + cbn [srun]. cbn [do_sop]. unfold syn_next_episode. cbn [prefetch_sif si_protocol si_next y_sched syn_init].
      rewrite (first_next (episodic_sif ec fuel) B N L _ _ Lp EP EE). inversion HO as [|? ? _ HO']; subst.
      pose proof (W ops HO' (later tm 1) (prompt_later tm 1 PR)) as W'.
      match goal with |- context [srun sc ops ?s] => change s with (syn_init sc (mkTst (Prefetch.start _ (pinit (sched_of (episodic_sif ec fuel) (Some L) B) s0)) (later tm 1)) : sst (prefetch_sif (episodic_sif ec fuel) (Some L) B N) oflow bflow) end.
      destruct (srun sc ops _) as [rs s2]. cbn [fst] in *. split; [reflexivity | exact W'].
Qed.
Print Assumptions C92_episodes.

(** Entry [i] of a full batch shows window [i]. *)
Theorem C92_entry : forall nd B i, 0 < nd -> B mod nd = 0 -> i < B -> source nd B B i = i.
Proof. exact source_same. Qed.
Print Assumptions C92_entry.

Lemma episode_setting : forall d L, size_setting d "episode_length" L -> 0 < L -> positive_setting d "episode_length" L.
Proof.
  intros d L (v & [G|[G ->]] & I) H; [exists v; auto|]. exfalso. inversion I; lia.
Qed.

(** What [make] builds from a configuration with episodes. *)
Theorem C92_make : forall w d p a ec s, 0 < w_devices w -> make w (PDict d) = Ok (SyntheticSampler p (SEpisodic a ec s)) ->
  exists B L c base, positive_setting d "batch_size" B /\ positive_setting d "episode_length" L /\ file_stage w d a c base /\
  forall C fuel, enum_ok (w_dirs w) -> choice_ok (w_rng w) -> disk (c_loader c) C -> c_randomize c = false ->
    single_slices C (w_dirs w) (s_files base) -> distinct_files (w_dirs w) (s_files base) -> 2 * (L * B) < fuel ->
    sy_F p = B -> B mod List.length (sy_devices p) = 0 ->
  exists ws : nat -> list (string * nat),
    (forall e, List.length (ws e) = B /\ (forall x, In x (ws e) -> window (w_dirs w) (s_files base) L x)) /\
    (c_loop c = true \/ (forall e, spread L (ws e)) ->
     forall tm oflow bflow img (adapt : arr -> oflow) (bounds : arr -> bflow) (render : key -> nat -> bflow -> img) ops,
       Forall (fun o => o = SNext \/ o = SNextEpisode) ops ->
       let sc := @scfg_of w fuel p (SEpisodic a ec s) oflow bflow img adapt bounds render in
       plays_as (shown_of sc adapt bounds C (dir_files (w_dirs w)) L ws) (sy_batch p) L 0 0 0 ops
         (fst (srun sc ops (syn_init sc (start_of fuel tm (SEpisodic a ec s)))))).
Proof.
  intros w d p a ec s WD H. destruct (C63_synthetic w d p _ WD H) as [SY SZ]. apply C63_stack in H.
  destruct H as (cls & B & N & L & inc & seed & a' & c & base & SS & _ & _ & FS & W & _). cbn [scheduler_of] in W.
  assert (E : a' = a /\ 0 < L /\ ep_construct (w_dirs w) c (w_rng w) base B L (snd (make_keys seed)) = Ok (ec, s)).
  { destruct W as (core & [[_ ->] | [Lp (ec' & es & EC & ->)]] & [[_ X]|[_ X]]); try discriminate. inversion X. subst. auto. }
  destruct E as (-> & Lp & EC). exists B, L, c, base. split; [exact (ss_batch _ _ _ _ _ _ _ SS)|].
  split; [exact (episode_setting _ _ (ss_episode _ _ _ _ _ _ _ SS) Lp)|]. split; [exact FS|].
  intros C fuel HE HC HD HR HS HF Hf EF MN.
  destruct (C92_episodes _ _ _ _ _ _ _ _ _ C fuel HE HC EC HD HR HS HF Hf) as (ws & W1 & W2). exists ws.
  split; [intros e; destruct (W1 e) as (X1 & X2 & _); auto|].
  intros GO tm oflow bflow img adapt bounds render ops HO sc. destruct (W2 GO) as [W3 _].
  apply (W3 oflow bflow img sc ops); auto; [apply SZ|]. destruct (sn_repeat _ _ _ _ SY) as (b & _ & B1). exact B1.
Qed.
Print Assumptions C92_make.

Lemma construct_len : forall D c g base B L k ec s, ep_construct D c g base B L k = Ok (ec, s) -> ec_L ec = L.
Proof.
  intros D c g base B L k ec s H. unfold ep_construct in H. destruct (B =? 0); [discriminate|]. destruct (L =? 0); [discriminate|].
  destruct (calculate_starts D L (s_files base)) as [st|]; [|discriminate]. cbn [bind] in H. destruct (sample _ _); [|discriminate].
  cbn [bind] in H. now inversion H.
Qed.

(** The same with a buffer: the number of batches per flow batch is not forced
    to one (C36), and a call of [next_episode] before the first batch has no effect. *)
Theorem C92_make_prefetched : forall w d p B N a ec s, 0 < w_devices w ->
  make w (PDict d) = Ok (SyntheticSampler p (SPrefetch B N (SEpisodic a ec s))) ->
  exists L c base, positive_setting d "batch_size" B /\ positive_setting d "episode_length" L /\ file_stage w d a c base /\
  forall C fuel, enum_ok (w_dirs w) -> choice_ok (w_rng w) -> disk (c_loader c) C -> c_randomize c = false ->
    single_slices C (w_dirs w) (s_files base) -> distinct_files (w_dirs w) (s_files base) -> 2 * (L * B) < fuel ->
    sy_F p = B -> B mod List.length (sy_devices p) = 0 -> sy_bpf p = 1 ->
  exists ws : nat -> list (string * nat),
    (forall e, List.length (ws e) = B /\ (forall x, In x (ws e) -> window (w_dirs w) (s_files base) L x)) /\
    (c_loop c = true \/ (forall e, spread L (ws e)) ->
     forall tm oflow bflow img (adapt : arr -> oflow) (bounds : arr -> bflow) (render : key -> nat -> bflow -> img) ops,
       prompt tm -> Forall (fun o => o = SNext \/ o = SNextEpisode) ops ->
       let sc := @scfg_of w fuel p (SPrefetch B N (SEpisodic a ec s)) oflow bflow img adapt bounds render in
       let shown := shown_of sc adapt bounds C (dir_files (w_dirs w)) L ws in
       let obs := fst (srun sc ops (syn_init sc (start_of fuel tm (SPrefetch B N (SEpisodic a ec s))))) in
       match ops, obs with
       | SNextEpisode :: ops', o :: obs' => o = SUnit /\ plays_as shown (sy_batch p) L 0 0 0 ops' obs'
       | _, _ => plays_as shown (sy_batch p) L 0 0 0 ops obs
       end).
Proof.
  intros w d p B N a ec s WD H. destruct (C63_synthetic w d p _ WD H) as [SY SZ]. apply C63_stack in H.
  destruct H as (cls & B' & N' & L & inc & seed & a' & c & base & SS & _ & _ & FS & W & _). cbn [scheduler_of] in W.
  assert (E : a' = a /\ 0 < L /\ B' = B /\ 1 <= N /\ ep_construct (w_dirs w) c (w_rng w) base B L (snd (make_keys seed)) = Ok (ec, s)).
  { destruct W as (core & [[_ ->] | [Lp (ec' & es & EC & ->)]] & [[_ X]|[Np X]]); try discriminate. inversion X. subst. auto 6. }
  destruct E as (-> & Lp & -> & HN & EC). pose proof (construct_len _ _ _ _ _ _ _ _ _ EC) as EL. subst L.
  exists (ec_L ec), c, base. split; [exact (ss_batch _ _ _ _ _ _ _ SS)|].
  split; [exact (episode_setting _ _ (ss_episode _ _ _ _ _ _ _ SS) Lp)|]. split; [exact FS|].
  intros C fuel HE HC HD HR HS HF Hf EF MN B1.
  destruct (C92_episodes _ _ _ _ _ _ _ _ _ C fuel HE HC EC HD HR HS HF Hf) as (ws & W1 & W2). exists ws.
  split; [intros e; destruct (W1 e) as (X1 & X2 & _); auto|].
  intros GO tm oflow bflow img adapt bounds render ops PR HO sc. destruct (W2 GO) as [_ W3].
  exact (W3 N tm oflow bflow img sc ops HN PR (SZ fuel oflow bflow img adapt bounds render) B1 EF MN HO).
Qed.
Print Assumptions C92_make_prefetched.

(** ** A concrete case: directories "d" (three files) and "e" (two), two windows
    of two steps; the first episode starts at the first file of each, the later
    ones at the second file of "d" and the first of "e". *)
Definition exQ_rng : rng :=
  mkRng (fun _ n => rev (seq 0 n))
        (fun k n m => map (fun i => match k with Child (Seed _) _ => 2 * i | _ => S i end mod n) (seq 0 m)).
Definition exQ_tm : timing := fun _ => ((3, false), (5, false)).
Definition exQ_sc (si : sif) (E : si_flow si = arr) : scfg si (si_flow si) (si_flow si) (key * nat) :=
  mkScfg si (si_flow si) (si_flow si) (key * nat) 2 2 2 1 5 (fun f => f) (fun f => f) (fun k j _ => (k, j)).
Definition exQ_view {oflow img} (o : @sobs oflow img) :=
  match o with SBatch b => inl (ba_files b, ba_done b) | SRaise e => inr (Some e) | SUnit => inr None end.
Definition exQ_run (buffer : bool) (ops : list sop) :=
  match ep_construct (exE exE_enum) (exE_cfg false true) exQ_rng exE_base 2 2 (Seed 1) with
  | Ok (ec, s) =>
      if buffer then
        let sc := exQ_sc (prefetch_sif (episodic_sif ec 20) (Some 2) 2 3) eq_refl in
        map exQ_view (fst (srun sc ops (syn_init sc (mkTst (pinit (sched_of (episodic_sif ec 20) (Some 2) 2) s) exQ_tm))))
      else
        let sc := exQ_sc (episodic_sif ec 20) eq_refl in map exQ_view (fst (srun sc ops (syn_init sc s)))
  | Err _ => []
  end.

(** Two batches, the end of the episode, the next one; the same with a buffer. *)
Example C92_case :
  let ops := [SNext; SNext; SNext; SNextEpisode; SNext; SNextEpisode; SNext] in
  let two x y dn := inl (Some [x; y], Some [dn; dn]) in
  exQ_run false ops =
    [two "d/0.mat" "e/0.mat" false; two "d/1.mat" "e/1.mat" true; inr (Some EpisodeEnd); inr None;
     two "d/1.mat" "e/0.mat" false; inr None; two "d/1.mat" "e/0.mat" false] /\
  exQ_run true ops = exQ_run false ops.
Proof. split; vm_compute; reflexivity. Qed.

(** [next_episode] before the first batch: the second episode, or the first. *)
Example C92_first_call :
  let two x y dn := inl (Some [x; y], Some [dn; dn]) in
  exQ_run false [SNextEpisode; SNext] = [inr None; two "d/1.mat" "e/0.mat" false] /\
  exQ_run true [SNextEpisode; SNext] = [inr None; two "d/0.mat" "e/0.mat" false].
Proof. split; vm_compute; reflexivity. Qed.

Example C92_hypotheses :
  enum_ok (exE exE_enum) /\ choice_ok exQ_rng /\ disk (c_loader (exE_cfg false true)) exE_C /\
  single_slices exE_C (exE exE_enum) (s_files exE_base) /\ distinct_files (exE exE_enum) (s_files exE_base) /\ prompt exQ_tm /\
  (forall ec s, ep_construct (exE exE_enum) (exE_cfg false true) exQ_rng exE_base 2 2 (Seed 1) = Ok (ec, s) ->
     forall e, spread 2 (draws (Seed 1) ec e)).
Proof.
  split; [apply exE_enum_ok|]. split.
  { intros k n m H. cbn [exQ_rng rchoice]. rewrite map_length, seq_length. split; [reflexivity|]. intros i Hi. apply in_map_iff in Hi.
    destruct Hi as (j & <- & _). apply Nat.mod_upper_bound. lia. }
  split; [apply loader_of_disk|]. split; [apply exE_single|]. split; [apply exE_distinct|].
  split; [intros i; cbn; repeat split; lia|].
  intros ec s H e. vm_compute in H. injection H as <- _.
  assert (S2 : forall a b, spread 2 [("d", a); ("e", b)]).
  { intros a b. split; [|intros _ d x H; cbn in *; congruence].
    intros [|[|i]] x H1 H2; cbn in *; try congruence; destruct i; discriminate. }
  destruct e as [|e]; [apply S2|]. apply (S2 1 0).
Qed.
