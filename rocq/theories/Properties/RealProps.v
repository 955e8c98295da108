(** Property C98: the real-image sampler, from its constructor and from [make]. *)
From Coq Require Import List Arith ZArith QArith String Bool Lia Permutation.
From Verif Require Import Prelude Model.PyVal Model.Types Model.Base Model.Files Model.Loaders Model.Episodic Model.Prefetch
  Model.Sampler Model.Stack Model.Geometry Model.Make Model.Keys Model.Real
  Spec.TypesSpec Spec.BaseSpec Spec.FilesSpec Spec.EpisodicSpec Spec.SamplerSpec Spec.StackSpec Spec.MakeSpec Spec.PipelineSpec
  Spec.RealSpec
  Proofs.BaseFinal Proofs.EpisodicProofs Proofs.SamplerProofs Proofs.StackProofs Proofs.PipelineProofs Proofs.EpisodePipeline
  Proofs.LoaderProofs Proofs.MakeProofs Proofs.RealProofs
  Properties.MakeProps Properties.SamplerProps Properties.EpisodicProps Properties.PipelineProps Properties.EpisodePipelineProps.
Import ListNotations.
Local Open Scope string_scope.
Local Open Scope nat_scope.

(** * C98 *)

(** The constructor: accepted exactly if the batch size is a positive integer
    and the file scheduler, under however many wrappers, loads images. *)
Theorem C98_accepts : forall sch v B,
  real_sampler sch v = Ok B <-> integer v (Z.of_nat B) /\ 0 < B /\ loads_images sch.
Proof.
  intros sch v B. unfold real_sampler. rewrite bind_ok. split.
  - intros (B' & E & H). apply bind_ok in H. destruct H as (x & E' & H). injection H as <-. apply pos_int_ok in E.
    destruct (init_verdict sch) as [[A _]|[_ Z]]; [destruct E; auto | congruence].
  - intros (I1 & P & A). exists B. split; [apply pos_int_ok; auto|].
    destruct (init_verdict sch) as [[_ E]|[Z _]]; [rewrite E; reflexivity | contradiction].
Qed.
Print Assumptions C98_accepts.

Theorem C98_refuses : forall sch v, (forall B, ~ (integer v (Z.of_nat B) /\ 0 < B /\ loads_images sch)) ->
  real_sampler sch v = Err ValueError.
Proof.
  intros sch v H. destruct (real_sampler sch v) as [B|e] eqn:E; [exfalso; apply (H B), C98_accepts, E|].
  unfold real_sampler in E. destruct (pos_int v) as [B|e'] eqn:P; cbn [bind] in E.
  - destruct (init_verdict sch) as [[_ Z]|[_ Z]]; rewrite Z in E; [discriminate | symmetry; exact E].
  - injection E as <-. rewrite (pos_int_err _ _ P). reflexivity.
Qed.
Print Assumptions C98_refuses.

(** From a configuration: its entry "batch_size", or 1; this is also what [make] hands out. *)
Theorem C98_from_config : forall sch d B,
  (real_from_config sch d = Ok B <-> exists v, setting d "batch_size" (PInt 1) v /\ integer v (Z.of_nat B) /\ 0 < B /\ loads_images sch) /\
  (forall w, make w (PDict d) = Ok (RealSampler B sch) -> real_from_config sch d = Ok B).
Proof.
  intros sch d B.
  assert (A : real_from_config sch d = Ok B <-> exists v, setting d "batch_size" (PInt 1) v /\ integer v (Z.of_nat B) /\ 0 < B /\ loads_images sch).
  { unfold real_from_config, setting. rewrite C98_accepts, dict_get_given. destruct (given "batch_size" d) as [v|].
    - split; [intros H; exists v; auto|]. intros (v' & [Q|[Z _]] & G); [injection Q as <-; exact G | discriminate].
    - split; [intros H; exists (PInt 1); auto|]. intros (v' & [Z|[_ ->]] & G); [discriminate | exact G]. }
  split; [exact A|]. intros w H. apply A. apply C63_real in H. destruct H as (N & L & seed & a & c & s & SS & _ & IM & _ & W).
  destruct (ss_batch _ _ _ _ _ _ _ SS) as (v & G & I1 & P). exists v. split; [left; exact G|]. split; [exact I1|]. split; [exact P|].
  destruct (init_verdict sch) as [[X _]|[_ X]]; [exact X|]. rewrite (stack_images_ok _ _ _ _ _ _ _ _ _ W), IM in X. discriminate.
Qed.
Print Assumptions C98_from_config.

(** [reset]: with the scheduler's reset and no shuffling, everything is shown
    again from the start; without it nothing changes at all. *)
Theorem C98_reset : forall c fl k fuel B ops1 ops2, c_randomize c = false ->
  let si := base_sif c fuel in
  fst (rrun si B (ops1 ++ SReset true :: ops2) (init c fl k)) =
  (fst (rrun si B ops1 (init c fl k)) ++ SUnit :: fst (rrun si B ops2 (init c fl k)))%list.
Proof.
  intros c fl k fuel B ops1 ops2 HR si. subst si. rewrite rrun_app. destruct (rrun_base_frame c fuel B ops1 (init c fl k) HR) as [F1 F2].
  destruct (rrun (base_sif c fuel) B ops1 (init c fl k)) as [r1 u1]. cbn [snd fst] in *. cbn [rrun do_rop real_reset base_sif si_reset].
  assert (E : reset c u1 = init c fl k) by (unfold reset; rewrite HR, F1, F2; unfold init; rewrite HR; reflexivity). rewrite E.
  match goal with |- context [rrun ?a ?b ?c0 ?d0] => destruct (rrun a b c0 d0) as [r2 u2] end. reflexivity.
Qed.
Print Assumptions C98_reset.

Theorem C98_reset_only_itself : forall si B ops1 ops2 u,
  exists r1 r2, List.length r1 = List.length ops1 /\ fst (rrun si B (ops1 ++ ops2) u) = (r1 ++ r2)%list /\
    fst (rrun si B (ops1 ++ SReset false :: ops2) u) = (r1 ++ SUnit :: r2)%list.
Proof.
  intros si B ops1 ops2 u. rewrite !rrun_app.
  assert (LE : List.length (fst (rrun si B ops1 u)) = List.length ops1).
  { revert u. induction ops1 as [|o ops1 IH]; intros u; [reflexivity|]. cbn [rrun]. destruct (do_rop si B o u) as [r u1]. specialize (IH u1).
    destruct (rrun si B ops1 u1). cbn in *. congruence. }
  destruct (rrun si B ops1 u) as [r1 u1]. cbn [fst] in LE. cbn [rrun do_rop real_reset]. destruct (rrun si B ops2 u1) as [r2 u2].
  exists r1, r2. auto.
Qed.
Print Assumptions C98_reset_only_itself.

(** ** From a configuration with images to the batches. *)

Lemma stage_pictured : forall w d a c s C, file_stage w d a c s -> fa_class a = Mat -> fa_images a = true -> disk (c_loader c) C -> pictured C.
Proof.
  intros w d a c s C FS MA IM HD. destruct (fst_loader _ _ _ _ _ FS) as [E _]. rewrite E in HD. unfold loader_for in HD. rewrite MA, IM in HD.
  exact (mat_pictured _ _ _ _ _ HD).
Qed.

(** No episodes. *)
Theorem C98_files : forall w d B a c s, make w (PDict d) = Ok (RealSampler B (SFile a c s)) ->
  positive_setting d "batch_size" B /\
  exists files, listed w d a c files /\ c_loader c = loader_for w a /\ c_rng c = w_rng w /\
  forall C fuel tm, usable c C files fuel ->
  exists x, stream_of (c_randomize c) (c_loop c) C files x /\
    played_real B (c_loop c) x (answer_real (sif_of fuel (SFile a c s)) B (start_of fuel tm (SFile a c s))).
Proof.
  intros w d B a c s H. apply C63_real in H. destruct H as (N & L & seed & a' & c' & s' & SS & MA & IM & FS & W).
  assert (E : a' = a /\ c' = c /\ s' = s).
  { destruct W as (core & [[_ ->] | [_ (ec & es & _ & ->)]] & [[_ X]|[_ X]]); try discriminate. now inversion X. }
  destruct E as (-> & -> & ->). split; [exact (ss_batch _ _ _ _ _ _ _ SS)|].
  pose proof (fun C => stage_pictured w d a c s C FS MA IM) as PI.
  destruct FS as [_ [F1 F2] (fl & segs & F3 & F4 & _ & _ & F5 & _)].
  exists (List.concat segs). split; [exists fl, segs; auto|]. split; [exact F1|]. split; [exact F2|].
  intros C fuel tm U. destruct (ss_batch _ _ _ _ _ _ _ SS) as (v & _ & _ & Bp).
  destruct (C90_real c C (List.concat segs) (Seed 0) fuel B U Bp) as (x & ST & PL & _).
  { exact (pictured_epoch C _ (PI C (us_disk _ _ _ _ U)) (us_faults _ _ _ _ U)). }
  exists x. split; [exact ST|]. rewrite <- F5 in PL. exact PL.
Qed.
Print Assumptions C98_files.

(** The same with a buffer. *)
Theorem C98_prefetched : forall w d B B' N a c s, make w (PDict d) = Ok (RealSampler B (SPrefetch B' N (SFile a c s))) ->
  B' = B /\ positive_setting d "batch_size" B /\
  exists files, listed w d a c files /\ c_loader c = loader_for w a /\ c_rng c = w_rng w /\
  forall C fuel tm, usable c C files fuel -> prompt tm ->
  exists x, stream_of (c_randomize c) (c_loop c) C files x /\
    played_real B (c_loop c) x
      (answer_real (sif_of fuel (SPrefetch B' N (SFile a c s))) B (start_of fuel tm (SPrefetch B' N (SFile a c s)))).
Proof.
  intros w d B B' N a c s H. apply C63_real in H. destruct H as (N' & L & seed & a' & c' & s' & SS & MA & IM & FS & W).
  assert (E : a' = a /\ c' = c /\ s' = s /\ B' = B /\ 1 <= N).
  { destruct W as (core & [[_ ->] | [_ (ec & es & _ & ->)]] & [[_ X]|[Np X]]); try discriminate. inversion X. subst. repeat split. lia. }
  destruct E as (-> & -> & -> & -> & HN). split; [reflexivity|]. split; [exact (ss_batch _ _ _ _ _ _ _ SS)|].
  pose proof (fun C => stage_pictured w d a c s C FS MA IM) as PI.
  destruct FS as [_ [F1 F2] (fl & segs & F3 & F4 & _ & _ & F5 & _)].
  exists (List.concat segs). split; [exists fl, segs; auto|]. split; [exact F1|]. split; [exact F2|].
  intros C fuel tm U PR. destruct (ss_batch _ _ _ _ _ _ _ SS) as (v & _ & _ & Bp).
  destruct (C90_real c C (List.concat segs) (Seed 0) fuel B U Bp) as (x & ST & _ & PL).
  { exact (pictured_epoch C _ (PI C (us_disk _ _ _ _ U)) (us_faults _ _ _ _ U)). }
  exists x. split; [exact ST|]. specialize (PL N tm HN PR). rewrite <- F5 in PL. exact PL.
Qed.
Print Assumptions C98_prefetched.

(** Episodes: step [t] of episode [e], if its windows are spread (C18). *)
Definition shown_real (B : nat) (C : string -> content) (files : string -> list string) (L : nat) (ws : nat -> list (string * nat))
    (e t m : nat) (b : batch arr (arr * arr)) : Prop :=
  spread L (ws e) -> shows_real_step B C files (ws e) t b.

Theorem C98_episodes : forall w d B a ec s, make w (PDict d) = Ok (RealSampler B (SEpisodic a ec s)) ->
  exists L c base, positive_setting d "batch_size" B /\ positive_setting d "episode_length" L /\ file_stage w d a c base /\
  forall C fuel, enum_ok (w_dirs w) -> choice_ok (w_rng w) -> disk (c_loader c) C -> c_randomize c = false ->
    single_slices C (w_dirs w) (s_files base) -> distinct_files (w_dirs w) (s_files base) -> 2 * (L * B) < fuel ->
  exists ws : nat -> list (string * nat),
    (forall e, List.length (ws e) = B /\ (forall x, In x (ws e) -> window (w_dirs w) (s_files base) L x)) /\
    (c_loop c = true \/ (forall e, spread L (ws e)) ->
     forall tm ops, Forall (fun o => o = SNext \/ o = SNextEpisode) ops ->
       plays_as (shown_real B C (dir_files (w_dirs w)) L ws) B L 0 0 0 ops
         (fst (rrun (sif_of fuel (SEpisodic a ec s)) B ops (start_of fuel tm (SEpisodic a ec s))))).
Proof.
  intros w d B a ec s H. apply C63_real in H. destruct H as (N & L & seed & a' & c & base & SS & MA & IM & FS & W).
  assert (E : a' = a /\ 0 < L /\ ep_construct (w_dirs w) c (w_rng w) base B L (snd (make_keys seed)) = Ok (ec, s)).
  { destruct W as (core & [[_ ->] | [Lp (ec' & es & EC & ->)]] & [[_ X]|[_ X]]); try discriminate. inversion X. subst. auto. }
  destruct E as (-> & Lp & EC). exists L, c, base. split; [exact (ss_batch _ _ _ _ _ _ _ SS)|].
  split; [exact (episode_setting _ _ (ss_episode _ _ _ _ _ _ _ SS) Lp)|]. split; [exact FS|].
  intros C fuel HE HC HD HR HS HF Hf. set (k := snd (make_keys seed)) in *. exists (draws k ec).
  split; [intros e; destruct (draws_ok _ c _ base B L k ec s HE HC EC e) as (X1 & X2 & _); auto|].
  intros GO tm ops HO.
  pose proof (episodes_are _ c _ base B L k ec s C fuel HE HC EC HD HR HS HF Hf GO) as EP.
  apply (real_plays (episodic_sif ec fuel) B L _ _ (fun e t b => spread L (draws k ec e) -> shows_real_step B C (dir_files (w_dirs w)) (draws k ec e) t b) EP);
    [|exact HO | exact (at_first _ c _ base B L k ec s fuel HE HC EC HR Hf)].
  intros e t HT.
  destruct (fed_real _ c _ base B L k ec s C fuel HE HC EC HD HR HS HF Hf (stage_pictured _ _ _ _ _ _ FS MA IM HD) GO e t HT) as (r1 & r2 & R1 & R2 & R).
  exists r1, r2. split; [exact R1|]. split; [exact R2|]. intros SP. exact (R SP _).
Qed.
Print Assumptions C98_episodes.

(** With a buffer; a first call of [next_episode] only starts the first episode. *)
Theorem C98_prefetched_episodes : forall w d B B' N a ec s, make w (PDict d) = Ok (RealSampler B (SPrefetch B' N (SEpisodic a ec s))) ->
  B' = B /\
  exists L c base, positive_setting d "batch_size" B /\ positive_setting d "episode_length" L /\ file_stage w d a c base /\
  forall C fuel, enum_ok (w_dirs w) -> choice_ok (w_rng w) -> disk (c_loader c) C -> c_randomize c = false ->
    single_slices C (w_dirs w) (s_files base) -> distinct_files (w_dirs w) (s_files base) -> 2 * (L * B) < fuel ->
  exists ws : nat -> list (string * nat),
    (forall e, List.length (ws e) = B /\ (forall x, In x (ws e) -> window (w_dirs w) (s_files base) L x)) /\
    (c_loop c = true \/ (forall e, spread L (ws e)) ->
     forall tm ops, prompt tm -> Forall (fun o => o = SNext \/ o = SNextEpisode) ops ->
       let shown := shown_real B C (dir_files (w_dirs w)) L ws in
       let sch := SPrefetch B' N (SEpisodic a ec s) in
       let obs := fst (rrun (sif_of fuel sch) B ops (start_of fuel tm sch)) in
       match ops, obs with
       | SNextEpisode :: ops', o :: obs' => o = SUnit /\ plays_as shown B L 0 0 0 ops' obs'
       | _, _ => plays_as shown B L 0 0 0 ops obs
       end).
Proof.
  intros w d B B' N a ec s H. apply C63_real in H. destruct H as (N' & L & seed & a' & c & base & SS & MA & IM & FS & W).
  assert (E : a' = a /\ 0 < L /\ B' = B /\ 1 <= N /\ ep_construct (w_dirs w) c (w_rng w) base B L (snd (make_keys seed)) = Ok (ec, s)).
  { destruct W as (core & [[_ ->] | [Lp (ec' & es & EC & ->)]] & [[_ X]|[Np X]]); try discriminate. inversion X. subst. auto 6. }
  destruct E as (-> & Lp & -> & HN & EC). pose proof (construct_len _ _ _ _ _ _ _ _ _ EC) as EL. subst L. split; [reflexivity|].
  exists (ec_L ec), c, base. split; [exact (ss_batch _ _ _ _ _ _ _ SS)|].
  split; [exact (episode_setting _ _ (ss_episode _ _ _ _ _ _ _ SS) Lp)|]. split; [exact FS|].
  intros C fuel HE HC HD HR HS HF Hf. set (k := snd (make_keys seed)) in *. exists (draws k ec).
  split; [intros e; destruct (draws_ok _ c _ base B _ k ec s HE HC EC e) as (X1 & X2 & _); auto|].
  intros GO tm ops PR HO. cbv zeta. cbn [sif_of start_of episode_len]. set (L := ec_L ec) in *.
  pose proof (episodes_are _ c _ base B L k ec s C fuel HE HC EC HD HR HS HF Hf GO) as EP.
  pose proof (episodes_end _ c _ base B L k ec s fuel HE HC EC) as EE.
  pose proof (prefetch_episodic (episodic_sif ec fuel) B N L _ _ HN Lp EP EE) as EPP.
  set (pf := prefetch_sif (episodic_sif ec fuel) (Some L) B N) in *.
  assert (V : forall ops', Forall (fun o => o = SNext \/ o = SNextEpisode) ops' -> forall tm', prompt tm' ->
     plays_as (shown_real B C (dir_files (w_dirs w)) L (draws k ec)) B L 0 0 0 ops'
       (fst (rrun pf B ops' (mkTst (Prefetch.start _ (pinit (sched_of (episodic_sif ec fuel) (Some L) B) s)) tm')))).
  { intros ops' HO' tm' PR'.
    apply (real_plays pf B L _ _ (fun e t b => spread L (draws k ec e) -> shows_real_step B C (dir_files (w_dirs w)) (draws k ec e) t b) EPP); [|exact HO'|].
    - intros e t HT.
      destruct (fed_real _ c _ base B L k ec s C fuel HE HC EC HD HR HS HF Hf (stage_pictured _ _ _ _ _ _ FS MA IM HD) GO e t HT) as (r1 & r2 & R1 & R2 & R).
      exists r1, r2. split; [exact R1|]. split; [exact R2|]. intros SP. exact (R SP _).
    - apply (started_first (episodic_sif ec fuel) B N L _ _ HN Lp); auto. exact (at_first _ c _ base B L k ec s fuel HE HC EC HR Hf). }
  subst pf. destruct ops as [|[|r|] ops].
  - exact I.
  - match goal with |- plays_as _ _ _ _ _ _ (SNext :: ops) (fst (rrun ?pf B _ ?u0)) =>
      assert (E1 : do_rop pf B SNext u0 = do_rop pf B SNext (mkTst (Prefetch.start _ (pinit (sched_of (episodic_sif ec fuel) (Some L) B) s)) (warmed tm))) end.
    { cbn [do_rop]. unfold real_next, sampler_next, real_get_next. cbn [prefetch_sif si_protocol si_steps si_get].
      assert (NZ : (Z.of_nat L - Z.of_nat 0 =? 0)%Z = false) by (apply Z.eqb_neq; lia).
      change (@psteps_remaining (sched_of (episodic_sif ec fuel) (Some L) B) (t_st (mkTst (pinit (sched_of (episodic_sif ec fuel) (Some L) B) s) tm)))
        with (Z.of_nat L - Z.of_nat 0)%Z.
      change (@psteps_remaining (sched_of (episodic_sif ec fuel) (Some L) B) (t_st (mkTst (Prefetch.start _ (pinit (sched_of (episodic_sif ec fuel) (Some L) B) s)) (warmed tm))))
        with (Z.of_nat L - Z.of_nat 0)%Z.
      rewrite NZ, first_get. reflexivity. }
    pose proof (V (SNext :: ops) HO (warmed tm) (warmed_prompt tm PR)) as W'. cbn [rrun] in W' |- *. rewrite E1. exact W'.
  - exfalso. inversion HO as [|? ? X _]; destruct X; discriminate.
  - cbn [rrun]. cbn [do_rop]. unfold real_next_episode. cbn [prefetch_sif si_protocol si_next].
    rewrite (first_next (episodic_sif ec fuel) B N L _ _ Lp EP EE). inversion HO as [|? ? _ HO']; subst.
    pose proof (V ops HO' (later tm 1) (prompt_later tm 1 PR)) as W'.
    match type of W' with context [rrun ?x ?y ops ?v] =>
      match goal with |- context [rrun ?p ?q ops ?u0] => change (rrun p q ops u0) with (rrun x y ops v) end;
      destruct (rrun x y ops v) as [rs s2] end.
    cbn [fst] in *. split; [reflexivity | exact W'].
Qed.
Print Assumptions C98_prefetched_episodes.

(** * C91 for real images *)

(** Over a scheduler without episodes the consumer is told so. *)
Theorem C91_real_plain : forall si B ops u, si_protocol si = false -> Forall2 without_episodes ops (fst (rrun si B ops u)).
Proof.
  intros si B ops u PT. revert u. induction ops as [|o ops IH]; intros u; [constructor|]. cbn [rrun].
  destruct (do_rop si B o u) as [r u1] eqn:E. specialize (IH u1). destruct (rrun si B ops u1) as [rs u2]. cbn [fst] in *.
  constructor; [|exact IH]. destruct o; cbn [do_rop] in E.
  - unfold real_next, sampler_next in E. rewrite PT in E. cbn [andb] in E. unfold real_get_next in E.
    destruct (si_get si B u) as [[d|e] u'] eqn:G; [|injection E as <- <-; exact I].
    destruct (fd_images1 d) as [a|], (fd_images2 d) as [b|]; injection E as <- <-; try exact I. reflexivity.
  - injection E as <- <-. reflexivity.
  - unfold real_next_episode in E. rewrite PT in E. injection E as <- <-. reflexivity.
Qed.
Print Assumptions C91_real_plain.

(** Through a prefetcher it is not. *)
Theorem C91_real_prefetched : forall si B N BS v tm ops, 1 <= N ->
  Forall2 (looks_episodic BS) ops (fst (rrun (prefetch_sif si None B N) BS ops (mkTst (pinit (sched_of si None B) v) tm))).
Proof.
  intros si B N BS v tm ops HN.
  assert (G : forall ops u, calm si None B N u -> Forall2 (looks_episodic BS) ops (fst (rrun (prefetch_sif si None B N) BS ops u))).
  { clear ops. induction ops as [|o ops IH]; intros u CA; [constructor|]. cbn [rrun].
    destruct (do_rop (prefetch_sif si None B N) BS o u) as [r u1] eqn:E. specialize (IH u1).
    destruct (rrun (prefetch_sif si None B N) BS ops u1) as [rs u2]. cbn [fst] in *.
    destruct o; cbn [do_rop] in E.
    - unfold real_next, sampler_next, real_get_next in E. cbn [prefetch_sif si_protocol si_steps si_get] in E.
      cbn [psteps_remaining sched_of sc_len Z.eqb andb] in E.
      destruct (pf_get si None B N BS u) as [rg u'] eqn:EG. pose proof (calm_get si None B N HN _ _ _ _ CA EG) as CA'.
      assert (NE : rg <> Err EpisodeEnd).
      { unfold pf_get in EG. set (s0 := wait si None B N (fst (t_time u 0)) (t_st u)) in *.
        destruct (Prefetch.pstep (sched_of si None B) B N s0 (LCallGet BS)) as [[ev s1']|] eqn:EP; [|injection EG as <- <-; discriminate].
        destruct (call_get_cases si None B N _ _ _ _ EP) as (_ & [(_ & -> & _) | [(_ & (L & X & _) & _) | (_ & _ & -> & _)]]); [|discriminate|].
        - injection EG as <- <-; discriminate.
        - destruct (Prefetch.pstep (sched_of si None B) B N (wait si None B N (snd (t_time u 0)) s1') LTake) as [[[|[]] s3]|]; injection EG as <- <-; discriminate. }
      destruct rg as [d|e].
      + cbv beta iota zeta in E. repeat match type of E with context [match ?x with Some _ => _ | None => _ end] => destruct x; cbv beta iota zeta in E end;
          injection E as <- <-; (constructor; [|apply IH, CA']); cbn; [reflexivity | discriminate | discriminate].
      + injection E as <- <-. constructor; [|apply IH, CA']. cbn. congruence.
    - injection E as <- <-. constructor; [reflexivity|]. apply IH. unfold real_reset. destruct scheduler_reset; [apply calm_reset; auto | exact CA].
    - unfold real_next_episode in E. cbn [prefetch_sif si_protocol si_next] in E.
      destruct (pf_next si None B N u) as [rn u'] eqn:EN. destruct (calm_next si None B N HN _ _ _ CA EN) as [-> CA'].
      injection E as <- <-. constructor; [reflexivity|]. apply IH. exact CA'. }
  apply G. exact (calm_init si None B N v tm).
Qed.
Print Assumptions C91_real_prefetched.

(** ** Concrete cases: three .mat files of 4 x 4 pixels; the flow field, the
    first and the second image of file n are constantly n, 10 n and 100 n. *)
Definition exR_const (shape : list nat) (q : Q) : arr := mkArr shape (repeat q (size shape)).
Definition exR_number (p : string) : Q := if String.eqb p "d/flow_1.mat" then 1 else if String.eqb p "d/flow_2.mat" then 2 else 3.
Definition exR_mat : mat_disk :=
  mkMat (fun p => let n := exR_number p in
           Ok [("V", MArr (exR_const [4; 4; 2] n)); ("I0", MArr (exR_const [4; 4] (10 * n))); ("I1", MArr (exR_const [4; 4] (100 * n)))])
        (fun _ => false) (fun _ => Err ValueError).
Definition exR_world : world :=
  let w := exM_world in
  mkWorld (w_exists w) (w_fs w) (w_yaml w) (w_h5 w) (w_npy w) (w_jpg w) exR_mat (w_pil w) (w_dirs w) (w_rng w) (w_devices w)
    (w_npload w) (w_num w) (w_conv w).
Definition exR_dict (batch buffer len : Z) (loop : bool) : list (string * pyval) :=
  exM_dict ".mat" batch batch buffer len (("randomize", PBool false) :: ("loop", PBool loop) :: with_images).
Definition exR_first (a : arr) : Q := hd 0%Q (data a).
Definition exR_view (o : @sobs arr (arr * arr)) :=
  match o with
  | SBatch b => inl (map (fun i => (exR_first (fst i), exR_first (snd i))) (ba_images b), map exR_first (ba_flows b), ba_files b, ba_mask b, ba_done b)
  | SRaise e => inr (Some e)
  | SUnit => inr None
  end.
(** The four stacks one by one, so that the type of what is shown is plain. *)
Definition exR_run (batch buffer len : Z) (loop : bool) (ops : list sop) :=
  match make exR_world (PDict (exR_dict batch buffer len loop)) with
  | Ok (RealSampler B (SFile a c s)) => map exR_view (fst (rrun (base_sif c 20) B ops s))
  | Ok (RealSampler B (SEpisodic a ec s)) => map exR_view (fst (rrun (episodic_sif ec 20) B ops s))
  | Ok (RealSampler B (SPrefetch B' N (SFile a c s))) =>
      map exR_view (fst (rrun (prefetch_sif (base_sif c 20) None B' N) B ops (start_of 20 exQ_tm (SPrefetch B' N (SFile a c s)))))
  | Ok (RealSampler B (SPrefetch B' N (SEpisodic a ec s))) =>
      map exR_view (fst (rrun (prefetch_sif (episodic_sif ec 20) (Some (ec_L ec)) B' N) B ops (start_of 20 exQ_tm (SPrefetch B' N (SEpisodic a ec s)))))
  | _ => []
  end.

(** Batches of two, one pass, reset, again; the same with a buffer. *)
Example C98_case :
  let ops := [SNext; SNext; SNext; SReset true; SReset false; SNext] in
  let first := inl ([(10, 100); (20, 200)]%Q, [1; 2]%Q, Some ["d/flow_1.mat"; "d/flow_2.mat"], Some [true; true], None) in
  exR_run 2 0 0 false ops =
    [first;
     inl ([(30, 300); (0, 0)]%Q, [3; 0]%Q, Some ["d/flow_3.mat"; ""], Some [true; false], None);
     inr (Some StopIteration); inr None; inr None; first] /\
  map (fun o => match o with inl (x, _) => inl x | inr e => inr e end) (exR_run 2 3 0 false ops) =
  map (fun o => match o with inl (x, _) => inl x | inr e => inr e end) (exR_run 2 0 0 false ops).
Proof. split; vm_compute; reflexivity. Qed.

(** Episodes of two steps, one window; the same with a buffer. *)
Example C98_case_episodes :
  let ops := [SNext; SNext; SNext; SNextEpisode; SNext] in
  let one (n : Q) x dn := inl ([((10 * n)%Q, (100 * n)%Q)], [n], Some [x], Some [true], Some [dn]) in
  exR_run 1 0 2 true ops =
    [one 1%Q "d/flow_1.mat" false; one 2%Q "d/flow_2.mat" true; inr (Some EpisodeEnd); inr None; one 1%Q "d/flow_1.mat" false] /\
  exR_run 1 3 2 true ops = exR_run 1 0 2 true ops.
Proof. split; vm_compute; reflexivity. Qed.

(** These files and directories meet the hypotheses. *)
Definition exR_C : string -> content := mat_content (w_pil exR_world) exR_mat true 4 4.
Lemma exR_slice : forall p, exists x, exR_C p = Slices [x] /\ stackable [4; 4; 2] [4; 4] [4; 4] x.
Proof.
  intros p. eexists. split; [unfold exR_C, mat_content; lazy -[exR_number Qmult]; reflexivity|].
  split; cbn [sd_flow sd_im1 sd_im2 sd_files]; [split; reflexivity| | |eauto]; intros a [= <-]; split; reflexivity.
Qed.

Example C98_hypotheses : forall loop fl, fl <> [] -> 2 * List.length fl < 20 ->
  let c := mkCfg (mat_loader (w_pil exR_world) exR_mat true 4 4) (w_rng exR_world) false loop in
  let D := w_dirs exR_world in
  usable c exR_C fl 20 /\ enum_ok D /\ choice_ok (w_rng exR_world) /\ single_slices exR_C D fl /\ distinct_files D fl /\ prompt exQ_tm /\
  (exists a, fa_class a = Mat /\ fa_images a = true /\ loader_for exR_world a = c_loader c).
Proof.
  intros loop fl NE Hf c D.
  assert (ST : forall x, In x (epoch exR_C fl) -> stackable [4; 4; 2] [4; 4] [4; 4] x).
  { intros x Hx. apply in_flat_map in Hx. destruct Hx as (p & _ & Hx). destruct (exR_slice p) as (y & E & S_). unfold slices_of in Hx.
    rewrite E in Hx. destruct Hx as [<-|[]]. exact S_. }
  split.
  { constructor.
    - apply mat_disk_ok.
    - discriminate.
    - intros p l e _ E. destruct (exR_slice p) as (x & E' & _). congruence.
    - exists [4; 4; 2], [4; 4], [4; 4]. auto.
    - destruct fl as [|p fl]; [contradiction|]. destruct (exR_slice p) as (x & E & _). cbn [epoch flat_map]. unfold slices_of. rewrite E. discriminate.
    - exact Hf. }
  split; [intros l; split; [apply NoDup_nodup | intros x; apply nodup_In]|].
  split. { intros k n m H. cbn [exR_world exM_world w_rng exM_rng rchoice]. rewrite map_length, seq_length. split; [reflexivity|].
           intros i Hi. apply in_map_iff in Hi. destruct Hi as (j & <- & _). apply Nat.mod_upper_bound. lia. }
  split. { exists [4; 4; 2], [4; 4], [4; 4]. intros d p _ _. apply exR_slice. }
  split. { intros d d' i j p [(q & _ & <-) _] [(q' & _ & <-) _] H1 H2. split; [reflexivity|].
           assert (F : dir_files D "d" = ["d/flow_1.mat"; "d/flow_2.mat"; "d/flow_3.mat"]) by (vm_compute; reflexivity).
           change (d_key D q) with "d" in H1. change (d_key D q') with "d" in H2. rewrite F in H1, H2.
           destruct i as [|[|[|i]]], j as [|[|[|j]]]; cbn in H1, H2; try reflexivity; try congruence; solve [destruct i; discriminate | destruct j; discriminate]. }
  split; [intros i; cbn; repeat split; lia|].
  exists (mkFattrs Mat true (4, 4)). repeat split.
Qed.
