(** Property C106: the command-line program. *)
From Coq Require Import List Arith ZArith QArith String Bool Lia.
From Verif Require Import Prelude Model.PyVal Model.Types Model.Base Model.Files Model.Loaders Model.Episodic Model.Prefetch
  Model.Sampler Model.Stack Model.Geometry Model.Make Model.Real Model.Shutdown Model.Main
  Spec.BaseSpec Spec.EpisodicSpec Spec.SamplerSpec Spec.StackSpec Spec.MakeSpec Spec.PipelineSpec Spec.RealSpec Spec.MainSpec
  Proofs.LoaderProofs Proofs.MainProofs
  Properties.MakeProps Properties.PipelineProps Properties.EpisodePipelineProps Properties.RealProps.
Import ListNotations.
Local Open Scope string_scope.
Local Open Scope nat_scope.

(** * C106 *)

(** How a run goes, whatever the sampler, the disk and the user do: the batches
    are those [next] returned, the user said yes after all but the last; and it
    is still running, or it ended in one of the ways listed, after exactly one
    call of [shutdown], which comes last. *)
Theorem C106_run : forall S o i (next : S -> result (batch o i) * S) off W dir num fuel start,
  (forall bs s', gives next start bs s' -> Forall paired bs) ->
  let '(l, v, s) := session next off W dir num fuel start in
  exists bs s', gives next start bs s' /\
    let n := List.length bs in
    let agreed := forall m, m < n -> went_on W num m in
    (forall m, 1 + m < n -> went_on W num m) /\
    match v with
    | None =>
        n = fuel /\ agreed /\ wrote l = gallery dir num 0 bs /\ calls_of l = n /\ ~ In Off l
    | Some r =>
        (exists l0, l = (l0 ++ [Off])%list /\ ~ In Off l0) /\
        match r with
        | Ok _ =>
            wrote l = gallery dir num 0 bs /\
            (agreed /\ fst (next s') = Err StopIteration /\ calls_of l = 1 + n \/
             (0 < num)%Z /\ calls_of l = n /\ exists m c, n = 1 + m /\ x_say W m = Ok c /\ c <> "y" /\ c <> "Y")
        | Err e =>
            wrote l = gallery dir num 0 bs /\
            (agreed /\ fst (next s') = Err e /\ e <> StopIteration /\ calls_of l = 1 + n \/
             (0 < num)%Z /\ calls_of l = n /\ exists m, n = 1 + m /\ x_say W m = Err e) \/
            calls_of l = n /\ exists p d rest, gallery dir num 0 bs = (wrote l ++ (p, d) :: rest)%list /\
              (x_write W p = Some e \/ exists k j, x_folder W k j = Some e)
        end
    end.
Proof.
  intros S o i next off W dir num fuel start P. unfold session. pose proof (loop_ends next W dir num fuel 0 start P) as H.
  destruct (main_loop next W dir num fuel 0 start) as [[l v] s2]. destruct H as (NO & bs & s' & G & ST & NN & EN).
  assert (WO : wrote (l ++ [Off]) = wrote l) by (rewrite wrote_app; apply app_nil_r).
  assert (CO : calls_of (l ++ [Off]) = calls_of l) by (rewrite calls_app; apply Nat.add_0_r).
  destruct v as [v|]; exists bs, s'; (split; [exact G|]); (split; [exact ST|]).
  - split; [exists l; auto|]. rewrite WO, CO. destruct v; exact EN.
  - destruct (NN eq_refl) as [L _]. destruct EN as (A1 & A2 & A3). auto.
Qed.
Print Assumptions C106_run.

(** No file is written twice. *)
Theorem C106_names : forall o i dir num bs, NoDup (map fst (@gallery o i dir num 0 bs)).
Proof. intros. apply gallery_nodup. Qed.
Print Assumptions C106_names.

(** If nothing fails and the user always goes on, the run ends only with the
    sampler: normally at StopIteration, otherwise with the sampler's exception,
    every batch having been shown. *)
Theorem C106_to_the_end : forall S o i (next : S -> result (batch o i) * S) off W dir num start bs s' e s2 fuel,
  gives next start bs s' -> Forall paired bs -> next s' = (Err e, s2) -> willing W num -> List.length bs < fuel ->
  exists l, session next off W dir num fuel start =
      ((l ++ [Off])%list, Some (match e with StopIteration => Ok tt | e => Err e end), off s2) /\
    wrote l = gallery dir num 0 bs /\ calls_of l = 1 + List.length bs /\ ~ In Off l.
Proof.
  intros S o i next off W dir num start bs s' e s2 fuel G P E WL L.
  destruct (loop_through next W dir num start bs s' G P WL (fuel - List.length bs) 0) as (l & N1 & N2 & N3 & N4).
  exists (l ++ [Called])%list. replace (List.length bs + (fuel - List.length bs)) with fuel in N4 by lia.
  unfold session. rewrite N4. destruct (fuel - List.length bs) as [|m] eqn:F; [lia|]. cbn [main_loop]. rewrite E.
  split; [destruct e; reflexivity|]. split; [rewrite wrote_app, N2; apply app_nil_r|]. split; [rewrite calls_app, N3; apply Nat.add_comm|].
  intros X. apply in_app_or in X. destruct X as [X|[X|[]]]; [exact (N1 X)|discriminate].
Qed.
Print Assumptions C106_to_the_end.

(** As long as the sampler goes on, so does the program. *)
Theorem C106_goes_on : forall S o i (next : S -> result (batch o i) * S) off W dir num start bs s',
  gives next start bs s' -> Forall paired bs -> willing W num ->
  exists l, session next off W dir num (List.length bs) start = (l, None, s') /\ wrote l = gallery dir num 0 bs /\ ~ In Off l.
Proof.
  intros S o i next off W dir num start bs s' G P WL.
  destruct (loop_through next W dir num start bs s' G P WL 0 0) as (l & N1 & N2 & N3 & N4). rewrite Nat.add_0_r in N4. cbn [main_loop] in N4.
  exists l. unfold session. rewrite N4, app_nil_r. auto.
Qed.
Print Assumptions C106_goes_on.

(** ** From a configuration *)

(** [Sampler.shutdown] of the synthetic sampler (Model/Shutdown.v). *)
Definition syn_off {oflow bflow : Type} (fuel : nat) (sch : scheduler) (s : sst (sif_of fuel sch) oflow bflow) : sst (sif_of fuel sch) oflow bflow :=
  set_sched s (shutdown_of fuel sch (y_sched s)).

Lemma episode_session : forall {S o i : Type} (next : S -> result (batch o i) * S) off W dir num start obs shown B L fuel,
  (forall m, m < 1 + L -> nth_error obs m = Some (obs_of (fst (next (after next m start))))) ->
  plays_as shown B L 0 0 0 (repeat SNext (1 + L)) obs ->
  (forall t b, shown 0 t t b -> paired b) -> willing W num -> L < fuel ->
  exists bs, List.length bs = L /\ (forall t b, nth_error bs t = Some b -> shown 0 t t b) /\
    exists l s2, session next off W dir num fuel start = ((l ++ [Off])%list, Some (Err EpisodeEnd), s2) /\ wrote l = gallery dir num 0 bs.
Proof.
  intros S o i next off W dir num start obs shown B L fuel A PL PR WL LF.
  pose proof (plays_nexts shown B L 0 (1 + L) 0 0 obs PL) as PN.
  destruct (gives_calls next L start (fun m b => shown 0 m m b)) as (bs & G & LB & R).
  { intros m Hm. destruct (PN m ltac:(lia)) as [(b & E & Sb) _]; [lia|]. rewrite A in E by lia. injection E as E. exists b. split; [|exact Sb].
    destruct (fst (next (after next m start))); [injection E as ->; reflexivity|discriminate]. }
  destruct (PN L ltac:(lia)) as [_ E]. specialize (E ltac:(lia) ltac:(lia)). rewrite A in E by lia. injection E as E.
  exists bs. split; [exact LB|]. split; [exact R|].
  destruct (next (after next L start)) as [r s2] eqn:EN. cbn [fst] in E. destruct r as [b|e]; [discriminate|]. injection E as ->.
  assert (FP : Forall paired bs). { apply Forall_forall. intros b Hb. apply In_nth_error in Hb. destruct Hb as (t & Ht). exact (PR t b (R t b Ht)). }
  destruct (C106_to_the_end S o i next off W dir num start bs _ _ _ fuel G FP EN WL ltac:(lia)) as (l & E & W1 & _). eauto.
Qed.

(** Episodes, synthetic images: after the last step of the first episode the
    program ends with an uncaught EpisodeEnd. *)
Theorem C106_episodes : forall w d p a ec s, 0 < w_devices w -> make w (PDict d) = Ok (SyntheticSampler p (SEpisodic a ec s)) ->
  exists B L c base, positive_setting d "batch_size" B /\ positive_setting d "episode_length" L /\ file_stage w d a c base /\
  forall C fuel, enum_ok (w_dirs w) -> choice_ok (w_rng w) -> disk (c_loader c) C -> c_randomize c = false ->
    single_slices C (w_dirs w) (s_files base) -> distinct_files (w_dirs w) (s_files base) -> 2 * (L * B) < fuel ->
    sy_F p = B -> B mod List.length (sy_devices p) = 0 ->
  exists ws : nat -> list (string * nat),
    (forall e, List.length (ws e) = B /\ (forall x, In x (ws e) -> window (w_dirs w) (s_files base) L x)) /\
    (c_loop c = true \/ (forall e, spread L (ws e)) -> spread L (ws 0) ->
     forall tm oflow bflow img (adapt : arr -> oflow) (bounds : arr -> bflow) (render : key -> nat -> bflow -> img) W dir num steps,
       willing W num -> L < steps ->
       let sch := SEpisodic a ec s in
       let sc := @scfg_of w fuel p sch oflow bflow img adapt bounds render in
       exists bs, List.length bs = L /\
         (forall t b, nth_error bs t = Some b -> shows_step (sc_nd sc) (sc_B sc) (sc_F sc) (sc_seed sc) adapt bounds (sc_render sc) C (dir_files (w_dirs w)) (ws 0) t t b) /\
         exists l s2, session (syn_next sc) (syn_off fuel sch) W dir num steps (syn_init sc (start_of fuel tm sch)) =
             ((l ++ [Off])%list, Some (Err EpisodeEnd), s2) /\
           wrote l = gallery dir num 0 bs).
Proof.
  intros w d p a ec s WD H. destruct (C92_make w d p a ec s WD H) as (B & L & c & base & S1 & S2 & S3 & H1). exists B, L, c, base.
  split; [exact S1|]. split; [exact S2|]. split; [exact S3|]. intros C fuel HE HC HD HR HS HF Hf EF MN.
  destruct (H1 C fuel HE HC HD HR HS HF Hf EF MN) as (ws & W1 & W2). exists ws. split; [exact W1|].
  intros GO SP tm oflow bflow img adapt bounds render W dir num steps WL LS sch sc.
  pose proof (W2 GO tm oflow bflow img adapt bounds render (repeat SNext (1 + L))) as PL. cbv zeta in PL. fold sch in PL. fold sc in PL.
  assert (FO : Forall (fun o => o = SNext \/ o = SNextEpisode) (repeat SNext (1 + L))) by (apply Forall_forall; intros x X; apply repeat_spec in X; auto).
  specialize (PL FO).
  destruct (episode_session (syn_next sc) (syn_off fuel sch) W dir num (syn_init sc (start_of fuel tm sch)) _ _ _ L steps
             (fun m Hm => syn_answers _ _ _ _ sc (1 + L) m _ Hm) PL) as (bs & LB & R & E).
  - intros t b Sb. destruct (Sb SP) as (X1 & X2 & _). exact (eq_trans X2 (eq_sym X1)).
  - exact WL.
  - exact LS.
  - exists bs. split; [exact LB|]. split; [intros t b Hb; exact (R t b Hb SP)|exact E].
Qed.
Print Assumptions C106_episodes.

(** The same with a buffer. *)
Theorem C106_prefetched_episodes : forall w d p B N a ec s, 0 < w_devices w ->
  make w (PDict d) = Ok (SyntheticSampler p (SPrefetch B N (SEpisodic a ec s))) ->
  exists L c base, positive_setting d "batch_size" B /\ positive_setting d "episode_length" L /\ file_stage w d a c base /\
  forall C fuel, enum_ok (w_dirs w) -> choice_ok (w_rng w) -> disk (c_loader c) C -> c_randomize c = false ->
    single_slices C (w_dirs w) (s_files base) -> distinct_files (w_dirs w) (s_files base) -> 2 * (L * B) < fuel ->
    sy_F p = B -> B mod List.length (sy_devices p) = 0 -> sy_bpf p = 1 ->
  exists ws : nat -> list (string * nat),
    (forall e, List.length (ws e) = B /\ (forall x, In x (ws e) -> window (w_dirs w) (s_files base) L x)) /\
    (c_loop c = true \/ (forall e, spread L (ws e)) -> spread L (ws 0) ->
     forall tm oflow bflow img (adapt : arr -> oflow) (bounds : arr -> bflow) (render : key -> nat -> bflow -> img) W dir num steps,
       prompt tm -> willing W num -> L < steps ->
       let sch := SPrefetch B N (SEpisodic a ec s) in
       let sc := @scfg_of w fuel p sch oflow bflow img adapt bounds render in
       exists bs, List.length bs = L /\
         (forall t b, nth_error bs t = Some b -> shows_step (sc_nd sc) (sc_B sc) (sc_F sc) (sc_seed sc) adapt bounds (sc_render sc) C (dir_files (w_dirs w)) (ws 0) t t b) /\
         exists l s2, session (syn_next sc) (syn_off fuel sch) W dir num steps (syn_init sc (start_of fuel tm sch)) =
             ((l ++ [Off])%list, Some (Err EpisodeEnd), s2) /\
           wrote l = gallery dir num 0 bs).
Proof.
  intros w d p B N a ec s WD H. destruct (C92_make_prefetched w d p B N a ec s WD H) as (L & c & base & S1 & S2 & S3 & H1). exists L, c, base.
  split; [exact S1|]. split; [exact S2|]. split; [exact S3|]. intros C fuel HE HC HD HR HS HF Hf EF MN B1.
  destruct (H1 C fuel HE HC HD HR HS HF Hf EF MN B1) as (ws & W1 & W2). exists ws. split; [exact W1|].
  intros GO SP tm oflow bflow img adapt bounds render W dir num steps PT WL LS sch sc.
  pose proof (W2 GO tm oflow bflow img adapt bounds render (repeat SNext (1 + L)) PT) as PL. cbv zeta in PL. fold sch in PL. fold sc in PL.
  assert (FO : Forall (fun o => o = SNext \/ o = SNextEpisode) (repeat SNext (1 + L))) by (apply Forall_forall; intros x X; apply repeat_spec in X; auto).
  specialize (PL FO). change (repeat SNext (1 + L)) with (SNext :: repeat SNext L) in PL at 1.
  destruct (episode_session (syn_next sc) (syn_off fuel sch) W dir num (syn_init sc (start_of fuel tm sch)) _ _ _ L steps
             (fun m Hm => syn_answers _ _ _ _ sc (1 + L) m _ Hm) PL) as (bs & LB & R & E).
  - intros t b Sb. destruct (Sb SP) as (X1 & X2 & _). exact (eq_trans X2 (eq_sym X1)).
  - exact WL.
  - exact LS.
  - exists bs. split; [exact LB|]. split; [intros t b Hb; exact (R t b Hb SP)|exact E].
Qed.
Print Assumptions C106_prefetched_episodes.

(** Real images. *)
Theorem C106_real_episodes : forall w d B a ec s, make w (PDict d) = Ok (RealSampler B (SEpisodic a ec s)) ->
  exists L c base, positive_setting d "batch_size" B /\ positive_setting d "episode_length" L /\ file_stage w d a c base /\
  forall C fuel, enum_ok (w_dirs w) -> choice_ok (w_rng w) -> disk (c_loader c) C -> c_randomize c = false ->
    single_slices C (w_dirs w) (s_files base) -> distinct_files (w_dirs w) (s_files base) -> 2 * (L * B) < fuel ->
  exists ws : nat -> list (string * nat),
    (forall e, List.length (ws e) = B /\ (forall x, In x (ws e) -> window (w_dirs w) (s_files base) L x)) /\
    (c_loop c = true \/ (forall e, spread L (ws e)) -> spread L (ws 0) ->
     forall tm W dir num steps, willing W num -> L < steps ->
       let sch := SEpisodic a ec s in
       exists bs, List.length bs = L /\
         (forall t b, nth_error bs t = Some b -> shows_real_step B C (dir_files (w_dirs w)) (ws 0) t b) /\
         exists l s2, session (real_next (sif_of fuel sch) B) (shutdown_of fuel sch) W dir num steps (start_of fuel tm sch) =
             ((l ++ [Off])%list, Some (Err EpisodeEnd), s2) /\
           wrote l = gallery dir num 0 bs).
Proof.
  intros w d B a ec s H. destruct (C98_episodes w d B a ec s H) as (L & c & base & S1 & S2 & S3 & H1). exists L, c, base.
  split; [exact S1|]. split; [exact S2|]. split; [exact S3|]. intros C fuel HE HC HD HR HS HF Hf.
  destruct (H1 C fuel HE HC HD HR HS HF Hf) as (ws & W1 & W2). exists ws. split; [exact W1|].
  intros GO SP tm W dir num steps WL LS sch.
  pose proof (W2 GO tm (repeat SNext (1 + L))) as PL. fold sch in PL.
  assert (FO : Forall (fun o => o = SNext \/ o = SNextEpisode) (repeat SNext (1 + L))) by (apply Forall_forall; intros x X; apply repeat_spec in X; auto).
  specialize (PL FO).
  destruct (episode_session (real_next (sif_of fuel sch) B) (shutdown_of fuel sch) W dir num (start_of fuel tm sch) _ _ _ L steps
             (fun m Hm => rrun_answers _ B (1 + L) m _ Hm) PL) as (bs & LB & R & E).
  - intros t b Sb. destruct (Sb SP) as (X1 & X2 & _). exact (eq_trans X2 (eq_sym X1)).
  - exact WL.
  - exact LS.
  - exists bs. split; [exact LB|]. split; [intros t b Hb; exact (R t b Hb SP)|exact E].
Qed.
Print Assumptions C106_real_episodes.

(** No episodes: the program runs for ever on a looping configuration, and shows
    every batch and ends normally otherwise. *)
Definition runs_through {S o i : Type} (next : S -> result (batch o i) * S) (off : S -> S) (start : S) (loop : bool)
    (shown : nat -> batch o i -> Prop) (J : nat) : Prop :=
  forall W dir num steps, willing W num ->
  exists bs l s2, (forall m b, nth_error bs m = Some b -> shown m b) /\ wrote l = gallery dir num 0 bs /\
    if loop then List.length bs = steps /\ session next off W dir num steps start = (l, None, s2)
    else J < steps -> List.length bs = J /\ session next off W dir num steps start = ((l ++ [Off])%list, Some (Ok tt), s2).

Lemma answers_run : forall {S o i : Type} (next : S -> result (batch o i) * S) (off : S -> S) start loop (shown : nat -> batch o i -> Prop) J,
  (forall m b, shown m b -> paired b) ->
  (forall m, (loop = true \/ m < J) -> exists b, fst (next (after next m start)) = Ok b /\ shown m b) ->
  (loop = false -> fst (next (after next J start)) = Err StopIteration) ->
  runs_through next off start loop shown J.
Proof.
  intros S o i next off start loop shown J P A E W dir num steps WL.
  assert (FP : forall bs, (forall m b, nth_error bs m = Some b -> shown m b) -> Forall paired bs).
  { intros bs R. apply Forall_forall. intros b Hb. apply In_nth_error in Hb. destruct Hb as (t & Ht). exact (P t b (R t b Ht)). }
  destruct loop.
  - destruct (gives_calls next steps start shown) as (bs & G & LB & R); [intros m _; apply A; auto|].
    destruct (C106_goes_on _ _ _ next off W dir num start bs _ G (FP _ R) WL) as (l & X & WR & _). rewrite LB in X. eauto 8.
  - destruct (gives_calls next J start shown) as (bs & G & LB & R); [intros m Hm; apply A; auto|].
    specialize (E eq_refl). destruct (next (after next J start)) as [r s2] eqn:EN. cbn [fst] in E. subst r.
    destruct (Nat.lt_ge_cases J steps) as [LT|GE].
    + destruct (C106_to_the_end _ _ _ next off W dir num start bs _ _ _ steps G (FP _ R) EN WL ltac:(lia)) as (l & X & WR & _).
      exists bs, l, (off s2). auto.
    + exists [], [], start. split; [intros [|m] b Hb; discriminate|]. split; [reflexivity|]. intros X. lia.
Qed.

Theorem C106_files : forall w d p a c s, 0 < w_devices w -> make w (PDict d) = Ok (SyntheticSampler p (SFile a c s)) ->
  exists files, listed w d a c files /\ c_loader c = loader_for w a /\
  forall C fuel tm oflow bflow img (adapt : arr -> oflow) (bounds : arr -> bflow) (render : key -> nat -> bflow -> img),
  usable c C files fuel -> Nat.divide (List.length (sy_devices p)) (sy_F p) ->
  exists x J, stream_of (c_randomize c) (c_loop c) C files x /\ (c_loop c = false -> last_batch (sy_F p) x J) /\
    let sch := SFile a c s in
    let sc := @scfg_of w fuel p sch oflow bflow img adapt bounds render in
    runs_through (syn_next sc) (syn_off fuel sch) (syn_init sc (start_of fuel tm sch)) (c_loop c)
      (shows (List.length (sy_devices p)) (sy_batch p) (sy_F p) (sy_bpf p) (sy_seed p) adapt bounds render x) (J * sy_bpf p).
Proof.
  intros w d p a c s WD H. destruct (C90_make w d p a c s WD H) as (files & H1 & H2 & _ & H3). exists files. split; [exact H1|]. split; [exact H2|].
  intros C fuel tm oflow bflow img adapt bounds render U DV. destruct (H3 C fuel tm oflow bflow img adapt bounds render U DV) as (x & ST & PL).
  set (sch := SFile a c s) in *. set (sc := @scfg_of w fuel p sch oflow bflow img adapt bounds render) in *.
  assert (AN : forall m, PipelineProps.answer sc (start_of fuel tm sch) m =
     Some (obs_of (fst (syn_next sc (after (syn_next sc) m (syn_init sc (start_of fuel tm sch))))))).
  { intros m. unfold PipelineProps.answer. apply syn_answers. lia. }
  assert (OB : forall m b, PipelineProps.answer sc (start_of fuel tm sch) m = Some (SBatch b) ->
     fst (syn_next sc (after (syn_next sc) m (syn_init sc (start_of fuel tm sch)))) = Ok b).
  { intros m b E. rewrite AN in E. injection E as E. destruct (fst _); [injection E as ->; reflexivity|discriminate]. }
  unfold played in PL. destruct (c_loop c) eqn:LP.
  - exists x, 0. split; [exact ST|]. split; [discriminate|]. cbv zeta. apply answers_run; [|intros m _|discriminate].
    + intros m b (X1 & X2 & _). exact (eq_trans X2 (eq_sym X1)).
    + destruct (PL m) as (b & E & Sb). exists b. auto.
  - destruct PL as (J & LJ & PL & EN). exists x, J. split; [exact ST|]. split; [intros _; exact LJ|]. cbv zeta. apply answers_run; [|intros m [X|Hm]|].
    + intros m b (X1 & X2 & _). exact (eq_trans X2 (eq_sym X1)).
    + discriminate.
    + destruct (PL m Hm) as (b & E & Sb). exists b. auto.
    + intros _. rewrite AN in EN. injection EN as EN. destruct (fst _); [discriminate|injection EN as ->; reflexivity].
Qed.
Print Assumptions C106_files.

Theorem C106_real_files : forall w d B a c s, make w (PDict d) = Ok (RealSampler B (SFile a c s)) ->
  exists files, listed w d a c files /\ c_loader c = loader_for w a /\
  forall C fuel tm, usable c C files fuel ->
  exists x J, stream_of (c_randomize c) (c_loop c) C files x /\ (c_loop c = false -> last_batch B x J) /\
    let sch := SFile a c s in
    runs_through (real_next (sif_of fuel sch) B) (shutdown_of fuel sch) (start_of fuel tm sch) (c_loop c) (shows_real B x) J.
Proof.
  intros w d B a c s H. destruct (C98_files w d B a c s H) as (_ & files & H1 & H2 & _ & H3). exists files. split; [exact H1|]. split; [exact H2|].
  intros C fuel tm U. destruct (H3 C fuel tm U) as (x & ST & PL). set (sch := SFile a c s) in *.
  assert (AN : forall m, answer_real (sif_of fuel sch) B (start_of fuel tm sch) m =
     Some (fst (real_next (sif_of fuel sch) B (after (real_next (sif_of fuel sch) B) m (start_of fuel tm sch))))).
  { intros m. unfold answer_real. apply real_answers. lia. }
  unfold played_real in PL. destruct (c_loop c) eqn:LP.
  - exists x, 0. split; [exact ST|]. split; [discriminate|]. cbv zeta. apply answers_run; [|intros m _|discriminate].
    + intros m b (X1 & X2 & _). exact (eq_trans X2 (eq_sym X1)).
    + destruct (PL m) as (b & E & Sb). rewrite AN in E. injection E as E. exists b. auto.
  - destruct PL as (J & LJ & PL & EN). exists x, J. split; [exact ST|]. split; [intros _; exact LJ|]. cbv zeta. apply answers_run; [|intros m [X|Hm]|].
    + intros m b (X1 & X2 & _). exact (eq_trans X2 (eq_sym X1)).
    + discriminate.
    + destruct (PL m Hm) as (b & E & Sb). rewrite AN in E. injection E as E. exists b. auto.
    + intros _. specialize (EN J (le_n J)). rewrite AN in EN. injection EN as EN. exact EN.
Qed.
Print Assumptions C106_real_files.

(** The samples shown are those of the batch, whatever its mask says: the zeros
    that fill up a last batch are shown as if they were a file's images. *)
Definition agreeable : outside := mkOutside (fun _ _ => None) (fun _ => None) (fun _ => Ok "y").
Definition exV_run (num : Z) (steps : nat) : option (list (string * drawing arr (arr * arr)) * option (result unit)) :=
  match make exR_world (PDict (exR_dict 2 0 0 false)) with
  | Ok (RealSampler B (SFile a c s)) =>
      let '(l, v, _) := session (real_next (base_sif c 20) B) (fun s => s) agreeable "out" num steps s in Some (wrote l, v)
  | _ => None
  end.
Theorem C106_padding_refuted : exists l p x, exV_run 2 9 = Some (l, Some (Ok tt)) /\ In (p, Image1 x) l /\
  (forall v, In v (data (fst x)) -> v = 0%Q) /\
  forall q y i, exR_C q = Slices [y] -> sd_im1 y = Some i -> i <> fst x.
Proof.
  eexists _, "out/batch_1_sample_1_image1.png", (zeros [4; 4], zeros [4; 4]). split; [vm_compute; reflexivity|]. split; [do 9 right; left; reflexivity|]. split.
  - intros v X. cbn [fst zeros data] in X. exact (repeat_spec _ _ _ X).
  - intros q y i E I Z. unfold exR_C, mat_content in E. lazy -[exR_number Qmult] in E. injection E as <-. cbn [sd_im1] in I.
    injection I as <-. cbn [fst] in Z. apply (f_equal (fun a => hd 1%Q (data a))) in Z. cbn [data zeros repeat hd size fold_right] in Z.
    unfold exR_number in Z. destruct (String.eqb q "d/flow_1.mat"); [discriminate|]. destruct (String.eqb q "d/flow_2.mat"); discriminate.
Qed.
Print Assumptions C106_padding_refuted.

(** ** Concrete cases *)

(** Three files, batches of two, one sample per batch. *)
Example C106_case : option_map (fun q => (map fst (fst q), snd q)) (exV_run 1 9) =
  Some (["out/batch_0_sample_0_image1.png"; "out/batch_0_sample_0_image2.png"; "out/batch_0_sample_0_quiver.png";
         "out/batch_1_sample_0_image1.png"; "out/batch_1_sample_0_image2.png"; "out/batch_1_sample_0_quiver.png"], Some (Ok tt)) /\
  exV_run (-1) 9 = Some ([], Some (Ok tt)) /\ option_map snd (exV_run 1 2) = Some None.
Proof. split; [vm_compute; reflexivity|]. split; vm_compute; reflexivity. Qed.

(** A sampler that counts: the user stops, the input is closed, the disk is full,
    the sampler fails or ends. *)
Definition counter (last : nat) (e : exn) (s : nat) : result (batch nat nat) * nat :=
  if s <? last then (Ok (mkBatch [s; 10 + s] [s; 10 + s] None None None), S s) else (Err e, s).
Definition exV_acts (W : outside) (num : Z) (last : nat) (e : exn) :=
  session (counter last e) (fun s => 100 + s) W "o" num 7 0.
Example C106_case_ends :
  let say (k : nat) (r : result string) := mkOutside (fun _ _ => None) (fun _ => None) (fun m => if m =? k then r else Ok "Y") in
  let ends W e := let '(l, v, s) := exV_acts W 1 3 e in (calls_of l, List.length (wrote l), v, s, last l Called) in
  ends (say 1 (Ok "yes")) StopIteration = (2, 6, Some (Ok tt), 102, Off) /\
  ends (say 0 (Err (OtherExn 7))) StopIteration = (1, 3, Some (Err (OtherExn 7)), 101, Off) /\
  ends agreeable StopIteration = (4, 9, Some (Ok tt), 103, Off) /\
  ends agreeable EpisodeEnd = (4, 9, Some (Err EpisodeEnd), 103, Off) /\
  ends (mkOutside (fun _ _ => None) (fun p => if String.eqb p "o/batch_1_sample_0_image2.png" then Some (OtherExn 28) else None) (fun _ => Ok "y"))
    StopIteration = (2, 4, Some (Err (OtherExn 28)), 102, Off).
Proof. repeat split; vm_compute; reflexivity. Qed.
Example C106_hypotheses : willing agreeable 1 /\ forall last e bs s', gives (counter last e) 0 bs s' -> Forall paired bs.
Proof.
  split; [repeat split; right; left; reflexivity|]. intros last e bs s' G. induction G as [s|s b s1 bs s2 E G IH]; [constructor|].
  constructor; [|exact IH]. unfold counter in E. destruct (s <? last); [|discriminate]. injection E as <- <-. reflexivity.
Qed.
