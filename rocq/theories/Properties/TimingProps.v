(** A run with a prefetch buffer does not depend on how its threads are timed. *)
From Coq Require Import List Arith ZArith QArith String Bool Lia.
From Verif Require Import Prelude Model.PyVal Model.Types Model.Base Model.Episodic Model.Prefetch Model.Sampler Model.Real Model.Stack Model.Make Model.Main.
From Verif Require Import Spec.BaseSpec Spec.StackSpec Spec.MakeSpec Spec.TimingSpec.
From Verif Require Import Proofs.StackProofs Proofs.TimingProofs Proofs.TimingMore Properties.EpisodicProps Properties.MakeProps.
Import ListNotations.
Local Open Scope nat_scope.

(** C107. Any scheduler behind the buffer, as long as an episode just begun is
    not over; any sampler over it; any calls but a full reset. *)
Theorem C107_synthetic_any : forall si len B N u tm tm' oflow bflow img
    (c : scfg (prefetch_sif si len B N) oflow bflow img) ops,
  1 <= N -> fresh_episodes si B -> prompt tm -> prompt tm' -> ~ In (SReset true) ops ->
  fst (srun c ops (syn_init c (mkTst (pinit (sched_of si len B) u) tm))) =
  fst (srun c ops (syn_init c (mkTst (pinit (sched_of si len B) u) tm'))).
Proof.
  intros si len B N u tm tm' oflow bflow img c ops HN FE PR PR' NI.
  assert (BI : bisim (prefetch_sif si len B N) false (alike si len B N (fun _ => True))).
  { apply bisim_prefetch; [exact HN | apply fresh_steady, FE | discriminate]. }
  symmetry. apply (pals_run _ _ _ BI).
  - apply Forall_forall. intros o HO E. subst o. contradiction.
  - apply pals_init. apply alike_init; auto.
Qed.
Print Assumptions C107_synthetic_any.

Theorem C107_real_any : forall si len B N u tm tm' BS ops,
  1 <= N -> fresh_episodes si B -> prompt tm -> prompt tm' -> ~ In (SReset true) ops ->
  fst (rrun (prefetch_sif si len B N) BS ops (mkTst (pinit (sched_of si len B) u) tm)) =
  fst (rrun (prefetch_sif si len B N) BS ops (mkTst (pinit (sched_of si len B) u) tm')).
Proof.
  intros si len B N u tm tm' BS ops HN FE PR PR' NI.
  assert (BI : bisim (prefetch_sif si len B N) false (alike si len B N (fun _ => True))).
  { apply bisim_prefetch; [exact HN | apply fresh_steady, FE | discriminate]. }
  symmetry. apply (real_run_same _ _ _ BI).
  - apply Forall_forall. intros o HO E. subst o. contradiction.
  - apply alike_init; auto.
Qed.
Print Assumptions C107_real_any.

(** C107. Whatever [make] accepts: the same calls see the same. *)
Theorem C107_synthetic : forall w d p sch, make w (PDict d) = Ok (SyntheticSampler p sch) ->
  forall fuel tm tm' oflow bflow img (adapt : si_flow (sif_of fuel sch) -> oflow) (bounds : si_flow (sif_of fuel sch) -> bflow)
    (render : key -> nat -> bflow -> img) ops,
  prompt tm -> prompt tm' -> (In (SReset true) ops -> starts_over sch) ->
  let sc := scfg_of fuel p sch adapt bounds render in
  fst (srun sc ops (syn_init sc (start_of fuel tm sch))) = fst (srun sc ops (syn_init sc (start_of fuel tm' sch))).
Proof.
  intros w d p sch H fuel tm tm' oflow bflow img adapt bounds render ops PR PR' RS sc.
  destruct (make_timed w d _ H fuel tm tm' PR PR') as (resets & R & BI & HR & SO). cbn [scheduler_of] in *.
  symmetry. apply (pals_run _ _ _ BI).
  - apply Forall_forall. intros o HO E. subst o. auto.
  - apply pals_init. exact HR.
Qed.
Print Assumptions C107_synthetic.

Theorem C107_real : forall w d B sch, make w (PDict d) = Ok (RealSampler B sch) ->
  forall fuel tm tm' ops, prompt tm -> prompt tm' -> (In (SReset true) ops -> starts_over sch) ->
  fst (rrun (sif_of fuel sch) B ops (start_of fuel tm sch)) = fst (rrun (sif_of fuel sch) B ops (start_of fuel tm' sch)).
Proof.
  intros w d B sch H fuel tm tm' ops PR PR' RS.
  destruct (make_timed w d _ H fuel tm tm' PR PR') as (resets & R & BI & HR & SO). cbn [scheduler_of] in *.
  symmetry. apply (real_run_same _ _ _ BI).
  - apply Forall_forall. intros o HO E. subst o. auto.
  - exact HR.
Qed.
Print Assumptions C107_real.

(** C107. The program never resets: it draws the same images into the same
    files and ends in the same way. *)
Theorem C107_program : forall w d p sch, make w (PDict d) = Ok (SyntheticSampler p sch) ->
  forall fuel tm tm' oflow bflow img (adapt : si_flow (sif_of fuel sch) -> oflow) (bounds : si_flow (sif_of fuel sch) -> bflow)
    (render : key -> nat -> bflow -> img) off W dir num steps,
  prompt tm -> prompt tm' ->
  let sc := scfg_of fuel p sch adapt bounds render in
  fst (session (syn_next sc) off W dir num steps (syn_init sc (start_of fuel tm sch))) =
  fst (session (syn_next sc) off W dir num steps (syn_init sc (start_of fuel tm' sch))).
Proof.
  intros w d p sch H fuel tm tm' oflow bflow img adapt bounds render off W dir num steps PR PR' sc.
  destruct (make_timed w d _ H fuel tm tm' PR PR') as (resets & R & BI & HR & SO). cbn [scheduler_of] in *.
  symmetry. apply (session_same (syn_next sc) (pals (sif_of fuel sch) R)).
  - intros s s' r v r' v' K. exact (pals_next _ _ _ BI sc s s' r v r' v' K).
  - apply pals_init. exact HR.
Qed.
Print Assumptions C107_program.

Theorem C107_program_real : forall w d B sch, make w (PDict d) = Ok (RealSampler B sch) ->
  forall fuel tm tm' off W dir num steps, prompt tm -> prompt tm' ->
  fst (session (real_next (sif_of fuel sch) B) off W dir num steps (start_of fuel tm sch)) =
  fst (session (real_next (sif_of fuel sch) B) off W dir num steps (start_of fuel tm' sch)).
Proof.
  intros w d B sch H fuel tm tm' off W dir num steps PR PR'.
  destruct (make_timed w d _ H fuel tm tm' PR PR') as (resets & R & BI & HR & SO). cbn [scheduler_of] in *.
  symmetry. apply (session_same (real_next (sif_of fuel sch) B) R).
  - intros s s' r v r' v' K. exact (real_next_same _ _ _ BI B s s' r v r' v' K).
  - exact HR.
Qed.
Print Assumptions C107_program_real.

(** ** Where timing does show

    The same calls under a thread that only just keeps up and under one that
    fills the buffer at once. *)
Definition exT_slow : timing := fun _ => ((0, false), (5, false)).
Definition exT_fast : timing := fun _ => ((0, false), (50, false)).
Lemma exT_prompt : prompt exT_slow /\ prompt exT_fast.
Proof. split; intros i; cbn; repeat split; lia. Qed.

Fixpoint exT_depth (k : key) : nat := match k with Seed _ => 0 | Child k _ => S (exT_depth k) end.
Definition exT_rng : rng :=
  mkRng (fun _ n => rev (seq 0 n)) (fun k n m => map (fun i => (exT_depth k + i) mod n) (seq 0 m)).
Definition exT_sc (si : sif) (F : nat) : scfg si (si_flow si) (si_flow si) (key * nat) :=
  mkScfg si (si_flow si) (si_flow si) (key * nat) 1 2 F 1 5 (fun f => f) (fun f => f) (fun k j _ => (k, j)).
Definition exT_view {oflow img} (o : @sobs oflow img) :=
  match o with SBatch b => inl (ba_files b) | SRaise e => inr (Some e) | SUnit => inr None end.

(** Files "d/0.mat" and "e/1.mat", shuffled again at the end of every pass, one
    at a time; a buffer of 3. *)
Definition exT_files (rand : bool) (tm : timing) (ops : list sop) :=
  let si := base_sif (mkCfg (loader_of exE_C) exT_rng rand true) 20 in
  let c := exT_sc (prefetch_sif si None 1 3) 1 in
  map exT_view (fst (srun c ops (syn_init c (mkTst (pinit (sched_of si None 1) exE_base) tm)))).

(** C107. After a reset the order of shuffled files depends on how far the
    thread had read ahead: it shuffled once more if it had passed the end. *)
Theorem C107_reset_shuffled_refuted : exists c N u tm tm' ops,
  let si := base_sif c 20 in let sc := exT_sc (prefetch_sif si None 1 N) 1 in
  c_loop c = true /\ 1 <= N /\ prompt tm /\ prompt tm' /\
  fst (srun sc ops (syn_init sc (mkTst (pinit (sched_of si None 1) u) tm))) <>
  fst (srun sc ops (syn_init sc (mkTst (pinit (sched_of si None 1) u) tm'))).
Proof.
  exists (mkCfg (loader_of exE_C) exT_rng true true), 3, exE_base, exT_slow, exT_fast, [SNext; SReset true; SNext].
  split; [reflexivity|]. split; [lia|]. split; [apply exT_prompt|]. split; [apply exT_prompt|].
  intros E. apply (f_equal (map exT_view)) in E. vm_compute in E. discriminate.
Qed.
Print Assumptions C107_reset_shuffled_refuted.

(** Episodes of two steps from "d" and "e". *)
Definition exT_on (ec : ecfg) (s : est) (tm : timing) (ops : list sop) :=
  let si := episodic_sif ec 20 in let c := exT_sc (prefetch_sif si (Some 2) 2 3) 2 in
  fst (srun c ops (syn_init c (mkTst (pinit (sched_of si (Some 2) 2) s) tm))).
Lemma exT_differ : exists ec s, ep_construct (exE exE_enum) (exE_cfg false true) exT_rng exE_base 2 2 (Seed 1) = Ok (ec, s) /\
  map exT_view (exT_on ec s exT_slow [SNext; SReset true; SNext]) <> map exT_view (exT_on ec s exT_fast [SNext; SReset true; SNext]).
Proof. eexists _, _. split; [vm_compute; reflexivity|]. vm_compute. discriminate. Qed.

(** C107. Which episode a reset leads to depends on whether the thread had begun
    the next one already. *)
Theorem C107_reset_episodes_refuted : exists D c g base k ec s N tm tm' ops, ep_construct D c g base 2 2 k = Ok (ec, s) /\
  let si := episodic_sif ec 20 in let sc := exT_sc (prefetch_sif si (Some 2) 2 N) 2 in
  c_randomize c = false /\ 1 <= N /\ prompt tm /\ prompt tm' /\
  fst (srun sc ops (syn_init sc (mkTst (pinit (sched_of si (Some 2) 2) s) tm))) <>
  fst (srun sc ops (syn_init sc (mkTst (pinit (sched_of si (Some 2) 2) s) tm'))).
Proof.
  destruct exT_differ as (ec & s & EC & NE).
  exists (exE exE_enum), (exE_cfg false true), exT_rng, exE_base, (Seed 1), ec, s, 3, exT_slow, exT_fast, [SNext; SReset true; SNext].
  split; [exact EC|]. split; [reflexivity|]. split; [lia|]. split; [apply exT_prompt|]. split; [apply exT_prompt|].
  intros E. apply NE. unfold exT_on. cbv zeta. rewrite E. reflexivity.
Qed.
Print Assumptions C107_reset_episodes_refuted.

(** C107. And if the thread does not keep up, calls give up waiting. *)
Theorem C107_too_slow_refuted : exists c N u tm tm' ops,
  let si := base_sif c 20 in let sc := exT_sc (prefetch_sif si None 1 N) 1 in
  1 <= N /\ prompt tm /\ ~ In (SReset true) ops /\
  fst (srun sc ops (syn_init sc (mkTst (pinit (sched_of si None 1) u) tm))) <>
  fst (srun sc ops (syn_init sc (mkTst (pinit (sched_of si None 1) u) tm'))).
Proof.
  exists (mkCfg (loader_of exE_C) exT_rng false true), 3, exE_base, exT_slow, (fun _ => ((0, false), (2, false))), [SNext].
  split; [lia|]. split; [apply exT_prompt|]. split; [intros [E|[]]; discriminate|].
  intros E. apply (f_equal (map exT_view)) in E. vm_compute in E. discriminate.
Qed.
Print Assumptions C107_too_slow_refuted.

(** ** What it looks like *)
Definition exT_calls : list sop := [SNext; SNext; SNext; SReset false; SNextEpisode; SNext].
Example C107_case_files :
  exT_files true exT_slow exT_calls = [inl (Some ["d/0.mat"]); inl (Some ["e/1.mat"]); inl (Some ["e/1.mat"]); inr None; inr None; inl (Some ["d/0.mat"])]%string /\
  exT_files true exT_fast exT_calls = exT_files true exT_slow exT_calls /\
  exT_files true exT_slow [SNext; SReset true; SNext] = [inl (Some ["d/0.mat"]); inr None; inl (Some ["e/1.mat"])]%string /\
  exT_files true exT_fast [SNext; SReset true; SNext] = [inl (Some ["d/0.mat"]); inr None; inl (Some ["d/0.mat"])]%string /\
  exT_files false exT_fast [SNext; SReset true; SNext] = exT_files false exT_slow [SNext; SReset true; SNext].
Proof.
  split; [vm_compute; reflexivity|]. split; [vm_compute; reflexivity|]. split; [vm_compute; reflexivity|]. split; vm_compute; reflexivity.
Qed.
Example C107_case_episodes : exists ec s, ep_construct (exE exE_enum) (exE_cfg false true) exT_rng exE_base 2 2 (Seed 1) = Ok (ec, s) /\
  let ops := [SNext; SNextEpisode; SNext; SNext; SNext; SNextEpisode; SNext] in
  map exT_view (exT_on ec s exT_slow ops) =
    [inl (Some ["d/1.mat"; "e/0.mat"]); inr None; inl (Some ["e/0.mat"; "d/0.mat"]); inl (Some ["e/1.mat"; "d/1.mat"]);
     inr (Some EpisodeEnd); inr None; inl (Some ["d/0.mat"; "d/1.mat"])]%string /\
  map exT_view (exT_on ec s exT_fast ops) = map exT_view (exT_on ec s exT_slow ops).
Proof. eexists _, _. split; [vm_compute; reflexivity|]. split; vm_compute; reflexivity. Qed.
Example C107_fresh : forall ec s, ep_construct (exE exE_enum) (exE_cfg false true) exT_rng exE_base 2 2 (Seed 1) = Ok (ec, s) ->
  fresh_episodes (episodic_sif ec 20) 2.
Proof.
  intros ec s H. destruct (construct_fresh _ _ _ _ _ _ _ _ _ H) as (E & _ & A & B). apply episodic_fresh; auto. rewrite E.
  intros d f i. cbn [exE_cfg c_loader loader_of get_next_slice]. unfold exE_C. destruct f; [|discriminate]. destruct (nth_error _ i); discriminate.
Qed.
(** Configurations with a buffer that [make] accepts, files and episodes. *)
Example C107_made :
  (exists p B N a c s, make exM_world (PDict (exM_dict ".npy" 3 2 4 0 (seed_is 7))) = Ok (SyntheticSampler p (SPrefetch B N (SFile a c s)))) /\
  (exists p B N a ec s, make exM_world (PDict (exM_dict ".npy" 3 2 4 2 (seed_is 7))) = Ok (SyntheticSampler p (SPrefetch B N (SEpisodic a ec s)))).
Proof. split; eexists _, _, _, _, _, _; vm_compute; reflexivity. Qed.
