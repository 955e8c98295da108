(** Property C99: what still comes after [shutdown]. *)
From Coq Require Import List Arith ZArith String Bool Lia.
From Verif Require Import Prelude Model.Base Model.Prefetch Spec.PrefetchSpec Proofs.PrefetchProofs Proofs.PrefetchMore Proofs.PrefetchWitness
  Model.Sampler Model.Stack Model.Make Model.Real Model.Shutdown Spec.SamplerSpec Spec.StackSpec Spec.ShutdownSpec
  Proofs.SamplerRuns Proofs.BaseProofs Proofs.BaseRun Proofs.BaseFinal Proofs.StackProofs Proofs.RealProofs Proofs.ShutdownProofs Properties.SamplerProps.
Import ListNotations.
Local Open Scope nat_scope.

(** * C99 *)

(** The prefetcher: once [shutdown] has returned, no more than [buffer_size]
    batches are handed over before the next completed [reset], whatever the
    schedule and the calls (further ones of [shutdown] included). *)
Theorem C99_prefetcher : forall sc B N u ls1 es1 s1 e s1' ls2 es2 s2, 1 <= N ->
  exec sc B N (pinit sc u) ls1 es1 s1 -> pstep sc B N s1 LShutJoin = Some (e, s1') ->
  exec sc B N s1' ls2 es2 s2 -> no_reset ls2 -> List.length (handed es2) <= N.
Proof.
  intros sc B N u ls1 es1 s1 e s1' ls2 es2 s2 HN X1 J X2 NR.
  destruct (shutdown_left sc B N HN u _ _ _ _ _ X1 J) as [S L].
  assert (HB : basic sc N s1').
  { eapply (basic_exec sc B N HN); [|eapply exec_cons; [exact J|constructor]].
    exact (basic_exec sc B N HN _ _ _ _ (basic_init sc N u) X1). }
  destruct (stopped_exec sc B N HN _ _ _ _ X2 HB S NR) as [_ C]. lia.
Qed.
Print Assumptions C99_prefetcher.

(** So many do come under some schedule: the thread refills the slot that
    [shutdown] had freed. *)
Theorem C99_fewer_refuted : forall B N, 1 <= N ->
  exists sc u ls1 es1 s1 e s1' ls2 es2 s2,
    exec sc B N (pinit sc u) ls1 es1 s1 /\ pstep sc B N s1 LShutJoin = Some (e, s1') /\
    exec sc B N s1' ls2 es2 s2 /\ no_reset ls2 /\ List.length (returned es2) = N.
Proof.
  intros B N H. set (sc := numbers None GStop). exists sc, 0.
  pose proof (primed None GStop B N H I) as X. fold sc in X.
  set (q := map (@Data sc) (seq 2 N)).
  assert (Q : map (@Data sc) (seq 1 N) = @Data sc 1 :: map (@Data sc) (seq 2 (N - 1)))
    by (destruct N; [lia|]; cbn; rewrite Nat.sub_0_r; reflexivity).
  assert (Q2 : map (@Data sc) (seq 2 (N - 1)) ++ [@Data sc (S N)] = q).
  { unfold q. replace N with (N - 1 + 1) at 3 by lia. rewrite seq_app, map_app. cbn [seq map]. repeat f_equal. lia. }
  assert (K : (List.length (map (@Data sc) (seq 2 (N - 1))) <? N) = true) by (apply Nat.ltb_lt; rewrite map_length, seq_length; lia).
  assert (K2 : (List.length q <? N) = false) by (apply Nat.ltb_ge; unfold q; rewrite map_length, seq_length; lia).
  eexists _, _, (@mkP sc (S (S N)) q true WCheck true 1 CShut3), [EvShutdown],
    (@mkP sc (S (S N)) q true WCheck true 1 CIdle), (gets B N), (map (@EvReturn sc) (seq 2 N)), _.
  split.
  { eapply exec_app; [exact X|].
    set (q1 := map (@Data sc) (seq 2 (N - 1))) in *.
    assert (E4 : exec sc B N (@mkP sc (S N) (@Data sc 1 :: q1) false WCheck true 1 CIdle) [LWCheck; LWFetch; LCallShutdown; LShutPoll]
      [EvPoll (@Data sc 1)] (@mkP sc (S (S N)) q1 true (WPut (sc := sc) (S N)) true 1 CShut2)) by (apply prun_exec; reflexivity).
    assert (E5 : pstep sc B N (@mkP sc (S (S N)) q1 true (WPut (sc := sc) (S N)) true 1 CShut2) LWPut =
      Some ([], @mkP sc (S (S N)) q true WCheck true 1 CShut2)) by (unfold pstep; cbn [p_worker p_queue]; rewrite K, <- Q2; reflexivity).
    assert (E6 : pstep sc B N (@mkP sc (S (S N)) q true WCheck true 1 CShut2) LShutPut =
      Some ([], @mkP sc (S (S N)) q true WCheck true 1 CShut3)) by (unfold pstep; cbn [p_pc p_queue]; rewrite K2; reflexivity).
    rewrite Q. eapply exec_app; [exact E4|]. eapply exec_cons; [exact E5|]. eapply exec_cons; [exact E6|].
    constructor. }
  split; [reflexivity|]. split.
  { pose proof (drain None GStop B N (seq 2 N) [] (S (S N)) true WCheck 1) as D. rewrite seq_length, app_nil_r in D. exact D. }
  split.
  - clear. unfold no_reset. induction N as [|N IH]; cbn; [tauto|]. intros [K|[K|K]]; [discriminate|discriminate|tauto].
  - clear. generalize 2. induction N as [|N IH]; intros a; [reflexivity|]. cbn. f_equal. apply IH.
Qed.
Print Assumptions C99_fewer_refuted.

(** The real-image sampler: after [shutdown] at most [buffer_size] batches, all
    other calls of [next] raise, until [reset]. *)
Theorem C99_real : forall fuel tm B N inner b before after,
  let sch := SPrefetch B N inner in
  let run := rcalls (sif_of fuel sch) (shutdown_of fuel sch) b in
  let seen := fst (run after (snd (run (before ++ [Shutdown]) (start_of fuel tm sch)))) in
  1 <= N -> ~ In (Call (SReset true)) after ->
  List.length (shown seen) <= N /\ count_next after <= N + raised seen.
Proof.
  intros fuel tm B N inner b before after sch run seen HN NR.
  assert (L : List.length (shown seen) <= N).
  { unfold seen, run, sch. cbn [sif_of shutdown_of start_of]. apply (rcalls_shut _ _ B N HN); [|exact NR].
    rewrite rcalls_snoc. cbn [do_rcall snd]. apply (shutdown_shut _ _ B N HN). apply (rcalls_ready _ _ B N HN). apply ready_start. }
  split; [exact L|]. pose proof (rcalls_counts (sif_of fuel sch) (shutdown_of fuel sch) b after (snd (run (before ++ [Shutdown]) (start_of fuel tm sch)))) as C.
  fold run in C. fold seen in C. lia.
Qed.
Print Assumptions C99_real.

(** The synthetic sampler: what it has in stock, then [batches_per_flow_batch]
    batches for each of at most [buffer_size] flow batches; and again
    [batches_per_flow_batch] stale ones per exception (C33). *)
Theorem C99_synthetic : forall fuel tm B N inner oflow bflow img (c : scfg (sif_of fuel (SPrefetch B N inner)) oflow bflow img) before after,
  let sch := SPrefetch B N inner in
  let run := scalls c (shutdown_of fuel sch) in
  let seen := fst (run after (snd (run (before ++ [Shutdown]) (syn_init c (start_of fuel tm sch))))) in
  1 <= N -> 1 <= sc_bpf c -> ~ In (Call (SReset true)) after ->
  List.length (shown seen) <= sc_bpf c * (N + 1 + raised seen) /\ count_next after <= List.length (shown seen) + raised seen.
Proof.
  intros fuel tm B N inner oflow bflow img c before after sch run seen HN HB NR. split.
  - unfold seen, run, sch. cbn [shutdown_of].
    set (s := snd (scalls c (pf_shutdown (sif_of fuel inner) (episode_len inner) B N) (before ++ [Shutdown]) (syn_init c (start_of fuel tm (SPrefetch B N inner))))).
    assert (S : shut (sif_of fuel inner) (episode_len inner) B N N (y_sched s)).
    { unfold s. rewrite scalls_snoc. cbn [do_scall snd y_sched set_sched]. apply (shutdown_shut _ _ B N HN).
      apply (scalls_ready _ _ B N HN). apply ready_start. }
    exact (scalls_after _ _ B N HN c after N s HB S NR).
  - apply scalls_counts.
Qed.
Print Assumptions C99_synthetic.

(** The bound without exceptions is not one for the whole run: every exception
    lets the sampler go on with its last flow fields. *)
Definition exD_tm : timing := fun _ => ((6, false), (6, false)).
Definition exD_si : sif := prefetch_sif (toy 9) None 2 2.
Definition exD_cfg : scfg exD_si nat nat (key * nat * nat) := toy_cfg exD_si eq_refl 1 2 2 3.
Definition exD_start : sst exD_si nat nat := syn_init exD_cfg (mkTst (pinit (sched_of (toy 9) None 2) 0) exD_tm).
Definition exD_run (os : list call) := scalls exD_cfg (pf_shutdown (toy 9) None 2 2) os exD_start.

Theorem C99_synthetic_ends_refuted : exists before after,
  let seen := fst (scalls exD_cfg (pf_shutdown (toy 9) None 2 2) after (snd (exD_run (before ++ [Shutdown])))) in
  ~ In (Call (SReset true)) after /\ sc_bpf exD_cfg * (2 + 1) < List.length (shown seen).
Proof.
  exists [Call SNext], (repeat (Call SNext) 20). split.
  - intros K. apply repeat_spec in K. discriminate.
  - vm_compute. lia.
Qed.
Print Assumptions C99_synthetic_ends_refuted.

(** [reset] puts an end to all this: after any calls, [shutdown] among them, a
    sampler over a file scheduler without shuffling behaves like a new one (whose
    thread runs at some other pace, a prompt one if it was prompt before). *)
Lemma file_frame : forall c fuel fl k, c_randomize c = false ->
  let I v := s_files v = fl /\ s_key v = k in
  (forall n v, I v -> I (snd (si_get (base_sif c fuel) n v))) /\
  (forall v, I v -> I (snd (si_next (base_sif c fuel) v))) /\
  (forall v, I v -> I (si_reset (base_sif c fuel) v)) /\
  I (init c fl k) /\ (forall v, I (si_reset (base_sif c fuel) v) -> si_reset (base_sif c fuel) v = init c fl k).
Proof.
  intros c fuel fl k HR I. unfold I. split; [|split; [|split; [|split]]].
  - intros n v [E1 E2]. pose proof (op_frame c fuel (OGet n) v HR) as F. cbn [do_op] in F. cbn [si_get base_sif].
    destruct (get_batch c fuel n v) as [r s']. cbn [snd] in *. destruct F. split; congruence.
  - intros v E. exact E.
  - intros v [E1 E2]. cbn [si_reset base_sif]. unfold reset. rewrite HR. cbn. auto.
  - unfold init. rewrite HR. cbn. auto.
  - intros v. cbn [si_reset base_sif]. unfold reset, init. rewrite HR. cbn. intros [-> ->]. reflexivity.
Qed.

Theorem C99_reset_real : forall a c fl k fuel tm B N b calls ops,
  let sch := SPrefetch B N (SFile a c (init c fl k)) in
  let run := rcalls (sif_of fuel sch) (shutdown_of fuel sch) b in
  1 <= N -> c_randomize c = false ->
  exists tm', (prompt tm -> prompt tm') /\
    fst (run ops (snd (run (calls ++ [Call (SReset true)]) (start_of fuel tm sch)))) = fst (run ops (start_of fuel tm' sch)).
Proof.
  intros a c fl k fuel tm B N b calls ops sch run HN HR. destruct (file_frame c fuel fl k HR) as (F1 & F2 & F3 & F4 & F5).
  set (I0 := fun v : Base.st => s_files v = fl /\ s_key v = k) in *.
  pose proof (rcalls_kept (base_sif c fuel) None B N HN I0 F1 F2 F3 (init c fl k) F4 F5 tm b calls _
    (start_kept (base_sif c fuel) None B N I0 (init c fl k) F4 tm)) as K.
  destruct (reset_kept (base_sif c fuel) None B N HN I0 F1 F2 F3 (init c fl k) F5 tm _ K) as (tm' & E & A).
  exists tm'. split; [exact (after_prompt _ _ A)|]. unfold run. rewrite rcalls_snoc. cbn [do_rcall do_rop real_reset snd].
  f_equal. f_equal. exact E.
Qed.
Print Assumptions C99_reset_real.

Theorem C99_reset_synthetic : forall a c fl k fuel tm B N oflow bflow img calls ops,
  let sch := SPrefetch B N (SFile a c (init c fl k)) in
  forall sc_ : scfg (sif_of fuel sch) oflow bflow img,
  1 <= N -> c_randomize c = false ->
  exists tm', (prompt tm -> prompt tm') /\
    fst (srun sc_ ops (snd (scalls sc_ (shutdown_of fuel sch) (calls ++ [Call (SReset true)]) (syn_init sc_ (start_of fuel tm sch))))) =
    fst (srun sc_ ops (syn_init sc_ (start_of fuel tm' sch))).
Proof.
  intros a c fl k fuel tm B N oflow bflow img calls ops sch sc_ HN HR. destruct (file_frame c fuel fl k HR) as (F1 & F2 & F3 & F4 & F5).
  set (I0 := fun v : Base.st => s_files v = fl /\ s_key v = k) in *.
  pose proof (scalls_kept (base_sif c fuel) None B N HN I0 F1 F2 F3 (init c fl k) F4 F5 sc_ tm calls (syn_init sc_ (start_of fuel tm sch))
    (start_kept (base_sif c fuel) None B N I0 (init c fl k) F4 tm)) as K.
  destruct (reset_kept (base_sif c fuel) None B N HN I0 F1 F2 F3 (init c fl k) F5 tm _ K) as (tm' & E & A).
  exists tm'. split; [exact (after_prompt _ _ A)|]. rewrite scalls_snoc. cbn [do_scall do_sop snd]. rewrite reset_run.
  f_equal. f_equal. f_equal. exact E.
Qed.
Print Assumptions C99_reset_synthetic.

(** ** Concrete cases: batches of two numbers, a buffer of two.  [shutdown] throws
    the batch [2; 3] away; two more come, then nothing, until [reset]. *)
Definition exD_view {i : Type} (o : @sobs nat i) :=
  match o with SBatch b => inl (ba_flows b) | SUnit => inr None | SRaise e => inr (Some e) end.

Example C99_case_real :
  map exD_view (fst (rcalls exD_si (pf_shutdown (toy 9) None 2 2) 2
    [Call SNext; Shutdown; Call SNext; Call SNext; Call SNext; Call (SReset false); Call SNext; Shutdown; Call SNext;
     Call (SReset true); Call SNext; Call SNext]
    (mkTst (pinit (sched_of (toy 9) None 2) 0) exD_tm))) =
  [inl [0; 1]; inr None; inl [4; 5]; inl [6; 7]; inr (Some StopIteration); inr None; inr (Some StopIteration); inr None;
   inr (Some StopIteration); inr None; inl [0; 1]; inl [2; 3]].
Proof. vm_compute. reflexivity. Qed.

(** Three image batches per flow batch: two in stock, then twice three, then stale ones. *)
Example C99_case_synthetic :
  map exD_view (fst (exD_run ([Call SNext; Shutdown] ++ repeat (Call SNext) 12))) =
  [inl [0; 1]; inr None; inl [0; 1]; inl [0; 1]; inl [4; 5]; inl [4; 5]; inl [4; 5]; inl [6; 7]; inl [6; 7]; inl [6; 7];
   inr (Some StopIteration); inl [6; 7]; inl [6; 7]; inl [6; 7]].
Proof. vm_compute. reflexivity. Qed.
