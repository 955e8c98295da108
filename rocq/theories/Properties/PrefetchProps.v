(** Properties C21-C30, C74: the prefetching scheduler, under every
    interleaving of the consumer with the background thread.  [exec sc B N s ls
    es s'] is an execution from [s] to [s'] with the transitions [ls] and the
    events [es]; [pinit sc u] is the prefetcher just constructed over a
    scheduler in state [u]; [calls n u] is what the wrapped scheduler returns
    in its first [n] calls when used directly. *)
From Coq Require Import List Arith ZArith Bool Lia.
From Verif Require Import Model.Prefetch Model.StartRace Spec.PrefetchSpec.
From Verif Require Import Proofs.PrefetchProofs Proofs.PrefetchMore Proofs.PrefetchEnd Proofs.PrefetchEpisodes
  Proofs.PrefetchWitness Proofs.StartRaceProofs.
Import ListNotations.
Local Open Scope nat_scope.

(** ** C21 *)

(** Since construction or the last completed reset, what was handed out is a
    subsequence of what the wrapped scheduler has returned in the calls made so
    far. *)
Theorem C21_order_no_duplicates : forall sc B N u ls es s,
  1 <= N -> exec sc B N (pinit sc u) ls es s ->
  exists ls1 es1 u0 ls2 es2,
    ls = ls1 ++ ls2 /\ es = es1 ++ es2 /\ no_reset ls2 /\
    (ls1 = [] /\ u0 = u \/ (exists p, ls1 = p ++ [LResetJoin]) /\ exists v, u0 = sc_reset sc v) /\
    subseq (handed es2) (fst (calls (fetches ls2) u0)).
Proof.
  intros sc B N u ls es s HN H.
  destruct (last_reset sc B N u ls es s H) as (ls1 & es1 & u0 & ls2 & es2 & -> & -> & E1 & E2 & NR & _ & D).
  exists ls1, es1, u0, ls2, es2. repeat split; auto.
  - destruct D as [(-> & _ & ->)|(p & q & s1 & -> & _ & _ & _ & ->)]; [left | right]; eauto.
  - pose proof (conserved_exec sc B N HN u0 ls2 es2 s E2 NR) as C. rewrite C. cbn [fst].
    apply subseq_app_r. apply handed_removed.
Qed.
Print Assumptions C21_order_no_duplicates.

(** The batches [get_batch] returned, in the first generation. *)
Theorem C21_returned : forall sc B N u ls es s,
  1 <= N -> exec sc B N (pinit sc u) ls es s -> no_reset ls ->
  subseq (returned es) (handed es) /\ subseq (handed es) (fst (calls (fetches ls) u)).
Proof.
  intros sc B N u ls es s HN H NR. split; [apply returned_handed|].
  rewrite (conserved_exec sc B N HN u ls es s H NR). cbn [fst].
  apply subseq_app_r. apply handed_removed.
Qed.
Print Assumptions C21_returned.

(** ** C22 *)
Theorem C22_no_loss_before_forced_marker : forall sc B N u ls es s,
  1 <= N -> exec sc B N (pinit sc u) ls es s ->
  ~ In LCallReset ls -> no_shutdown ls -> dropped es = [] ->
  fst (calls (fetches ls) u) = handed es ++ queued (p_queue s) ++ inflight s.
Proof. intros sc B N u ls es s HN. exact (loss_none sc B N HN u ls es s). Qed.
Print Assumptions C22_no_loss_before_forced_marker.

(** If a batch [b] was dropped for the marker it was the oldest one not handed
    out yet, and it is the only one missing. *)
Theorem C22_forced_marker_drops_oldest : forall sc B N u ls es s,
  1 <= N -> exec sc B N (pinit sc u) ls es s ->
  ~ In LCallReset ls -> no_shutdown ls -> dropped es <> [] ->
  exists es1 b es2 rest,
    es = es1 ++ EvDrop (Data b) :: es2 /\
    fst (calls (fetches ls) u) = handed es1 ++ b :: rest /\
    handed es ++ queued (p_queue s) = handed es1 ++ rest /\ inflight s = [].
Proof. intros sc B N u ls es s HN. exact (loss_one sc B N HN u ls es s). Qed.
Print Assumptions C22_forced_marker_drops_oldest.

(** A batch is dropped only if earlier, right after the wrapped scheduler has
    raised StopIteration, the buffer was full: a consumer that keeps up loses
    nothing. *)
Theorem C22_drop_needs_full_buffer : forall sc B N u ls es s,
  1 <= N -> exec sc B N (pinit sc u) ls es s -> no_reset ls -> dropped es <> [] ->
  exists ls1 es1 s1 ls2 es2, ls = ls1 ++ ls2 /\ es = es1 ++ es2 /\
    exec sc B N (pinit sc u) ls1 es1 s1 /\ exec sc B N s1 ls2 es2 s /\ List.length (p_queue s1) = N /\
    exists k, S k = fetches ls1 /\ answer k u = GStop.
Proof. intros sc B N u ls es s HN. exact (drop_needs_full sc B N HN u ls es s). Qed.
Print Assumptions C22_drop_needs_full_buffer.

(** In all: one batch per generation, and one per call of [reset]/[shutdown]. *)
Theorem C22_loss_bound : forall sc B N u ls es s,
  1 <= N -> exec sc B N (pinit sc u) ls es s -> no_reset ls ->
  List.length (fst (calls (fetches ls) u)) <=
  List.length (handed es) + List.length (queued (p_queue s)) + List.length (inflight s) + 1 +
  List.length (filter (fun l => match l with LCallReset | LCallShutdown => true | _ => false end) ls).
Proof. intros sc B N u ls es s HN. exact (loss_bound sc B N HN u ls es s). Qed.
Print Assumptions C22_loss_bound.

(** For every buffer size there is a schedule without [reset] or [shutdown] in
    which the consumer reads to the end of the stream and never gets batch 1. *)
Theorem C22_all_batches_arrive_refuted : forall B N, 1 <= N ->
  exists sc u ls es s b,
    exec sc B N (pinit sc u) ls es s /\ ~ In LCallReset ls /\ no_shutdown ls /\
    In EvStopEos es /\ In b (fst (calls (fetches ls) u)) /\ ~ In b (handed es).
Proof.
  intros B N H. destruct (lossy_run B N H) as [s E].
  exists (numbers (Some (S N)) GStop), 0, (lossy B N). eexists. exists s, 1.
  assert (G : forall m l, In l (gets B m) -> l = LCallGet B \/ l = LTake).
  { induction m; cbn; [tauto|]. intros l [<-|[<-|K]]; auto. }
  assert (CY : forall m l, In l (cycles m) -> l = LWCheck \/ l = LWFetch \/ l = LWPut).
  { induction m; cbn; [tauto|]. intros l [<-|[<-|[<-|K]]]; auto. }
  assert (A : ~ In LCallReset (lossy B N)).
  { unfold lossy. cbn. rewrite !in_app_iff. cbn. rewrite ?in_app_iff.
    intros K. repeat (destruct K as [K|K]; try discriminate); try (apply CY in K as [K|[K|K]]; discriminate);
      try (apply G in K as [K|K]; discriminate); auto. }
  assert (A2 : no_shutdown (lossy B N)).
  { unfold no_shutdown, lossy. cbn. rewrite !in_app_iff. cbn. rewrite ?in_app_iff.
    intros K. repeat (destruct K as [K|K]; try discriminate); try (apply CY in K as [K|[K|K]]; discriminate);
      try (apply G in K as [K|K]; discriminate); auto. }
  split; [exact E|]. split; [exact A|]. split; [exact A2|]. split; [|split].
  - rewrite !in_app_iff. right. right. cbn. auto.
  - pose proof (loss_one _ _ _ H _ _ _ _ E A A2) as K.
    destruct K as (es1 & b & es2 & rest & E1 & E2 & _).
    + rewrite dropped_app. cbn. discriminate.
    + rewrite E2. apply in_app_iff. right. left.
      assert (D : dropped (es1 ++ EvDrop (Data b) :: es2) = dropped es1 ++ b :: dropped es2)
        by (rewrite dropped_app; reflexivity).
      rewrite <- E1 in D. rewrite dropped_app in D. cbn in D.
      assert (Z : forall l, @dropped (numbers (Some (S N)) GStop) (map EvReturn l ++ [EvStopEos]) = []).
      { induction l; cbn; auto. }
      rewrite Z in D. cbn in D. destruct (dropped es1) as [|x [|y r]]; cbn in D; congruence.
  - rewrite handed_app. cbn. rewrite handed_app.
    assert (Z : forall l, @handed (numbers (Some (S N)) GStop) (map EvReturn l) = l).
    { induction l; cbn; f_equal; auto. }
    rewrite Z. cbn. rewrite app_nil_r. intros [K|K]; [discriminate|]. apply in_seq in K. lia.
Qed.
Print Assumptions C22_all_batches_arrive_refuted.

(** ** C23 *)
Theorem C23_queue_bound : forall sc B N u ls es s,
  1 <= N -> exec sc B N (pinit sc u) ls es s -> List.length (p_queue s) <= N.
Proof.
  intros sc B N u ls es s HN H.
  apply (b_queue sc N s). eapply basic_exec; [exact HN | apply basic_init | exact H].
Qed.
Print Assumptions C23_queue_bound.

(** ** C24 *)

(** After [get_batch] (or [next_episode]) has read the marker nothing is handed
    out any more; [shutdown] aside, see below. *)
Theorem C24_marker_permanent : forall sc B N u ls1 es1 s1 ls2 es2 s2,
  1 <= N -> exec sc B N (pinit sc u) ls1 es1 s1 -> exec sc B N s1 ls2 es2 s2 ->
  no_reset (ls1 ++ ls2) -> no_shutdown (ls1 ++ ls2) -> In EvStopEos es1 \/ In EvNextEos es1 ->
  handed es2 = [].
Proof. intros sc B N u ls1 es1 s1 ls2 es2 s2 HN. exact (eos_permanent sc B N HN u ls1 es1 s1 ls2 es2 s2). Qed.
Print Assumptions C24_marker_permanent.

(** The wrapped scheduler's StopIteration reaches the consumer as a marker: when
    the thread has ended, the marker is in the queue or has been read. *)
Theorem C24_marker_arrives : forall sc B N u ls es s,
  1 <= N -> exec sc B N (pinit sc u) ls es s -> ~ In LCallReset ls -> no_shutdown ls ->
  (exists k, k < fetches ls /\ answer k u = GStop) -> is_running s = false ->
  In EOS (p_queue s) \/ In EvStopEos es \/ In EvNextEos es.
Proof. intros sc B N u ls es s HN. exact (marker_arrives sc B N HN u ls es s). Qed.
Print Assumptions C24_marker_arrives.

(** Once the thread has ended, what comes out, in order, is what is queued. *)
Theorem C24_after_producer_ended : forall sc B N u ls1 es1 s1 ls2 es2 s2,
  1 <= N -> exec sc B N (pinit sc u) ls1 es1 s1 -> p_worker s1 = WDone \/ p_worker s1 = WCrashed ->
  exec sc B N s1 ls2 es2 s2 -> no_reset ls2 -> polled es2 = [] ->
  handed es2 ++ queued (p_queue s2) = queued (p_queue s1).
Proof.
  intros sc B N u ls1 es1 s1 ls2 es2 s2 HN H1 W H2 NR P.
  assert (ST : p_started s1 = true).
  { pose proof (basic_exec sc B N HN _ _ _ _ (basic_init sc N u) H1) as BS.
    destruct (p_started s1) eqn:S; auto. apply (b_started _ _ _ BS) in S. destruct W; congruence. }
  assert (D : drops sc es2 = 0).
  { pattern ls2, es2, s2. clear P. revert ls2 es2 s2 H2 NR. 
    assert (X : forall ls es s, exec sc B N s1 ls es s -> no_reset ls -> ended sc s /\ drops sc es = 0).
    { intros ls es s H. pattern ls, es, s. revert ls es s H. apply (exec_ind_inv sc B N).
      - intros _. split; [split; auto | reflexivity].
      - intros ls es s l e s' _ IH H NR. unfold no_reset in NR. rewrite in_app_iff in NR. cbn in NR.
        destruct IH as [A D]; [unfold no_reset; tauto|].
        destruct (ended_step sc B N s l e s' A H) as (A2 & _ & _ & _); [intros ->; tauto|].
        split; [assumption|]. rewrite drops_app, D. destruct A as [W' _].
        destruct H; cbn; auto; try (destruct W'; congruence). destruct i; reflexivity. }
    intros ls es s H NR. apply (X ls es s H NR). }
  destruct (ended_exec sc B N _ _ _ _ H2 (conj W ST) NR) as (_ & R & _).
  rewrite (removed_split sc es2 P D) in R. exact R.
Qed.
Print Assumptions C24_after_producer_ended.

(** With a [shutdown] in between, StopIteration may be followed by a batch. *)
Theorem C24_permanent_after_shutdown_refuted :
  exists sc u ls es b s, exec sc 1 1 (pinit sc u) ls (es ++ [EvStopEos; EvReturn b]) s /\ no_reset ls.
Proof. destruct revived as (ls & es & b & s & H). exists (numbers None GStop), 0, ls, es, b, s. exact H. Qed.
Print Assumptions C24_permanent_after_shutdown_refuted.

(** A StopIteration caused by a timeout is not the end, for any buffer size. *)
Theorem C24_timeout_stop_permanent_refuted : forall B N, 1 <= N ->
  exists sc u ls b s, exec sc B N (pinit sc u) ls [EvStopTimeout; EvReturn b] s /\
    no_reset ls /\ no_shutdown ls.
Proof.
  intros B N H. destruct (spurious_stop B N H) as (ls & s & K).
  exists (numbers None GStop), 0, ls, 0, s. exact K.
Qed.
Print Assumptions C24_timeout_stop_permanent_refuted.

(** ** C25 *)

(** While [reset] waits for the thread ([CReset2]): any run of the thread has
    at most four steps; as long as it is alive it can step; then [reset]
    returns. *)
Theorem C25_reset_terminates : forall sc B N u ls es s ls' es' s',
  1 <= N -> exec sc B N (pinit sc u) ls es s -> p_pc s = CReset2 ->
  exec sc B N s ls' es' s' -> Forall (fun l => worker_label l = true) ls' ->
  List.length ls' <= 4 /\ p_pc s' = CReset2 /\
  (if alive (p_worker s') then worker_enabled B N s'
   else pstep sc B N s' LResetJoin = Some ([EvReset], pinit sc (sc_reset sc (p_sched s')))).
Proof. intros sc B N u ls es s ls' es' s' HN. exact (reset_terminates sc B N HN u ls es s ls' es' s'). Qed.
Print Assumptions C25_reset_terminates.

(** A completed [reset] leaves the state of a prefetcher just constructed over
    the reset scheduler (so C21-C24 apply afresh), and at that time the old
    thread is dead. *)
Theorem C25_reset_is_fresh : forall sc B N u ls es s s' e,
  1 <= N -> exec sc B N (pinit sc u) ls es s -> pstep sc B N s LResetJoin = Some (e, s') ->
  alive (p_worker s) = false /\ s' = pinit sc (sc_reset sc (p_sched s)) /\ p_queue s' = [].
Proof.
  intros sc B N u ls es s s' e HN H K. apply step_R in K. inversion K; subst. auto.
Qed.
Print Assumptions C25_reset_is_fresh.

(** The Thread object is started only when it never was, so there is at most
    one live thread and [start] never raises. *)
Theorem C25_one_thread : forall sc B N u ls es s,
  1 <= N -> exec sc B N (pinit sc u) ls es s -> (p_started s = false <-> p_worker s = WIdle).
Proof.
  intros sc B N u ls es s HN H.
  apply (b_started sc N s). eapply basic_exec; [exact HN | apply basic_init | exact H].
Qed.
Print Assumptions C25_one_thread.

(** ** C26 *)

(** After [shutdown] (or [reset]) was called the thread calls the wrapped
    [get_batch] at most once more. *)
Theorem C26_at_most_one_more_fetch : forall sc B N u ls1 es1 s1 c e1 s1' ls2 es2 s2,
  1 <= N -> exec sc B N (pinit sc u) ls1 es1 s1 -> c = LCallShutdown \/ c = LCallReset ->
  pstep sc B N s1 c = Some (e1, s1') ->
  exec sc B N s1' ls2 es2 s2 -> no_reset ls2 -> fetches ls2 <= 1.
Proof.
  intros sc B N u ls1 es1 s1 c e1 s1' ls2 es2 s2 HN H1 C S H2 NR.
  pose proof (basic_exec sc B N HN _ _ _ _ (basic_init sc N u) H1) as BS.
  assert (K : started_iff sc s1' /\ p_stop s1' = true).
  { split; [eapply (b_started sc N s1'), basic_step; eauto|].
    apply step_R in S. destruct C as [-> | ->]; inversion S; reflexivity. }
  destruct K as [K1 K2].
  destruct (stopped_fetches sc B N HN s1' ls2 es2 s2 H2 K1 K2 NR) as [_ K].
  destruct (p_worker s1'); lia.
Qed.
Print Assumptions C26_at_most_one_more_fetch.

(** If there is room for one more item when the stop flag is set, the thread
    ends after at most four of its own steps. *)
Theorem C26_terminates_with_room : forall sc B N u ls es s ls' es' s',
  1 <= N -> exec sc B N (pinit sc u) ls es s -> p_stop s = true -> List.length (p_queue s) < N ->
  exec sc B N s ls' es' s' -> Forall (fun l => worker_label l = true) ls' ->
  List.length ls' <= 4 /\ (alive (p_worker s') = true -> worker_enabled B N s').
Proof.
  intros sc B N u ls es s ls' es' s' HN H S R H' F.
  destruct (worker_run sc B N HN s ls' es' s' H') as (A & R' & T & _); auto.
  - unfold room. destruct (p_worker s); auto.
  - split; [destruct (p_worker s); cbn in T; lia | intros AL; apply room_enabled; auto].
Qed.
Print Assumptions C26_terminates_with_room.

(** Otherwise, for every buffer size, there is a schedule after which
    [shutdown] has returned, the thread is alive, and it has no next step. *)
Theorem C26_thread_ends_refuted : forall B N, 1 <= N ->
  exists sc u ls es s, exec sc B N (pinit sc u) ls (es ++ [EvShutdown]) s /\
    p_pc s = CIdle /\ is_running s = true /\ ~ worker_enabled B N s.
Proof.
  intros B N H. exists (numbers None GStop), 0, (leaky B N). eexists [_; _]. eexists. split.
  - apply (leaky_run B N H).
  - split; [reflexivity|]. split; [reflexivity|].
    eapply full_put_blocked; [reflexivity|]. cbn. rewrite app_length, map_length, seq_length. cbn. lia.
Qed.
Print Assumptions C26_thread_ends_refuted.

(** ** C27 *)
Theorem C27_aligned : forall sc B N L u ep ls es s,
  1 <= N -> sc_len sc = Some L -> yields_episodes L u ep ->
  exec sc B N (pinit sc u) ls es s ->
  ~ In LCallReset ls -> no_shutdown ls -> ~ In LDiscardTimeout ls ->
  forall es1 b es2 e k begun,
    es = es1 ++ EvReturn b :: es2 -> place es1 = (e, k, begun) -> k < L /\ b = ep e k.
Proof.
  intros sc B N L u ep ls es s HN HL HE H Q1 Q2 Q3.
  exact (aligned sc B N HN L u ep HL HE ls es s H (conj Q1 (conj Q2 Q3))).
Qed.
Print Assumptions C27_aligned.

Theorem C27_aligned_after_timeout_refuted : forall B N, 1 <= N ->
  exists sc L u ep ls es s, sc_len sc = Some L /\ yields_episodes L u ep /\
    exec sc B N (pinit sc u) ls es s /\ ~ In LCallReset ls /\ no_shutdown ls /\
    exists es1 b es2 e k begun,
      es = es1 ++ EvReturn b :: es2 /\ place es1 = (e, k, begun) /\ k = 0 /\
      (forall e', b <> ep e' 0).
Proof.
  intros B N H. destruct (misaligned B N H) as (ls & s & E & A1 & A2).
  exists (grid 2), 2, (0, 0), (fun e t => (e, t)), ls. eexists. exists s.
  split; [reflexivity|]. split; [apply grid_yields|]. split; [exact E|]. split; [exact A1|]. split; [exact A2|].
  exists [@EvReturn (grid 2) (0, 0); EvNextTimeout], (0, 1), []. cbn. exists 1, 0, true.
  repeat split; auto. discriminate.
Qed.
Print Assumptions C27_aligned_after_timeout_refuted.

(** ** C28 *)
Theorem C28_steps_remaining : forall sc B N u ls es s L,
  1 <= N -> sc_len sc = Some L -> exec sc B N (pinit sc u) ls es s ->
  taken_in_episode es <= L /\
  psteps_remaining s = (Z.of_nat L - Z.of_nat (taken_in_episode es))%Z.
Proof. intros sc B N u ls es s L HN. exact (steps_range sc B N HN u ls es s L). Qed.
Print Assumptions C28_steps_remaining.

Theorem C28_episode_end_iff : forall sc B N u ls es s L e s',
  1 <= N -> sc_len sc = Some L -> exec sc B N (pinit sc u) ls es s ->
  pstep sc B N s (LCallGet B) = Some (e, s') ->
  (In EvEpisodeEnd e <-> psteps_remaining s = 0%Z).
Proof. intros sc B N u ls es s L e s' HN. exact (end_iff sc B N HN u ls es s L e s'). Qed.
Print Assumptions C28_episode_end_iff.

(** ** C29 *)

(** After the thread has died of an exception: everything it fetched is
    either handed out or queued; what is handed out later comes from the queue
    in order; and StopIteration is only raised when nothing is left. *)
Theorem C29_crash_is_end_of_data : forall sc B N u ls1 es1 s1 ls2 es2 s2,
  1 <= N -> exec sc B N (pinit sc u) ls1 es1 s1 -> p_worker s1 = WCrashed ->
  exec sc B N s1 ls2 es2 s2 ->
  ~ In LCallReset (ls1 ++ ls2) -> no_shutdown (ls1 ++ ls2) ->
  let all := fst (calls (fetches ls1) u) in
  handed es1 ++ handed es2 ++ queued (p_queue s2) = all /\
  (forall l s3, pstep sc B N s2 l = Some ([EvStopTimeout], s3) -> handed (es1 ++ es2) = all) /\
  (forall l b s3, pstep sc B N s2 l = Some ([EvReturn b], s3) ->
     exists rest, all = handed (es1 ++ es2) ++ b :: rest).
Proof.
  intros sc B N u ls1 es1 s1 ls2 es2 s2 HN H1 W H2 NR NS all.
  unfold no_shutdown in NS. rewrite in_app_iff in NR, NS.
  assert (R1 : ~ In LCallReset ls1) by tauto. assert (S1 : no_shutdown ls1) by (unfold no_shutdown; tauto).
  assert (D1 : dropped es1 = []).
  { destruct (no_callreset_no_join sc B N u ls1 es1 s1 H1 R1) as (_ & _ & K).
    destruct (drops_inv sc B N HN u ls1 es1 s1 H1 K) as [Z|(_ & [X|X] & _)]; try congruence.
    apply drops0_dropped. assumption. }
  pose proof (loss_none sc B N HN u ls1 es1 s1 H1 R1 S1 D1) as C.
  assert (IN : inflight s1 = []) by (unfold inflight; rewrite W; reflexivity).
  rewrite IN, app_nil_r in C.
  pose proof (exec_app sc B N _ _ _ _ _ _ _ H1 H2) as H12.
  assert (R12 : ~ In LCallReset (ls1 ++ ls2)) by (rewrite in_app_iff; tauto).
  assert (S12 : no_shutdown (ls1 ++ ls2)) by (unfold no_shutdown; rewrite in_app_iff; tauto).
  pose proof (quiet_polled sc B N HN u _ _ _ H12 R12 S12) as P.
  rewrite polled_app in P. apply app_eq_nil in P as [_ P2].
  assert (NR2 : no_reset ls2).
  { destruct (no_callreset_no_join sc B N u _ _ _ H12 R12) as (_ & _ & K).
    unfold no_reset. intros X. apply K. apply in_app_iff. auto. }
  pose proof (C24_after_producer_ended sc B N u ls1 es1 s1 ls2 es2 s2 HN H1 (or_intror W) H2 NR2 P2) as E.
  assert (A : handed es1 ++ handed es2 ++ queued (p_queue s2) = all).
  { unfold all. rewrite C, E. reflexivity. }
  split; [exact A|]. split.
  - intros l s3 K. apply step_R in K.
    assert (Q : p_queue s2 = []) by (eapply timeout_empty; [exact K | cbn; auto]).
    rewrite Q in A. cbn in A. rewrite app_nil_r in A. rewrite handed_app. exact A.
  - intros l b s3 K. apply step_R in K. rewrite handed_app.
    inversion K as [| | |i q P Q E3 E4| | | | | | | | | | | | | | | | | | | | | | | | | | | | | | |].
    destruct i as [b'|]; [|discriminate E4]. injection E4 as ->.
    rewrite Q in A. cbn in A. exists (queued q). rewrite <- app_assoc, <- A. reflexivity.
Qed.
Print Assumptions C29_crash_is_end_of_data.

(** The thread does not call the wrapped scheduler again after the first
    call that ends the stream, whether by StopIteration or another exception. *)
Theorem C29_no_call_after_the_last : forall sc B N u ls es s,
  1 <= N -> exec sc B N (pinit sc u) ls es s -> no_reset ls ->
  forall k, last_call k u -> fetches ls <= S k.
Proof.
  intros sc B N u ls es s HN H NR k K.
  destruct (Nat.lt_ge_cases k (fetches ls)) as [L|L]; [|lia].
  destruct (last_inv sc B N HN u ls es s H NR k L K). lia.
Qed.
Print Assumptions C29_no_call_after_the_last.

(** ** C30 *)
Theorem C30_overlapping_first_calls_fail :
  exists l, (forall i, In i l -> i = 0 \/ i = 1) /\ s_pc (srun l) 0 = SDone /\ s_pc (srun l) 1 = SError.
Proof. exact start_twice. Qed.
Print Assumptions C30_overlapping_first_calls_fail.

(** For any number of callers, none reading the flag between another's read
    and write: no error, and one start once everyone who entered has left. *)
Theorem C30_started_once : forall l, no_overlap l ->
  (forall i, s_pc (srun l) i <> SError) /\ s_starts (srun l) <= 1 /\
  (forall i, s_pc (srun l) i = SDone -> (forall j, s_pc (srun l) j <> SSet) -> s_starts (srun l) = 1).
Proof. exact start_once. Qed.
Print Assumptions C30_started_once.

(** ** C74 *)

(** While [get_batch] waits on an empty queue, a live thread can always step,
    and unless the wrapped scheduler raises EpisodeEnd twice in a row it puts
    something (or ends) within five steps. *)
Theorem C74_waiting_get_is_served : forall sc B N u ls es s ls' es' s',
  1 <= N -> exec sc B N (pinit sc u) ls es s -> p_pc s = CGet ->
  (forall v w x y, sc_get sc v = (GEpisodeEnd, w) -> sc_next sc w = Some x -> sc_get sc x <> (GEpisodeEnd, y)) ->
  exec sc B N s ls' es' s' -> Forall (fun l => worker_label l = true) ls' -> p_queue s' = [] ->
  List.length ls' <= 5 /\ (alive (p_worker s') = true -> worker_enabled B N s').
Proof.
  intros sc B N u ls es s ls' es' s' HN H P ND H' F Q.
  apply (wait_progress sc B N HN s ls' es' s' H'); auto. unfold no_double_end. eauto.
Qed.
Print Assumptions C74_waiting_get_is_served.

(** ** Concrete executions meeting the hypotheses *)

Example ex_lossy : exists s, exec (numbers (Some 4) GStop) 2 3 (pinit (numbers (Some 4) GStop) 0) (lossy 2 3)
  [EvReturn (sc := numbers (Some 4) GStop) 0; EvDrop (Data (sc := numbers (Some 4) GStop) 1);
   EvReturn (sc := numbers (Some 4) GStop) 2; EvReturn (sc := numbers (Some 4) GStop) 3; EvStopEos] s.
Proof. apply (lossy_run 2 3). lia. Qed.

(** In that run call 4 ends the stream, and the buffer is full before the drop. *)
Example ex_lossy_end : last_call (sc := numbers (Some 4) GStop) 4 0 /\
  answer (sc := numbers (Some 4) GStop) 4 0 = GStop /\ fetches (lossy 2 3) = 5.
Proof. repeat split. left. reflexivity. Qed.

Example ex_grid := grid_run.
Example ex_reset := reset_run.
Example ex_crash := crash_run.
Example ex_leaky := leaky_run 2 3.

(** Callers one after the other do not overlap. *)
Example ex_no_overlap : no_overlap [0; 0; 0; 1; 2].
Proof.
  intros l1 i l2 E P j.
  destruct l1 as [|a1 [|a2 [|a3 [|a4 [|a5 [|a6 l1]]]]]]; cbn in E; try discriminate E;
    injection E as; subst; cbn in *; try discriminate P;
    unfold upd; cbn; repeat (destruct j as [|j]; cbn; try discriminate).
Qed.
