(** Concrete schedulers and schedules: counterexamples and non-vacuity. *)
From Coq Require Import List Arith Bool ZArith Lia.
Import ListNotations.
From Verif Require Import Model.Prefetch Spec.PrefetchSpec Proofs.PrefetchProofs Proofs.PrefetchMore
  Proofs.PrefetchEpisodes.
Local Open Scope nat_scope.

(** Executing a list of labels. *)
Fixpoint prun (sc : sched) (B N : nat) (s : pst sc) (ls : list label) : option (list (event sc) * pst sc) :=
  match ls with
  | [] => Some ([], s)
  | l :: r =>
      match pstep sc B N s l with
      | None => None
      | Some (e, s1) =>
          match prun sc B N s1 r with
          | None => None
          | Some (es, s2) => Some (e ++ es, s2)
          end
      end
  end.

Lemma prun_exec : forall sc B N ls s es s', prun sc B N s ls = Some (es, s') -> exec sc B N s ls es s'.
Proof.
  induction ls as [|l ls IH]; intros s es s' H; cbn in H.
  - injection H as <- <-. constructor.
  - destruct (pstep sc B N s l) as [[e s1]|] eqn:E; [|discriminate].
    destruct (prun sc B N s1 ls) as [[es1 s2]|] eqn:E2; [|discriminate].
    injection H as <- <-. eapply exec_cons; eauto.
Qed.

(** Run [ls] by computation and use the final state as the witness. *)
Ltac run_labels sc B N u ls :=
  let r := eval vm_compute in (prun sc B N (pinit sc u) ls) in
  match r with
  | Some (_, ?s) => exists ls, s; split; [apply prun_exec; vm_cast_no_check (eq_refl r)|]
  end.

(** The batches are numbered; there are [k] of them ([None]: no end), then
    [after]. *)
Definition numbers (k : option nat) (after : gres nat) : sched :=
  mkSched nat nat
    (fun n => match k with
              | Some m => if n <? m then (GBatch n, S n) else (after, n)
              | None => (GBatch n, S n)
              end)
    (fun _ => None) (fun _ => 0) None.

(** Episodes of length [L]; a batch is its episode number and step. *)
Definition grid (L : nat) : sched :=
  mkSched (nat * nat) (nat * nat)
    (fun s => if snd s <? L then (GBatch s, (fst s, S (snd s))) else (GEpisodeEnd, s))
    (fun s => Some (S (fst s), 0)) (fun _ => (0, 0)) (Some L).

Lemma grid_yields : forall L, yields_episodes (sc := grid L) L (0, 0) (fun e t => (e, t)).
Proof.
  intros L. exists (fun v e t => v = (e, t)). split; [reflexivity|]. split.
  - intros v e t -> H. cbn [grid sc_get fst snd]. apply Nat.ltb_lt in H. rewrite H. eauto.
  - intros v e ->. cbn [grid sc_get sc_next fst snd]. rewrite Nat.ltb_irrefl. eauto.
Qed.

Section Numbers.
Variable k : option nat.
Variable after : gres nat.
Variables B N : nat.
Notation sc := (numbers k after).
Notation exec := (exec sc B N).

Fixpoint cycles (m : nat) : list label :=
  match m with 0 => [] | S j => LWCheck :: LWFetch :: LWPut :: cycles j end.

Definition more (n m : nat) : Prop := match k with Some j => n + m <= j | None => True end.

Lemma get_n : forall n, more n 1 -> sc_get sc n = (GBatch n, S n).
Proof.
  intros n M. unfold more in M. cbn [numbers sc_get]. destruct k as [j|]; [|reflexivity].
  assert (K : (n <? j) = true) by (apply Nat.ltb_lt; lia). rewrite K. reflexivity.
Qed.

(** The thread produces [m] batches into a queue with enough room. *)
Lemma fill : forall m n q t c st, List.length q + m <= N -> more n m ->
  exec (@mkP sc n q false WCheck st t c) (cycles m) []
       (@mkP sc (n + m) (q ++ map (@Data sc) (seq n m)) false WCheck st t c).
Proof.
  induction m as [|m IH]; intros n q t c st H M; cbn [cycles seq map].
  - rewrite Nat.add_0_r, app_nil_r. constructor.
  - replace (n + S m) with (S n + m) by lia.
    replace (q ++ @Data sc n :: map (@Data sc) (seq (S n) m))
      with ((q ++ [@Data sc n]) ++ map (@Data sc) (seq (S n) m)) by (rewrite <- app_assoc; reflexivity).
    change (@nil (event sc)) with (@nil (event sc) ++ ([] ++ ([] ++ []))).
    eapply exec_cons; [reflexivity|].
    eapply exec_cons.
    { cbn [pstep p_worker set_worker p_stop]. unfold fetch. cbn [p_sched set_worker].
      rewrite get_n by (unfold more in *; destruct k; auto; lia). reflexivity. }
    eapply exec_cons; [|apply IH].
    + unfold pstep. cbn [p_worker set_worker set_sched p_queue].
      assert (K : (List.length q <? N) = true) by (apply Nat.ltb_lt; lia).
      rewrite K. reflexivity.
    + rewrite app_length. cbn. lia.
    + unfold more in *. destruct k; auto. lia.
Qed.

Fixpoint gets (m : nat) : list label :=
  match m with 0 => [] | S j => LCallGet B :: LTake :: gets j end.

(** The consumer empties the queue. *)
Lemma drain : forall l q n stop w t,
  exec (@mkP sc n (map (@Data sc) l ++ q) stop w true t CIdle) (gets (List.length l)) (map (@EvReturn sc) l)
       (@mkP sc n q stop w true (t + List.length l) CIdle).
Proof.
  induction l as [|b l IH]; intros q n stop w t; cbn [gets List.length map].
  - rewrite Nat.add_0_r. constructor.
  - replace (t + S (List.length l)) with (S t + List.length l) by lia.
    change (@EvReturn sc b :: map EvReturn l) with ([] ++ [@EvReturn sc b] ++ map EvReturn l).
    eapply exec_cons; [unfold pstep, call_get; cbn; rewrite Nat.eqb_refl; reflexivity|].
    eapply exec_cons; [reflexivity|]. apply IH.
Qed.

End Numbers.

(** First batch delivered, then the queue filled. *)
Lemma primed : forall k after B N, 1 <= N -> more k 0 (S N) ->
  exec (numbers k after) B N (pinit (numbers k after) 0)
    (LCallGet B :: cycles 1 ++ LTake :: cycles N) [@EvReturn (numbers k after) 0]
    (@mkP (numbers k after) (S N) (map (@Data (numbers k after)) (seq 1 N)) false WCheck true 1 CIdle).
Proof.
  intros k after B N H M. set (sc := numbers k after).
  change [@EvReturn sc 0] with ([] ++ ([] ++ ([@EvReturn sc 0] ++ []))).
  eapply exec_cons; [unfold pstep, call_get; cbn; rewrite Nat.eqb_refl; reflexivity|].
  eapply exec_app.
  - apply (fill k after B N 1 0 [] 0 CGet true); [cbn; lia|]. unfold more in *. destruct k; auto. lia.
  - eapply exec_cons; [reflexivity|].
    apply (fill k after B N N 1 [] 1 CIdle true); [cbn; lia|]. unfold more in *. destruct k; auto.
Qed.

(** C22: with [N + 1] batches and a consumer that pauses after the first one,
    batch 1 is lost. *)
Definition lossy (B N : nat) : list label :=
  ((LCallGet B :: cycles 1 ++ LTake :: cycles N) ++ [LWCheck; LWFetch; LWEosFull; LWForce; LWSetStop])
  ++ gets B (N - 1) ++ [LCallGet B; LTake].

(** The wrapped scheduler is at its end and the queue is full. *)
Lemma force_tail : forall B N b q n t, List.length (b :: q) = N ->
  let sc := numbers (Some n) GStop in
  exec sc B N (@mkP sc n (map (@Data sc) (b :: q)) false WCheck true t CIdle)
    [LWCheck; LWFetch; LWEosFull; LWForce; LWSetStop] [EvDrop (@Data sc b)]
    (@mkP sc n (map (@Data sc) q ++ [EOS]) true WDone true t CIdle).
Proof.
  intros B N b q n t H sc.
  change [EvDrop (@Data sc b)] with ([] ++ ([] ++ ([] ++ ([EvDrop (@Data sc b)] ++ ([] ++ []))))).
  eapply exec_cons; [reflexivity|].
  eapply exec_cons.
  { cbn [pstep p_worker set_worker p_stop]. unfold fetch. cbn [p_sched set_worker].
    assert (E : sc_get sc n = (GStop, n)).
    { unfold sc. cbn [numbers sc_get]. rewrite Nat.ltb_irrefl. reflexivity. }
    rewrite E. reflexivity. }
  eapply exec_cons.
  { unfold pstep. cbn [p_worker set_worker set_sched p_queue].
    assert (K : (List.length (map (@Data sc) (b :: q)) <? N) = false).
    { apply Nat.ltb_ge. rewrite map_length. rewrite <- H. cbn. lia. }
    rewrite K. reflexivity. }
  eapply exec_cons; [reflexivity|].
  eapply exec_cons; [reflexivity|]. apply exec_nil.
Qed.

Lemma lossy_run : forall B N, 1 <= N ->
  exists s, exec (numbers (Some (S N)) GStop) B N (pinit (numbers (Some (S N)) GStop) 0) (lossy B N)
    ([@EvReturn (numbers (Some (S N)) GStop) 0; EvDrop (Data (sc := numbers (Some (S N)) GStop) 1)]
      ++ map (@EvReturn (numbers (Some (S N)) GStop)) (seq 2 (N - 1)) ++ [EvStopEos]) s.
Proof.
  intros B N H. eexists. unfold lossy.
  eapply exec_app.
  - eapply (exec_app _ _ _ _ _ [@EvReturn (numbers (Some (S N)) GStop) 0] _ _
             [EvDrop (Data (sc := numbers (Some (S N)) GStop) 1)]).
    + apply primed; [assumption | cbn; lia].
    + replace (seq 1 N) with (1 :: seq 2 (N - 1)) by (destruct N; [lia|]; cbn; rewrite Nat.sub_0_r; reflexivity).
      apply force_tail. cbn. rewrite seq_length. lia.
  - eapply exec_app.
    + assert (G : gets B (N - 1) = gets B (List.length (seq 2 (N - 1)))) by (rewrite seq_length; reflexivity).
      rewrite G. apply drain.
    + apply prun_exec. unfold prun, pstep, call_get. cbn. rewrite Nat.eqb_refl. reflexivity.
Qed.

(** C26: the thread stays blocked after [shutdown]. *)
Definition leaky (B N : nat) : list label :=
  (LCallGet B :: cycles 1 ++ LTake :: cycles N)
  ++ [LWCheck; LWFetch; LCallShutdown; LShutPoll; LShutPut; LShutJoin].

Lemma leaky_run : forall B N, 1 <= N ->
  let sc := numbers None GStop in
  exec sc B N (pinit sc 0) (leaky B N) [@EvReturn sc 0; EvPoll (@Data sc 1); EvShutdown]
    (@mkP sc (S (S N)) (map (@Data sc) (seq 2 (N - 1)) ++ [EOS]) true (WPut (sc := sc) (S N)) true 1 CIdle).
Proof.
  intros B N H sc. unfold leaky.
  eapply (exec_app _ _ _ _ _ [@EvReturn sc 0] _ _ [EvPoll (@Data sc 1); EvShutdown]).
  - apply (primed None GStop); [assumption | exact I].
  - replace (seq 1 N) with (1 :: seq 2 (N - 1)) by (destruct N; [lia|]; cbn; rewrite Nat.sub_0_r; reflexivity).
    change [EvPoll (@Data sc 1); EvShutdown] with ([] ++ ([] ++ ([] ++ ([EvPoll (@Data sc 1)] ++ ([] ++ ([@EvShutdown sc] ++ [])))))).
    eapply exec_cons; [reflexivity|]. eapply exec_cons; [reflexivity|].
    eapply exec_cons; [reflexivity|]. eapply exec_cons; [reflexivity|].
    eapply exec_cons.
    { cbn -[Nat.ltb seq Nat.sub map List.length].
      assert (K : (List.length (map (@Data sc) (seq 2 (N - 1))) <? N) = true)
        by (apply Nat.ltb_lt; rewrite map_length, seq_length; lia).
      match goal with |- context [if ?c then _ else _] => replace c with true by (symmetry; exact K) end.
      reflexivity. }
    eapply exec_cons; [reflexivity|]. apply exec_nil.
Qed.

Lemma full_put_blocked : forall sc B N (s : pst sc) b, p_worker s = WPut b -> N <= List.length (p_queue s) ->
  ~ worker_enabled B N s.
Proof.
  intros sc B N s b W F (l & r & WL & H). destruct l; try discriminate WL; unfold pstep in H; rewrite W in H;
    try discriminate. apply Nat.ltb_ge in F. rewrite F in H. discriminate.
Qed.

(** C24: after [shutdown], StopIteration may be followed by a batch. *)
Lemma revived : let sc := numbers None GStop in
  exists ls es b s, exec sc 1 1 (pinit sc 0) ls (es ++ [EvStopEos; EvReturn b]) s /\ no_reset ls.
Proof.
  intros sc.
  exists (leaky 1 1 ++ [LCallGet 1; LTake; LWPut; LCallGet 1; LTake]),
    [@EvReturn sc 0; EvPoll (@Data sc 1); EvShutdown], 2. eexists. split.
  - eapply exec_app; [apply leaky_run; auto|]. apply prun_exec. reflexivity.
  - unfold no_reset, leaky. cbn. intuition discriminate.
Qed.

(** C24: a StopIteration that comes from a timeout is not permanent. *)
Lemma spurious_stop : forall B N, 1 <= N -> let sc := numbers None GStop in
  exists ls s, exec sc B N (pinit sc 0) ls [EvStopTimeout; @EvReturn sc 0] s /\ no_reset ls /\ no_shutdown ls.
Proof.
  intros B N H sc. destruct N as [|N]; [lia|].
  exists [LCallGet B; LTimeout; LWCheck; LWFetch; LWPut; LCallGet B; LTake]. eexists. split.
  - apply prun_exec. unfold prun, pstep, call_get. rewrite Nat.eqb_refl. reflexivity.
  - unfold no_reset, no_shutdown. cbn. intuition discriminate.
Qed.

(** C27: the deadline of [next_episode] passes before the rest of the episode
    has been discarded; the next batch is step 1 of the old episode. *)
Lemma misaligned : forall B N, 1 <= N -> let sc := grid 2 in
  exists ls s, exec sc B N (pinit sc (0, 0)) ls [@EvReturn sc (0, 0); EvNextTimeout; @EvReturn sc (0, 1)] s /\ ~ In LCallReset ls /\ no_shutdown ls.
Proof.
  intros B N H sc. destruct N as [|N]; [lia|].
  exists [LCallGet B; LWCheck; LWFetch; LWPut; LTake; LCallNext; LDiscardTimeout;
          LWCheck; LWFetch; LWPut; LCallGet B; LTake]. eexists. split.
  - apply prun_exec. unfold prun, pstep, call_get. rewrite Nat.eqb_refl. reflexivity.
  - unfold no_shutdown. cbn. intuition discriminate.
Qed.

(** C29: three batches, then an exception in the background thread. *)
Lemma crash_run : let sc := numbers (Some 3) GFail in
  exists ls s, exec sc 1 2 (pinit sc 0) ls
    [@EvReturn sc 0; @EvReturn sc 1; @EvReturn sc 2; EvStopTimeout; EvStopTimeout] s /\ p_worker s = WCrashed.
Proof.
  intros sc. run_labels sc 1 2 0
         [LCallGet 1; LWCheck; LWFetch; LWPut; LTake; LWCheck; LWFetch; LWPut; LWCheck; LWFetch; LWPut;
          LWCheck; LWFetch; LCallGet 1; LTake; LCallGet 1; LTake; LCallGet 1; LTimeout; LCallGet 1; LTimeout].
  reflexivity.
Qed.

(** Episodes with an early [next_episode], a [reset] and a full pipeline. *)
Lemma grid_run : let sc := grid 3 in
  exists ls s, exec sc 1 2 (pinit sc (0, 0)) ls
    [@EvReturn sc (0, 0); @EvFlush sc (0, 1); @EvFlush sc (0, 2); EvNext; @EvReturn sc (1, 0)] s /\ ~ In LCallReset ls /\ no_shutdown ls /\ ~ In LDiscardTimeout ls.
Proof.
  intros sc. run_labels sc 1 2 (0, 0)
         [LCallGet 1; LWCheck; LWFetch; LWPut; LTake; LWCheck; LWFetch; LWPut; LWCheck; LWFetch; LWPut;
          LCallNext; LDiscard; LWCheck; LWFetch; LWCheck; LWFetch; LWPut; LDiscard; LCallGet 1; LTake].
  unfold no_shutdown. cbn. intuition discriminate.
Qed.

Lemma reset_run : let sc := numbers None GStop in
  exists ls s, exec sc 1 1 (pinit sc 0) ls
    [@EvReturn sc 0; EvPoll (@Data sc 1); EvReset; @EvReturn sc 0] s /\ p_queue s = [].
Proof.
  intros sc. run_labels sc 1 1 0
         [LCallGet 1; LWCheck; LWFetch; LWPut; LTake; LWCheck; LWFetch; LWPut; LWCheck; LWFetch; LCallReset;
          LResetPoll; LWPut; LWCheck; LResetJoin; LCallGet 1; LWCheck; LWFetch; LWPut; LTake].
  reflexivity.
Qed.
