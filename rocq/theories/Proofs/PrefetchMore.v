(** Loss, end of stream, reset and shutdown of the prefetcher. *)
From Coq Require Import List Arith Bool ZArith Lia.
Import ListNotations.
From Verif Require Import Model.Prefetch Spec.PrefetchSpec Proofs.PrefetchProofs.
Local Open Scope nat_scope.

Section P.
Variable sc : sched.
Variables B N : nat.
Notation step := (pstep sc B N).
Notation exec := (exec sc B N).
Notation st := (pst sc).
Definition drops (es : list (event sc)) : nat :=
  List.length (filter (fun e => match e with EvDrop _ => true | _ => false end) es).

Lemma drops_app : forall a b, drops (a ++ b) = drops a + drops b.
Proof. intros. unfold drops. rewrite filter_app, app_length. reflexivity. Qed.

Lemma dropped_drops : forall es, List.length (@dropped sc es) <= drops es.
Proof.
  induction es as [|e es IH]; [auto|]. unfold drops, dropped in *.
  destruct e; cbn in *; try assumption. destruct i; cbn; lia.
Qed.

Definition polls (es : list (event sc)) : nat :=
  List.length (filter (fun e => match e with EvPoll _ => true | _ => false end) es).
Definition stops (ls : list label) : nat :=
  List.length (filter (fun l => match l with LCallReset | LCallShutdown => true | _ => false end) ls).

Lemma polls_app : forall a b, polls (a ++ b) = polls a + polls b.
Proof. intros. unfold polls. rewrite filter_app, app_length. reflexivity. Qed.
Lemma stops_app : forall a b, stops (a ++ b) = stops a + stops b.
Proof. intros. unfold stops. rewrite filter_app, app_length. reflexivity. Qed.

Lemma polled_polls : forall es, List.length (@polled sc es) <= polls es.
Proof.
  induction es as [|e es IH]; [auto|]. unfold polls, polled in *.
  destruct e; cbn in *; try assumption. destruct i; cbn; lia.
Qed.

Lemma drops_split : forall es, drops es = 1 -> forall b, dropped es = [b] ->
  exists es1 es2, es = es1 ++ EvDrop (Data b) :: es2 /\ drops es1 = 0 /\ drops es2 = 0.
Proof.
  induction es as [|e es IH]; intros D b Hb; [discriminate|].
  destruct e; cbn in Hb, D; fold (@dropped sc es) in Hb;
    try (destruct (IH D b Hb) as (es1 & es2 & -> & A1 & A2);
         eexists (_ :: es1), es2; repeat split; [| exact A2]; exact A1).
  unfold drops in *. cbn in D. injection D as D.
  destruct i; cbn in Hb.
  - injection Hb as ->. exists [], es. repeat split; auto.
  - pose proof (dropped_drops es) as K. unfold drops in K. fold (@dropped sc es) in Hb.
    rewrite Hb in K. cbn in K. lia.
Qed.

Lemma drops0_dropped : forall es, drops es = 0 -> @dropped sc es = [].
Proof.
  intros es H. apply length_zero_iff_nil. pose proof (dropped_drops es). lia.
Qed.

Lemma removed_split : forall es, polled es = [] -> drops es = 0 -> removed sc es = handed es.
Proof. intros. apply removed_handed; auto. apply drops0_dropped. assumption. Qed.

Lemma stops_zero : forall ls, ~ In LCallReset ls -> no_shutdown ls -> stops ls = 0.
Proof.
  intros ls N1 N2. unfold stops. rewrite length_zero_iff_nil.
  destruct (filter _ ls) as [|x r] eqn:E; [reflexivity|exfalso].
  assert (X : In x (x :: r)) by (cbn; auto). rewrite <- E, filter_In in X.
  destruct X as [X1 X2]. unfold no_shutdown in N2. destruct x; try discriminate; contradiction.
Qed.

Hypothesis Npos : 1 <= N.

Lemma exec_ind_inv : forall (I : list label -> list (event sc) -> st -> Prop) s0,
  I [] [] s0 ->
  (forall ls es s l e s', exec s0 ls es s -> I ls es s -> stepR sc B N s l e s' -> I (ls ++ [l]) (es ++ e) s') ->
  forall ls es s, exec s0 ls es s -> I ls es s.
Proof.
  intros I s0 H0 HS ls es s H. induction H; auto. eapply HS; eauto. apply step_R. assumption.
Qed.

(** *** Dropping happens at most once *)

Lemma drops_inv : forall u ls es s, exec (pinit sc u) ls es s -> no_reset ls ->
  drops es = 0 \/ drops es = 1 /\ (p_worker s = WSetStop \/ p_worker s = WDone) /\ p_started s = true.
Proof.
  intros u ls es s H. pattern ls, es, s. revert ls es s H. apply exec_ind_inv.
  - auto.
  - intros ls es s l e s' HX IH H NR. unfold no_reset in NR. rewrite in_app_iff in NR.
    assert (NR1 : no_reset ls) by (unfold no_reset; tauto).
    specialize (IH NR1). rewrite drops_app.
    assert (NL : l <> LResetJoin) by (intros ->; apply NR; cbn; auto).
    assert (BS : basic sc N s) by (eapply basic_exec; [| apply basic_init |]; eauto).
    destruct BS as [I1 _ _ _ _ _ _ _ _]. unfold started_iff in I1.
    destruct (start_fields sc s) as (F1 & F2 & F3 & F4 & F5 & F6).
    destruct H; cbn; try congruence;
    try (destruct IH as [IH|(IH & IW & IS)]; rewrite IH; [left; reflexivity|right]);
    rewrite ?F5, ?F6; try rewrite IS; repeat split; auto; try (destruct IW; congruence).
    + destruct IH as [IH|(IH & IW & IS)]; rewrite IH; [left; destruct i; reflexivity|right].
      destruct i; repeat split; auto.
    + right. destruct IH as [IH|(IH & IW & IS)]; [|destruct IW; congruence].
      rewrite IH. repeat split; auto. destruct (p_started s) eqn:S; auto.
      destruct I1 as [I1 _]. rewrite (I1 eq_refl) in H. discriminate.
Qed.

(** *** Polling happens once per [reset]/[shutdown] call *)

Definition pending (c : cpc) : nat := match c with CReset1 | CShut1 => 1 | _ => 0 end.

Lemma polls_inv : forall u ls es s, exec (pinit sc u) ls es s ->
  polls es + pending (p_pc s) <= stops ls.
Proof.
  intros u. apply exec_ind_inv.
  - cbn. lia.
  - intros ls es s l e s' _ IH H. rewrite polls_app, stops_app.
    destruct (start_fields sc s) as (F1 & F2 & F3 & F4 & F5 & F6).
    destruct H; cbn; rewrite ?F4; try lia;
      match goal with K : p_pc s = _ |- _ => rewrite K in IH; cbn in IH end; try lia.
    destruct i; cbn; lia.
Qed.

Lemma no_callreset_no_join : forall u ls es s, exec (pinit sc u) ls es s ->
  ~ In LCallReset ls -> p_pc s <> CReset1 /\ p_pc s <> CReset2 /\ ~ In LResetJoin ls.
Proof.
  intros u. apply (exec_ind_inv (fun ls es s => ~ In LCallReset ls ->
      p_pc s <> CReset1 /\ p_pc s <> CReset2 /\ ~ In LResetJoin ls)).
  - cbn. intros _. repeat split; try discriminate. tauto.
  - intros ls es s l e s' _ IH H NR. rewrite in_app_iff in NR. cbn in NR.
    destruct IH as (I1 & I2 & I3); [tauto|].
    destruct (start_fields sc s) as (F1 & F2 & F3 & F4 & F5 & F6).
    rewrite in_app_iff. destruct H; cbn; rewrite ?F4; intuition congruence.
Qed.

(** *** The three cases of loss *)

Lemma loss_none : forall u ls es s, exec (pinit sc u) ls es s ->
  ~ In LCallReset ls -> no_shutdown ls -> dropped es = [] ->
  fst (calls (fetches ls) u) = handed es ++ queued (p_queue s) ++ inflight s.
Proof.
  intros u ls es s H N1 N2 D.
  destruct (no_callreset_no_join _ _ _ _ H N1) as (_ & _ & NR).
  rewrite (conserved_exec sc B N Npos u ls es s H NR). cbn. f_equal.
  apply removed_handed; auto. apply length_zero_iff_nil.
  pose proof (polls_inv _ _ _ _ H) as P. pose proof (polled_polls es) as Q.
  assert (Z : stops ls = 0).
  { unfold stops. rewrite length_zero_iff_nil.
    destruct (filter _ ls) as [|x r] eqn:E; [reflexivity|exfalso].
    assert (X : In x (x :: r)) by (cbn; auto). rewrite <- E, filter_In in X.
    destruct X as [X1 X2]. unfold no_shutdown in N2. destruct x; try discriminate; contradiction. }
  lia.
Qed.

Lemma quiet_polled : forall u ls es s, exec (pinit sc u) ls es s ->
  ~ In LCallReset ls -> no_shutdown ls -> polled es = [].
Proof.
  intros u ls es s H N1 N2. apply length_zero_iff_nil.
  pose proof (polls_inv _ _ _ _ H) as P. pose proof (polled_polls es) as Q.
  rewrite (stops_zero ls N1 N2) in P. lia.
Qed.

Lemma loss_one : forall u ls es s, exec (pinit sc u) ls es s ->
  ~ In LCallReset ls -> no_shutdown ls -> dropped es <> [] ->
  exists es1 b es2 rest,
    es = es1 ++ EvDrop (Data b) :: es2 /\
    fst (calls (fetches ls) u) = handed es1 ++ b :: rest /\
    handed es ++ queued (p_queue s) = handed es1 ++ rest /\ inflight s = [].
Proof.
  intros u ls es s H N1 N2 D.
  destruct (no_callreset_no_join _ _ _ _ H N1) as (_ & _ & NR).
  pose proof (quiet_polled _ _ _ _ H N1 N2) as PO.
  pose proof (conserved_exec sc B N Npos u ls es s H NR) as C.
  destruct (drops_inv _ _ _ _ H NR) as [Z|(O & W & _)].
  - exfalso. apply D. apply drops0_dropped. assumption.
  - assert (exists b, dropped es = [b]) as [b Hb].
    { pose proof (dropped_drops es). destruct (dropped es) as [|b [|c r]]; [congruence|eauto|cbn in *; lia]. }
    destruct (drops_split es O b Hb) as (es1 & es2 & -> & A1 & A2).
    rewrite polled_app in PO. apply app_eq_nil in PO as [P1 P2]. cbn in P2.
    exists es1, b, es2, (handed es2 ++ queued (p_queue s)).
    assert (IN : inflight s = []) by (unfold inflight; destruct W as [-> | ->]; reflexivity).
    repeat split; auto.
    + unfold conserved in C. rewrite C. cbn [fst].
      change (EvDrop (Data b) :: es2) with ([EvDrop (Data b)] ++ es2).
      rewrite !removed_app, (removed_split es1), (removed_split es2), IN, app_nil_r by auto.
      cbn. rewrite <- !app_assoc. reflexivity.
    + change (EvDrop (Data b) :: es2) with ([EvDrop (Data b)] ++ es2).
      rewrite !handed_app. cbn. rewrite <- !app_assoc. reflexivity.
Qed.

Lemma loss_bound : forall u ls es s, exec (pinit sc u) ls es s -> no_reset ls ->
  List.length (fst (calls (fetches ls) u)) <=
  List.length (handed es) + List.length (queued (p_queue s)) + List.length (inflight s) + 1 + stops ls.
Proof.
  intros u ls es s H NR. rewrite (conserved_exec sc B N Npos u ls es s H NR). cbn [fst].
  rewrite !app_length, removed_length.
  pose proof (polls_inv _ _ _ _ H). pose proof (polled_polls es). pose proof (dropped_drops es).
  destruct (drops_inv _ _ _ _ H NR) as [Z|(O & _)]; lia.
Qed.

(** *** End of stream *)

Definition eos_seen (es : list (event sc)) : Prop := In EvStopEos es \/ In EvNextEos es.

(** Nothing more can come: the queue is empty and the thread has finished. *)
Definition exhausted (s : st) : Prop :=
  p_queue s = [] /\ (p_worker s = WSetStop \/ p_worker s = WDone) /\ p_started s = true.

Definition fin (w : wpc sc) : Prop := w = WSetStop \/ w = WDone.

Definition eos_ok (q : list (item sc)) (w : wpc sc) : Prop :=
  ~ In EOS q \/ (exists q', q = q' ++ [EOS] /\ ~ In EOS q') /\ fin w.

Lemma eos_ok_pop : forall i q w, eos_ok (i :: q) w ->
  eos_ok q w /\ (i = EOS -> q = [] /\ fin w).
Proof.
  intros i q w [H|((q' & E & H) & F)].
  - cbn in H. split; [left; tauto|]. intros ->. tauto.
  - destruct q' as [|j q']; cbn in E; injection E as -> ->.
    + split; [left; tauto|]. auto.
    + cbn in H. split; [right; split; [exists q'; split; tauto | exact F] |]. intros ->. tauto.
Qed.

Lemma eos_ok_notfin : forall q w w', eos_ok q w -> ~ fin w -> eos_ok q w'.
Proof. intros q w w' [H|(_ & F)] K; [left; exact H | contradiction]. Qed.

Lemma eos_ok_data : forall q w w' b, eos_ok q w -> ~ fin w -> eos_ok (q ++ [Data b]) w'.
Proof.
  intros q w w' b [H|(_ & F)] K; [left | contradiction].
  rewrite in_app_iff. cbn. intros [X|[X|[]]]; [tauto | discriminate].
Qed.

Lemma eos_ok_eos : forall q w w', eos_ok q w -> ~ fin w -> fin w' -> eos_ok (q ++ [EOS]) w'.
Proof. intros q w w' [H|(_ & F)] K G; [right | contradiction]. eauto. Qed.

Lemma start_started : forall s, p_started s = true -> start sc s = s.
Proof. intros s H. unfold start. rewrite H. reflexivity. Qed.

Lemma exhausted_step : forall s l e s', exhausted s -> stepR sc B N s l e s' ->
  l <> LResetJoin -> l <> LShutPut ->
  exhausted s' /\ returned e = [] /\ handed e = [].
Proof.
  intros s l e s' (Q & W & S) H N1 N2. pose proof (start_started s S) as F.
  destruct H; try congruence; rewrite ?F; unfold exhausted; cbn; rewrite ?Q, ?S;
    try (destruct W; congruence); repeat split; auto; destruct W; auto.
Qed.

Lemma eos_step : forall s l e s', basic sc N s -> eos_ok (p_queue s) (p_worker s) ->
  stepR sc B N s l e s' -> l <> LResetJoin -> l <> LShutPut ->
  eos_ok (p_queue s') (p_worker s') /\ (eos_seen e -> exhausted s').
Proof.
  intros s l e s' [I1 _ _ _ _ _ I7 _ _] IE H N1 N2. unfold eos_seen, exhausted, started_iff in *.
  destruct (start_fields sc s) as (F1 & F2 & F3 & F4 & F5 & F6).
  assert (FS : p_started s = true -> start sc s = s) by (apply start_started).
  assert (ST : p_worker s <> WIdle -> p_started s = true).
  { intros D. destruct (p_started s) eqn:S; auto. exfalso. apply D. apply I1. reflexivity. }
  assert (SE : eos_ok (p_queue (start sc s)) (p_worker (start sc s))).
  { destruct (p_started s) eqn:S; [rewrite FS; auto|]. rewrite F2. eapply eos_ok_notfin; eauto.
    intros [K|K]; rewrite K in I1; destruct I1 as [I1 _]; specialize (I1 eq_refl); discriminate. }
  clear F1 F3 F4 F5 F6 F2.
  destruct H; try congruence; cbn [p_queue p_worker p_started set_pc set_t set_queue set_worker set_sched set_stop].
  all: try (split; [assumption | cbn; intuition discriminate]).
  all: try match goal with K : p_queue _ = _ :: _ |- _ => rewrite K in IE; apply eos_ok_pop in IE as [IE IE2] end.
  all: try match goal with K : p_worker _ = _ |- _ => rewrite K in IE end.
  all: try (split; [| cbn; intuition discriminate]).
  all: try assumption.
  all: try (eapply eos_ok_notfin; [eassumption | intros [K|K]; discriminate]).
  - split; [assumption|]. destruct i; [cbn; intuition discriminate|]. intros _.
    destruct (IE2 eq_refl) as [-> K]. destruct K as [K|K]; rewrite K in *; repeat split; auto; apply ST; discriminate.
  - split; [assumption|]. intros _.
    destruct (IE2 eq_refl) as [-> K]. destruct K as [K|K]; rewrite K in *; repeat split; auto; apply ST; discriminate.
  - eapply eos_ok_data; [eassumption | intros [K|K]; discriminate].
  - eapply eos_ok_eos; [eassumption | intros [K|K]; discriminate | left; reflexivity].
  - right. split; [exists []; split; [reflexivity | intros []] | left; reflexivity].
  - eapply eos_ok_eos; [eassumption | intros [K|K]; discriminate | left; reflexivity].
  - destruct IE as [IE|(IE & _)]; [left; exact IE | right; split; [exact IE | right; reflexivity]].
Qed.

Lemma no_shut_put : forall u ls es s, exec (pinit sc u) ls es s -> no_shutdown ls ->
  p_pc s <> CShut1 /\ p_pc s <> CShut2 /\ p_pc s <> CShut3 /\ ~ In LShutPut ls.
Proof.
  intros u. apply (exec_ind_inv (fun ls es s => no_shutdown ls ->
      p_pc s <> CShut1 /\ p_pc s <> CShut2 /\ p_pc s <> CShut3 /\ ~ In LShutPut ls)).
  - cbn. intros _. repeat split; try discriminate. tauto.
  - unfold no_shutdown. intros ls es s l e s' _ IH H NR. rewrite in_app_iff in NR. cbn in NR.
    destruct IH as (I1 & I2 & I3 & I4); [tauto|].
    destruct (start_fields sc s) as (F1 & F2 & F3 & F4 & F5 & F6).
    rewrite in_app_iff. destruct H; cbn; rewrite ?F4; intuition congruence.
Qed.

Lemma eos_inv : forall u ls es s, exec (pinit sc u) ls es s -> no_reset ls -> no_shutdown ls ->
  eos_ok (p_queue s) (p_worker s) /\ (eos_seen es -> exhausted s).
Proof.
  intros u ls es s H. pattern ls, es, s. revert ls es s H. apply exec_ind_inv.
  - intros _ _. split; [left; intros [] | unfold eos_seen; cbn; intuition].
  - intros ls es s l e s' HX IH H NR NS.
    assert (BS : basic sc N s) by (eapply basic_exec; [| apply basic_init |]; eauto).
    unfold no_reset, no_shutdown in *. rewrite in_app_iff in NR, NS. cbn in NR, NS.
    destruct IH as [IE IX]; [tauto | tauto|].
    assert (N1 : l <> LResetJoin) by (intros ->; tauto).
    assert (N2 : l <> LShutPut).
    { intros ->. destruct (no_shut_put _ _ _ _ HX) as (_ & K & _); [unfold no_shutdown; tauto|].
      inversion H; subst; contradiction. }
    destruct (eos_step _ _ _ _ BS IE H N1 N2) as [A C]. split; [assumption|].
    intros K. unfold eos_seen in *. rewrite !in_app_iff in K.
    assert (K' : (In EvStopEos es \/ In EvNextEos es) \/ (In EvStopEos e \/ In EvNextEos e)) by tauto.
    destruct K' as [K'|K']; [|auto].
    apply (exhausted_step _ _ _ _ (IX K') H N1 N2).
Qed.

Lemma exhausted_exec : forall s ls es s', exec s ls es s' -> exhausted s ->
  no_reset ls -> ~ In LShutPut ls ->
  exhausted s' /\ returned es = [] /\ handed es = [].
Proof.
  intros s ls es s' H. pattern ls, es, s'. revert ls es s' H. apply exec_ind_inv.
  - auto.
  - intros ls es s1 l e s2 HX IH H EX NR NS. unfold no_reset in *. rewrite in_app_iff in NR, NS. cbn in NR, NS.
    destruct IH as (A & R & HH); try tauto.
    destruct (exhausted_step s1 l e s2 A H) as (A2 & R2 & H2); [intros ->; tauto | intros ->; tauto |].
    split; [assumption|]. unfold returned, handed in *. rewrite !flat_map_app, R, R2, HH, H2. auto.
Qed.

Lemma eos_permanent : forall u ls1 es1 s1 ls2 es2 s2,
  exec (pinit sc u) ls1 es1 s1 -> exec s1 ls2 es2 s2 ->
  no_reset (ls1 ++ ls2) -> no_shutdown (ls1 ++ ls2) -> eos_seen es1 ->
  handed es2 = [].
Proof.
  intros u ls1 es1 s1 ls2 es2 s2 H1 H2 NR NS ES. unfold no_reset, no_shutdown in *.
  assert (NS2 : ~ In LShutPut (ls1 ++ ls2)).
  { apply (no_shut_put u (ls1 ++ ls2) (es1 ++ es2) s2); [eapply exec_app; eauto | exact NS]. }
  rewrite in_app_iff in NR, NS, NS2.
  destruct (eos_inv _ _ _ _ H1) as [_ X]; [unfold no_reset; tauto | unfold no_shutdown; tauto |].
  apply (exhausted_exec _ _ _ _ H2 (X ES)); unfold no_reset; tauto.
Qed.

(** *** After the producer has ended *)

Definition ended (s : st) : Prop := (p_worker s = WDone \/ p_worker s = WCrashed) /\ p_started s = true.

Lemma ended_step : forall s l e s', ended s -> stepR sc B N s l e s' -> l <> LResetJoin ->
  ended s' /\ removed sc e ++ queued (p_queue s') = queued (p_queue s) /\
  (In EvStopTimeout e -> queued (p_queue s) = []) /\ p_sched s' = p_sched s.
Proof.
  intros s l e s' (W & S) H NR. pose proof (start_started s S) as F. unfold ended.
  destruct H; try congruence; rewrite ?F; cbn; rewrite ?S, ?app_nil_r;
    try (destruct W; congruence); rewrite ?queued_app;
    try match goal with K : p_queue s = _ |- _ => rewrite K end; cbn; rewrite ?app_nil_r;
    try (match goal with i : item sc |- _ => destruct i end);
    repeat split; auto; try (cbn; intuition discriminate).
  unfold queued. rewrite flat_map_app. cbn. apply app_nil_r.
Qed.

Lemma ended_exec : forall s ls es s', exec s ls es s' -> ended s -> no_reset ls ->
  ended s' /\ removed sc es ++ queued (p_queue s') = queued (p_queue s) /\ p_sched s' = p_sched s.
Proof.
  intros s ls es s' H. pattern ls, es, s'. revert ls es s' H. apply exec_ind_inv.
  - auto.
  - intros ls es s1 l e s2 HX IH H EX NR. unfold no_reset in *. rewrite in_app_iff in NR. cbn in NR.
    destruct IH as (A & R & SS); try tauto.
    destruct (ended_step s1 l e s2 A H) as (A2 & R2 & _ & S2); [intros ->; tauto |].
    split; [assumption|]. split; [|congruence].
    rewrite removed_app, <- app_assoc, R2. exact R.
Qed.

(** A timeout only happens when everything put so far has been handed out. *)
Lemma timeout_empty : forall s l e s', stepR sc B N s l e s' -> In EvStopTimeout e -> p_queue s = [].
Proof.
  intros s l e s' H K. destruct H; cbn in K; try (intuition discriminate); auto.
  destruct i; intuition discriminate.
Qed.

(** *** Stopping *)

(** Upper bound on the number of steps the thread still makes when the stop
    event is set. *)
Definition togo (w : wpc sc) : nat :=
  match w with
  | WIdle | WDone | WCrashed => 0
  | WCheck | WSetStop => 1
  | WPut _ | WForce => 2
  | WEosPut => 3
  | WFetch => 4
  end.

Lemma togo_alive : forall w, alive w = true <-> 1 <= togo w.
Proof. destruct w; cbn; split; (discriminate || lia || auto). Qed.

Lemma worker_step_togo : forall s l e s', p_stop s = true -> stepR sc B N s l e s' -> worker_label l = true ->
  p_stop s' = true /\ togo (p_worker s') < togo (p_worker s) /\ p_pc s' = p_pc s.
Proof.
  intros s l e s' S H WL. destruct H; try discriminate WL; cbn; try congruence;
    match goal with K : p_worker s = _ |- _ => rewrite K end; cbn; auto with arith.
Qed.

(** Room for the one item the thread may still put. *)
Definition room (s : st) : Prop :=
  match p_worker s with WPut _ | WFetch | WEosPut => List.length (p_queue s) < N | _ => True end.

Lemma worker_step_room : forall s l e s', p_stop s = true -> room s -> stepR sc B N s l e s' ->
  worker_label l = true -> room s'.
Proof.
  intros s l e s' S R H WL. unfold room in *. destruct H; try discriminate WL; cbn; try congruence; auto;
    match goal with K : p_worker s = _ |- _ => rewrite K in R end; auto.
Qed.

Lemma room_enabled : forall s, alive (p_worker s) = true -> room s -> worker_enabled B N s.
Proof.
  intros s A R. unfold worker_enabled, room in *. destruct (p_worker s) eqn:W; cbn in A; try discriminate.
  - exists LWCheck. cbn. rewrite W. eauto.
  - exists LWFetch. cbn. rewrite W. eauto.
  - exists LWPut. unfold pstep. rewrite W. apply Nat.ltb_lt in R. rewrite R. eauto.
  - exists LWEosPut. unfold pstep. rewrite W. apply Nat.ltb_lt in R. rewrite R. eauto.
  - exists LWForce. cbn. rewrite W. eauto.
  - exists LWSetStop. cbn. rewrite W. eauto.
Qed.

Lemma worker_run : forall s ls es s', exec s ls es s' -> p_stop s = true -> room s ->
  Forall (fun l => worker_label l = true) ls ->
  p_stop s' = true /\ room s' /\ List.length ls + togo (p_worker s') <= togo (p_worker s) /\ p_pc s' = p_pc s.
Proof.
  intros s ls es s' H. pattern ls, es, s'. revert ls es s' H. apply exec_ind_inv.
  - cbn. auto.
  - intros ls es s1 l e s2 HX IH H S R F. apply Forall_app in F as [F1 F2]. inversion F2; subst.
    destruct (IH S R F1) as (A & C & D & E).
    destruct (worker_step_togo s1 l e s2 A H H2) as (A2 & D2 & E2).
    split; [exact A2|]. split; [exact (worker_step_room s1 l e s2 A C H H2)|]. rewrite app_length. cbn. split; [lia | congruence].
Qed.

(** While [reset] waits, there is room. *)
Lemma join_room : forall u ls es s, exec (pinit sc u) ls es s -> p_pc s = CReset2 -> room s.
Proof.
  intros u. apply (exec_ind_inv (fun ls es s => p_pc s = CReset2 -> room s)).
  - discriminate.
  - intros ls es s l e s' HX IH H P.
    assert (BS : basic sc N s) by (eapply basic_exec; [| apply basic_init |]; eauto).
    destruct BS as [I1 I2 _ _ _ _ _ _ I9].
    destruct (start_fields sc s) as (F1 & F2 & F3 & F4 & F5 & F6).
    destruct (worker_label l) eqn:WL.
    + destruct H; try discriminate WL; cbn in P; unfold room in *; cbn; auto;
        specialize (IH P); try (match goal with K : p_worker s = _ |- _ => rewrite K in IH end); auto.
      rewrite I9 in H0 by auto. discriminate.
    + destruct H; try discriminate WL; cbn in P; try congruence; try discriminate;
        unfold room; cbn; try (match goal with K : p_queue s = _ |- _ => rewrite K in * end); cbn in *;
        destruct (p_worker s); auto; lia.
Qed.

Lemma reset_terminates : forall u ls es s ls' es' s',
  exec (pinit sc u) ls es s -> p_pc s = CReset2 ->
  exec s ls' es' s' -> Forall (fun l => worker_label l = true) ls' ->
  List.length ls' <= 4 /\ p_pc s' = CReset2 /\
  (if alive (p_worker s') then worker_enabled B N s'
   else step s' LResetJoin = Some ([EvReset], pinit sc (sc_reset sc (p_sched s')))).
Proof.
  intros u ls es s ls' es' s' H P H' F.
  assert (BS : basic sc N s) by (eapply basic_exec; [| apply basic_init |]; eauto).
  destruct (worker_run s ls' es' s' H') as (A & R & T & E); auto.
  - apply (b_pcstop sc N s BS). auto.
  - eapply join_room; eauto.
  - split; [|split; [congruence|]].
    + destruct (p_worker s); cbn in T; lia.
    + destruct (alive (p_worker s')) eqn:AL; [apply room_enabled; auto|].
      cbn. rewrite E, P, AL. reflexivity.
Qed.

(** *** Shutdown *)

Lemma stopped_fetches : forall s ls es s', exec s ls es s' -> started_iff sc s -> p_stop s = true -> no_reset ls ->
  p_stop s' = true /\
  fetches ls + (match p_worker s' with WFetch => 1 | _ => 0 end) <= match p_worker s with WFetch => 1 | _ => 0 end.
Proof.
  intros s ls es s' H. pattern ls, es, s'. revert ls es s' H. apply exec_ind_inv.
  - cbn. auto.
  - intros ls es s1 l e s2 HX IH H I1 S NR. unfold no_reset in *. rewrite in_app_iff in NR. cbn in NR.
    destruct IH as [S1 C]; try tauto. rewrite fetches_snoc.
    destruct (start_fields sc s1) as (F1 & F2 & F3 & F4 & F5 & F6).
    destruct H; cbn; rewrite ?F3; try (split; [assumption || reflexivity|]); try congruence; try tauto;
      try (match goal with K : p_worker s1 = _ |- _ => rewrite K in C end); try lia.
    all: rewrite F6; destruct (p_started s1); cbn; lia.
Qed.

End P.
