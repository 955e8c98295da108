(** Invariants of the prefetcher. *)
From Coq Require Import List Arith Bool ZArith Lia.
Import ListNotations.
From Verif Require Import Model.Prefetch Spec.PrefetchSpec.
Local Open Scope nat_scope.

Lemma subseq_refl : forall A (a : list A), subseq a a.
Proof. induction a; [apply sub_nil | apply sub_keep; assumption]. Qed.

Lemma subseq_app_r : forall A (a b c : list A), subseq a b -> subseq a (b ++ c).
Proof.
  intros A a b c H. revert c. induction H; intros c; cbn.
  - induction c; [apply sub_nil | apply sub_skip; assumption].
  - apply sub_skip; auto.
  - apply sub_keep; auto.
Qed.

Lemma subseq_app : forall A (a b c d : list A), subseq a b -> subseq c d -> subseq (a ++ c) (b ++ d).
Proof. intros A a b c d H K. induction H; cbn; [assumption | apply sub_skip; auto | apply sub_keep; auto]. Qed.

Section P.
Variable sc : sched.
Variables B N : nat.
Notation step := (pstep sc B N).
Notation exec := (exec sc B N).
Notation st := (pst sc).

Lemma exec_app : forall s ls1 es1 s1 ls2 es2 s2,
  exec s ls1 es1 s1 -> exec s1 ls2 es2 s2 -> exec s (ls1 ++ ls2) (es1 ++ es2) s2.
Proof.
  intros s ls1 es1 s1 ls2 es2 s2 H1 H2. induction H2.
  - rewrite !app_nil_r. assumption.
  - rewrite !app_assoc. econstructor; eauto.
Qed.

Lemma exec_one : forall s l e s', step s l = Some (e, s') -> exec s [l] e s'.
Proof. intros. apply (exec_snoc sc B N s [] l [] e s s'); [constructor | assumption]. Qed.

Lemma exec_cons : forall s l e s1 ls es s2,
  step s l = Some (e, s1) -> exec s1 ls es s2 -> exec s (l :: ls) (e ++ es) s2.
Proof. intros. apply (exec_app s [l] e s1 ls es s2); [apply exec_one |]; assumption. Qed.

Lemma exec_cons_inv : forall s l ls es s2, exec s (l :: ls) es s2 ->
  exists e s1 es', step s l = Some (e, s1) /\ exec s1 ls es' s2 /\ es = e ++ es'.
Proof.
  intros s l ls. revert s l. induction ls as [|x ls IH] using rev_ind; intros s l es s2 H.
  - inversion H; subst. destruct ls; [|destruct ls; discriminate].
    cbn in H0. injection H0 as ->. inversion H1; subst; [|destruct ls; discriminate].
    exists e, s2, []. rewrite app_nil_r. repeat split; auto. apply exec_nil.
  - rewrite app_comm_cons in H. inversion H; subst.
    rewrite app_comm_cons in H0. apply app_inj_tail in H0 as [-> ->].
    destruct (IH _ _ _ _ H1) as (e1 & s1' & es' & A1 & A2 & ->).
    exists e1, s1', (es' ++ e). rewrite app_assoc. repeat split; auto. econstructor; eauto.
Qed.

Lemma exec_app_inv : forall ls1 ls2 s es s2, exec s (ls1 ++ ls2) es s2 ->
  exists es1 s1 es2, exec s ls1 es1 s1 /\ exec s1 ls2 es2 s2 /\ es = es1 ++ es2.
Proof.
  induction ls1 as [|l ls1 IH]; intros ls2 s es s2 H; cbn in H.
  - exists [], s, es. repeat split; auto. constructor.
  - apply exec_cons_inv in H as (e & s1 & es' & A1 & A2 & ->).
    destruct (IH _ _ _ _ A2) as (es1 & s1' & es2 & C1 & C2 & ->).
    exists (e ++ es1), s1', es2. rewrite app_assoc. repeat split; auto.
    eapply exec_cons; eauto.
Qed.

(** Case analysis of one step, as an inductive relation. *)
Inductive stepR (s : st) : label -> list (event sc) -> st -> Prop :=
| R_get_bad : forall n, p_pc s = CIdle -> n <> B -> stepR s (LCallGet n) [EvValueError] s
| R_get_end : forall L, p_pc s = CIdle -> sc_len sc = Some L -> L <= p_t s ->
    stepR s (LCallGet B) [EvEpisodeEnd] (start sc s)
| R_get : p_pc s = CIdle -> (forall L, sc_len sc = Some L -> p_t s < L) ->
    stepR s (LCallGet B) [] (set_pc sc (start sc s) CGet)
| R_take : forall i q, p_pc s = CGet -> p_queue s = i :: q ->
    stepR s LTake [match i with Data b => EvReturn b | EOS => EvStopEos end]
          (set_pc sc (set_t sc (set_queue sc s q) (S (p_t s))) CIdle)
| R_timeout : p_pc s = CGet -> p_queue s = [] -> stepR s LTimeout [EvStopTimeout] (set_pc sc s CIdle)
| R_reset : p_pc s = CIdle -> stepR s LCallReset [] (set_pc sc (set_stop sc s) CReset1)
| R_reset_poll0 : p_pc s = CReset1 -> p_queue s = [] -> stepR s LResetPoll [] (set_pc sc s CReset2)
| R_reset_poll : forall i q, p_pc s = CReset1 -> p_queue s = i :: q ->
    stepR s LResetPoll [EvPoll i] (set_pc sc (set_queue sc s q) CReset2)
| R_reset_join : p_pc s = CReset2 -> alive (p_worker s) = false ->
    stepR s LResetJoin [EvReset] (pinit sc (sc_reset sc (p_sched s)))
| R_shut : p_pc s = CIdle -> stepR s LCallShutdown [] (set_pc sc (set_stop sc s) CShut1)
| R_shut_poll0 : p_pc s = CShut1 -> p_queue s = [] -> stepR s LShutPoll [] (set_pc sc s CShut2)
| R_shut_poll : forall i q, p_pc s = CShut1 -> p_queue s = i :: q ->
    stepR s LShutPoll [EvPoll i] (set_pc sc (set_queue sc s q) CShut2)
| R_shut_put : p_pc s = CShut2 -> List.length (p_queue s) < N ->
    stepR s LShutPut [] (set_pc sc (set_queue sc s (p_queue s ++ [EOS])) CShut3)
| R_shut_full : p_pc s = CShut2 -> N <= List.length (p_queue s) -> stepR s LShutPut [] (set_pc sc s CShut3)
| R_shut_join : p_pc s = CShut3 -> stepR s LShutJoin [EvShutdown] (set_pc sc s CIdle)
| R_next_not : p_pc s = CIdle -> sc_len sc = None -> stepR s LCallNext [EvNext] s
| R_next_go : forall L, p_pc s = CIdle -> sc_len sc = Some L -> p_started s = true -> p_t s < L ->
    stepR s LCallNext [] (set_pc sc s (CDiscard (L - p_t s)))
| R_next_end : forall L, p_pc s = CIdle -> sc_len sc = Some L ->
    p_started s = false \/ L <= p_t s ->
    stepR s LCallNext [EvNext] (set_t sc (start sc s) 0)
| R_disc_eos : forall n q, p_pc s = CDiscard n -> p_queue s = EOS :: q ->
    stepR s LDiscard [EvNextEos] (set_pc sc (set_t sc (set_queue sc s q) 0) CIdle)
| R_disc_last : forall n b q, p_pc s = CDiscard n -> p_queue s = Data b :: q -> n <= 1 ->
    stepR s LDiscard [EvFlush b; EvNext] (set_pc sc (set_t sc (set_queue sc s q) 0) CIdle)
| R_disc : forall n b q, p_pc s = CDiscard n -> p_queue s = Data b :: q -> 1 < n ->
    stepR s LDiscard [EvFlush b] (set_pc sc (set_queue sc s q) (CDiscard (n - 1)))
| R_disc_timeout : forall n, p_pc s = CDiscard n ->
    stepR s LDiscardTimeout [EvNextTimeout] (set_pc sc (set_t sc s 0) CIdle)
| R_check_stop : p_worker s = WCheck -> p_stop s = true -> stepR s LWCheck [] (set_worker sc s WDone)
| R_check : p_worker s = WCheck -> p_stop s = false -> stepR s LWCheck [] (set_worker sc s WFetch)
| R_fetch_batch : forall b u, p_worker s = WFetch -> sc_get sc (p_sched s) = (GBatch b, u) ->
    stepR s LWFetch [] (set_worker sc (set_sched sc s u) (WPut b))
| R_fetch_stop : forall u, p_worker s = WFetch -> sc_get sc (p_sched s) = (GStop, u) ->
    stepR s LWFetch [] (set_worker sc (set_sched sc s u) WEosPut)
| R_fetch_fail : forall u, p_worker s = WFetch -> sc_get sc (p_sched s) = (GFail, u) ->
    stepR s LWFetch [] (set_worker sc (set_sched sc s u) WCrashed)
| R_fetch_next : forall u x L, p_worker s = WFetch -> sc_get sc (p_sched s) = (GEpisodeEnd, u) ->
    sc_len sc = Some L -> sc_next sc u = Some x ->
    stepR s LWFetch [] (set_worker sc (set_sched sc s x) WCheck)
| R_fetch_next_fail : forall u, p_worker s = WFetch -> sc_get sc (p_sched s) = (GEpisodeEnd, u) ->
    sc_len sc = None \/ sc_next sc u = None ->
    stepR s LWFetch [] (set_worker sc (set_sched sc s u) WCrashed)
| R_put : forall b, p_worker s = WPut b -> List.length (p_queue s) < N ->
    stepR s LWPut [] (set_worker sc (set_queue sc s (p_queue s ++ [Data b])) WCheck)
| R_eos : p_worker s = WEosPut -> List.length (p_queue s) < N ->
    stepR s LWEosPut [] (set_worker sc (set_queue sc s (p_queue s ++ [EOS])) WSetStop)
| R_eos_full : p_worker s = WEosPut -> N <= List.length (p_queue s) ->
    stepR s LWEosFull [] (set_worker sc s WForce)
| R_force0 : p_worker s = WForce -> p_queue s = [] ->
    stepR s LWForce [] (set_worker sc (set_queue sc s [EOS]) WSetStop)
| R_force : forall i q, p_worker s = WForce -> p_queue s = i :: q ->
    stepR s LWForce [EvDrop i] (set_worker sc (set_queue sc s (q ++ [EOS])) WSetStop)
| R_set_stop : p_worker s = WSetStop -> stepR s LWSetStop [] (set_worker sc (set_stop sc s) WDone).

Lemma start_t : forall s, p_t (start sc s) = p_t s.
Proof. intros s. unfold start. destruct (p_started s); reflexivity. Qed.

Lemma step_R : forall s l e s', step s l = Some (e, s') -> stepR s l e s'.
Proof.
  intros s l e s' H. destruct l; unfold pstep in H.
  - destruct (p_pc s) eqn:P; try discriminate.
    injection H as H. unfold call_get in H. destruct (n =? B) eqn:E.
    + apply Nat.eqb_eq in E. subst n. destruct (sc_len sc) as [L|] eqn:EL.
      * rewrite start_t in H. destruct (L <=? p_t s) eqn:E2; injection H as <- <-.
        -- apply Nat.leb_le in E2. eapply R_get_end; eauto.
        -- apply Nat.leb_gt in E2. apply R_get; auto. intros L' EL'. congruence.
      * injection H as <- <-. apply R_get; auto. intros; congruence.
    + apply Nat.eqb_neq in E. injection H as <- <-. constructor; auto.
  - destruct (p_pc s) eqn:P; try discriminate. destruct (p_queue s) eqn:Q; try discriminate.
    injection H as <- <-. constructor; auto.
  - destruct (p_pc s) eqn:P; try discriminate. destruct (p_queue s) eqn:Q; try discriminate.
    injection H as <- <-. constructor; auto.
  - destruct (p_pc s) eqn:P; try discriminate. injection H as <- <-. constructor; auto.
  - destruct (p_pc s) eqn:P; try discriminate. unfold poll in H.
    destruct (p_queue s) eqn:Q; injection H as <- <-; constructor; auto.
  - destruct (p_pc s) eqn:P; try discriminate.
    destruct (alive (p_worker s)) eqn:A; try discriminate. injection H as <- <-. constructor; auto.
  - destruct (p_pc s) eqn:P; try discriminate. injection H as <- <-. constructor; auto.
  - destruct (p_pc s) eqn:P; try discriminate. unfold poll in H.
    destruct (p_queue s) eqn:Q; injection H as <- <-; constructor; auto.
  - destruct (p_pc s) eqn:P; try discriminate.
    destruct (List.length (p_queue s) <? N) eqn:E; injection H as <- <-.
    + apply Nat.ltb_lt in E. constructor; auto.
    + apply Nat.ltb_ge in E. constructor; auto.
  - destruct (p_pc s) eqn:P; try discriminate. injection H as <- <-. constructor; auto.
  - destruct (p_pc s) eqn:P; try discriminate. injection H as H. unfold call_next in H.
    destruct (sc_len sc) as [L|] eqn:EL.
    + destruct (p_started s) eqn:S; cbn [andb] in H.
      * destruct (p_t s <? L) eqn:T; injection H as <- <-.
        -- apply Nat.ltb_lt in T. constructor; auto.
        -- apply Nat.ltb_ge in T. eapply R_next_end; eauto.
      * injection H as <- <-. eapply R_next_end; eauto.
    + injection H as <- <-. constructor; auto.
  - destruct (p_pc s) eqn:P; try discriminate. destruct (p_queue s) as [|i q] eqn:Q; try discriminate.
    injection H as H. unfold discard in H. destruct i.
    + destruct (todo <=? 1) eqn:E; injection H as <- <-.
      * apply Nat.leb_le in E. econstructor; eauto.
      * apply Nat.leb_gt in E. econstructor; eauto.
    + injection H as <- <-. econstructor; eauto.
  - destruct (p_pc s) eqn:P; try discriminate. injection H as <- <-. econstructor; eauto.
  - destruct (p_worker s) eqn:W; try discriminate. destruct (p_stop s) eqn:S; injection H as <- <-;
      constructor; auto.
  - destruct (p_worker s) eqn:W; try discriminate. injection H as <- H. unfold fetch in H.
    destruct (sc_get sc (p_sched s)) as [r u] eqn:G. destruct r.
    + subst. constructor; auto.
    + destruct (sc_len sc) as [L|] eqn:EL.
      * destruct (sc_next sc u) as [x|] eqn:EX; subst;
          [eapply R_fetch_next | apply R_fetch_next_fail]; eauto.
      * subst. apply R_fetch_next_fail; auto.
    + subst. constructor; auto.
    + subst. constructor; auto.
  - destruct (p_worker s) eqn:W; try discriminate.
    destruct (List.length (p_queue s) <? N) eqn:E; try discriminate. apply Nat.ltb_lt in E.
    injection H as <- <-. constructor; auto.
  - destruct (p_worker s) eqn:W; try discriminate.
    destruct (List.length (p_queue s) <? N) eqn:E; try discriminate. apply Nat.ltb_lt in E.
    injection H as <- <-. constructor; auto.
  - destruct (p_worker s) eqn:W; try discriminate.
    destruct (List.length (p_queue s) <? N) eqn:E; try discriminate. apply Nat.ltb_ge in E.
    injection H as <- <-. constructor; auto.
  - destruct (p_worker s) eqn:W; try discriminate. injection H as H. unfold force in H.
    destruct (p_queue s) eqn:Q; injection H as <- <-; constructor; auto.
  - destruct (p_worker s) eqn:W; try discriminate. injection H as <- <-. constructor; auto.
Qed.

(** *** What a step leaves alone *)

Lemma start_fields : forall s,
  p_sched (start sc s) = p_sched s /\ p_queue (start sc s) = p_queue s /\
  p_stop (start sc s) = p_stop s /\ p_pc (start sc s) = p_pc s /\ p_started (start sc s) = true /\
  p_worker (start sc s) = (if p_started s then p_worker s else WCheck).
Proof. intros s. unfold start. destruct (p_started s) eqn:E; cbn; rewrite ?E; repeat split; auto. Qed.

(** *** Basic invariant *)

Definition started_iff (s : st) : Prop := p_started s = false <-> p_worker s = WIdle.

Record basic (s : st) : Prop := mkBasic {
  b_started : started_iff s;
  b_queue : List.length (p_queue s) <= N;
  b_t : forall L, sc_len sc = Some L -> p_t s <= L;
  b_get : p_pc s = CGet -> forall L, sc_len sc = Some L -> p_t s < L;
  b_disc : forall n, p_pc s = CDiscard n -> exists L, sc_len sc = Some L /\ 1 <= n <= L - p_t s;
  b_fresh : p_started s = false -> p_queue s = [] \/ p_stop s = true;
  b_busy : p_started s = false -> p_pc s <> CGet /\ (forall n, p_pc s <> CDiscard n);
  b_stop : p_worker s = WDone -> p_stop s = true;
  b_pcstop : p_pc s = CReset1 \/ p_pc s = CReset2 \/ p_pc s = CShut1 \/ p_pc s = CShut2 \/ p_pc s = CShut3 ->
             p_stop s = true
}.

Lemma basic_init : forall u, basic (pinit sc u).
Proof.
  intros u. constructor; cbn; try (intros; discriminate); try (intros; lia); auto.
  - split; reflexivity.
  - intros H; split; [discriminate | intros; discriminate].
  - intros H. decompose [or] H; discriminate.
Qed.

Lemma started_iff_start : forall s, started_iff s -> started_iff (start sc s).
Proof.
  intros s [H1 H2]. unfold started_iff. destruct (start_fields s) as (_ & _ & _ & _ & E & W).
  rewrite E, W. split; [discriminate|]. destruct (p_started s) eqn:S; [|discriminate].
  intros K. specialize (H2 K). discriminate.
Qed.

(** *** Reading event lists *)

Definition removed (es : list (event sc)) : list (sc_batch sc) :=
  flat_map (fun e => match e with
                     | EvReturn b | EvFlush b | EvDrop (Data b) | EvPoll (Data b) => [b]
                     | _ => [] end) es.

Lemma handed_removed : forall es, subseq (handed es) (removed es).
Proof.
  induction es as [|e es IH]; [apply sub_nil|].
  destruct e; cbn; try assumption; try (apply sub_keep; assumption).
  all: destruct i; cbn; [apply sub_skip|]; assumption.
Qed.

Lemma returned_handed : forall es, subseq (@returned sc es) (handed es).
Proof.
  induction es as [|e es IH]; [apply sub_nil|].
  destruct e; cbn; try assumption; [apply sub_keep | apply sub_skip]; assumption.
Qed.

Lemma removed_length : forall es,
  List.length (removed es) = List.length (handed es) + List.length (dropped es) + List.length (polled es).
Proof.
  induction es as [|e es IH]; [reflexivity|].
  destruct e; cbn; unfold removed, handed, dropped, polled in *; try lia; destruct i; cbn; lia.
Qed.

Lemma removed_handed : forall es, dropped es = [] -> polled es = [] -> removed es = handed es.
Proof.
  induction es as [|e es IH]; [reflexivity|].
  destruct e; cbn; unfold removed, handed, dropped, polled in *; intros H1 H2;
    try (destruct i); cbn in *; try discriminate; auto; rewrite IH by assumption; reflexivity.
Qed.

Lemma removed_app : forall a b, removed (a ++ b) = removed a ++ removed b.
Proof. intros. apply flat_map_app. Qed.
Lemma handed_app : forall a b, @handed sc (a ++ b) = handed a ++ handed b.
Proof. intros. apply flat_map_app. Qed.
Lemma dropped_app : forall a b, @dropped sc (a ++ b) = dropped a ++ dropped b.
Proof. intros. apply flat_map_app. Qed.
Lemma polled_app : forall a b, @polled sc (a ++ b) = polled a ++ polled b.
Proof. intros. apply flat_map_app. Qed.
Lemma queued_app : forall a b, @queued sc (a ++ b) = queued a ++ queued b.
Proof. intros. apply flat_map_app. Qed.

Lemma fetches_snoc : forall ls l,
  fetches (ls ++ [l]) = (match l with LWFetch => 1 | _ => 0 end) + fetches ls.
Proof.
  intros. unfold fetches. rewrite filter_app, app_length. destruct l; cbn; lia.
Qed.

Hypothesis Npos : 1 <= N.

Lemma basic_step : forall s l e s', basic s -> step s l = Some (e, s') -> basic s'.
Proof.
  intros s l e s' [I1 I2 I3 I4 I5 I6 I7 I8 I9] H. apply step_R in H.
  destruct (start_fields s) as (F1 & F2 & F3 & F4 & F5 & F6). pose proof (start_t s) as F7.
  pose proof (started_iff_start s I1) as I1'.
  assert (WS : p_worker (start sc s) = WDone -> p_stop s = true).
  { rewrite F6. destruct (p_started s); [exact I8 | discriminate]. }
  assert (Q0 : forall i q, p_queue s = i :: q -> p_started s = false -> p_stop s = true).
  { intros i q Q S. destruct (I6 S) as [K|K]; [rewrite K in Q; discriminate | exact K]. }
  assert (W : forall w, p_worker s = w -> w <> WIdle -> p_started s = true).
  { intros w E D; destruct (p_started s) eqn:S; [reflexivity|].
    exfalso; apply D; rewrite <- E; apply I1; exact S. }
  destruct H; try (apply basic_init);
  repeat match goal with K : p_queue s = _ |- _ => rewrite K in * end;
  try match goal with K : p_worker s = ?w |- _ =>
         let HS := fresh "HS" in assert (HS : p_started s = true) by (apply (W _ K); discriminate) end;
  constructor; unfold started_iff in *; cbn in *; rewrite ?app_length in *; cbn in *;
  rewrite ?F1, ?F2, ?F3, ?F4, ?F5, ?F7; auto; try lia; try congruence;
  try (intros; congruence); try (intros ? ?; exfalso; congruence); try (split; intros; congruence);
  try solve [intros ? E; injection E as <-; eexists; split; [eassumption|]; lia];
  try solve [intros L' E; specialize (I3 L' E); lia];
  try solve [intros L' E; lia];
  try solve [intros K; specialize (I7 K) as [K1 K2]; congruence];
  try solve [intros L' E; match goal with P : p_pc s = CGet |- _ => specialize (I4 P L' E) end; lia];
  try solve [intros K; destruct (I7 K) as [? K2]; split; [congruence | intros; exact (K2 _)]];
  try solve [intros K; decompose [or] K; congruence];
  try solve [intros K; right; eapply Q0; eauto];
  try solve [intros n1 E; destruct (I5 _ E) as (L' & EL & R); exists L'; split; auto; lia];
  try solve [intros n1 E; injection E as <-;
         match goal with P : p_pc s = CDiscard _ |- _ => destruct (I5 _ P) as (L' & EL & R) end;
         exists L'; split; auto; lia];
  try solve [intros K; split; [discriminate | intros; discriminate]];
  try solve [intros K; right; apply I9; auto 6];
  try solve [intros _; apply I9; auto 6];
  repeat match goal with K : p_queue s = _ |- _ => rewrite K end; cbn; lia.
Qed.

Lemma basic_exec : forall s ls es s', basic s -> exec s ls es s' -> basic s'.
Proof. intros s ls es s' H E. induction E; auto. eapply basic_step; eauto. Qed.

(** *** Generations: a completed reset starts from scratch *)

Lemma last_reset : forall u ls es s, exec (pinit sc u) ls es s ->
  exists ls1 es1 u0 ls2 es2,
    ls = ls1 ++ ls2 /\ es = es1 ++ es2 /\
    exec (pinit sc u) ls1 es1 (pinit sc u0) /\
    exec (pinit sc u0) ls2 es2 s /\ no_reset ls2 /\ ~ In EvReset es2 /\
    (ls1 = [] /\ es1 = [] /\ u0 = u \/
     exists ls1' es1' s1, ls1 = ls1' ++ [LResetJoin] /\ es1 = es1' ++ [EvReset] /\
       exec (pinit sc u) ls1' es1' s1 /\ alive (p_worker s1) = false /\ u0 = sc_reset sc (p_sched s1)).
Proof.
  intros u ls es s H. induction H.
  - exists [], [], u, [], []. split; [reflexivity|]. split; [reflexivity|].
    split; [constructor|]. split; [constructor|]. split; [intros []|]. split; [intros []|]. auto.
  - destruct IHexec as (ls1 & es1 & u0 & ls2 & es2 & -> & -> & E1 & E2 & NR & NE & D).
    pose proof H0 as HS. apply step_R in H0.
    assert (C : l = LResetJoin \/ l <> LResetJoin /\ ~ In EvReset e).
    { destruct H0; auto; right; (split; [discriminate|]); cbn; try tauto.
      all: try (intros [K|[]]; discriminate).
      - destruct i; intros [K|[]]; discriminate.
      - intros [K|[K|[]]]; discriminate. }
    destruct C as [->|[C CE]].
    + inversion H0; subst.
      exists ((ls1 ++ ls2) ++ [LResetJoin]), ((es1 ++ es2) ++ [EvReset]), (sc_reset sc (p_sched s1)), [], [].
      rewrite !app_nil_r. split; [reflexivity|]. split; [reflexivity|].
      split; [eapply exec_snoc; [eapply exec_app; eauto | exact HS]|].
      split; [constructor|]. split; [intros []|]. split; [intros []|].
      right. exists (ls1 ++ ls2), (es1 ++ es2), s1. repeat split; eauto using exec_app.
    + exists ls1, es1, u0, (ls2 ++ [l]), (es2 ++ e). rewrite !app_assoc. split; [reflexivity|]. split; [reflexivity|].
      split; [assumption|]. split; [eapply exec_snoc; eauto|]. split.
      * unfold no_reset in *. rewrite in_app_iff. cbn. intuition congruence.
      * split; [rewrite in_app_iff; tauto | exact D].
Qed.

(** *** Conservation *)

Definition conserved (u : sc_state sc) (ls : list label) (es : list (event sc)) (s : st) : Prop :=
  calls (fetches ls) u = (removed es ++ queued (p_queue s) ++ inflight s, p_sched s).

Lemma inflight_start : forall s, started_iff s -> inflight (start sc s) = inflight s.
Proof.
  intros s [I _]. unfold inflight, start. destruct (p_started s) eqn:S; [reflexivity|]. cbn.
  rewrite (I eq_refl). reflexivity.
Qed.

Lemma conserved_step : forall u ls es s l e s', basic s -> conserved u ls es s ->
  step s l = Some (e, s') -> l <> LResetJoin -> conserved u (ls ++ [l]) (es ++ e) s'.
Proof.
  intros u ls es s l e s' [I1 _ _ _ _ _ _ _ _] C H NR. apply step_R in H.
  unfold conserved in *. rewrite fetches_snoc, removed_app.
  pose proof (inflight_start s I1) as F.
  destruct (start_fields s) as (F1 & F2 & F3 & F4 & F5 & F6).
  destruct H; cbn [removed flat_map plus app]; rewrite ?app_nil_r; try congruence;
  try (match goal with K : p_queue s = _ |- _ => rewrite K in C end);
  try (match goal with K : p_worker s = _ |- _ => unfold inflight in *; rewrite K in * end);
  cbn [calls]; rewrite C; cbn;
  try (match goal with K : sc_get sc _ = _ |- _ => rewrite K end);
  try (match goal with K : sc_len sc = _ |- _ => rewrite K end);
  try (match goal with K : sc_next sc _ = _ |- _ => rewrite K end);
  unfold inflight in *; cbn in *; rewrite ?F1, ?F2, ?F, ?queued_app, ?app_nil_r, <- ?app_assoc;
  cbn; rewrite ?app_nil_r; auto;
  try (match goal with K : p_worker s = _ |- _ => rewrite K in * end); cbn; auto.
  all: try (match goal with i : item sc |- _ => destruct i; cbn; auto end).
  all: unfold queued in *; try rewrite H0; rewrite ?flat_map_app, <- ?app_assoc; cbn; rewrite ?app_nil_r; auto.
  destruct (sc_len sc), (sc_next sc u0); auto; destruct H1; congruence.
Qed.

Lemma conserved_exec : forall u ls es s, exec (pinit sc u) ls es s -> no_reset ls -> conserved u ls es s.
Proof.
  intros u ls es s H. induction H; intros NR.
  - reflexivity.
  - unfold no_reset in *. rewrite in_app_iff in NR. eapply conserved_step; eauto.
    + eapply basic_exec; [apply basic_init | eassumption].
    + intros ->. apply NR. cbn. auto.
Qed.

End P.
