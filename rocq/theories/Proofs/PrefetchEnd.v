(** How the prefetcher's stream ends: no call of the wrapped scheduler after
    the last one, a marker for StopIteration, and nothing dropped unless the
    buffer was full. *)
From Coq Require Import List Arith Bool ZArith Lia.
Import ListNotations.
From Verif Require Import Model.Prefetch Spec.PrefetchSpec Proofs.PrefetchProofs Proofs.PrefetchMore.
Local Open Scope nat_scope.

Section P.
Variable sc : sched.
Variables B N : nat.
Hypothesis Npos : 1 <= N.
Notation step := (pstep sc B N).
Notation exec := (exec sc B N).
Notation st := (pst sc).

Lemma sched_is : forall u ls es s, exec (pinit sc u) ls es s -> no_reset ls ->
  p_sched s = snd (calls (fetches ls) u).
Proof. intros u ls es s H NR. rewrite (conserved_exec sc B N Npos u ls es s H NR). reflexivity. Qed.

(** *** After the last call *)

Definition past (w : wpc sc) : Prop :=
  match w with WEosPut | WForce | WSetStop | WDone | WCrashed => True | _ => False end.

Lemma past_step : forall s l e s', basic sc N s -> stepR sc B N s l e s' -> l <> LResetJoin ->
  past (p_worker s) -> past (p_worker s') /\ l <> LWFetch.
Proof.
  intros s l e s' BS H NL P. destruct BS as [I1 _ _ _ _ _ _ _ _]. unfold started_iff in I1.
  destruct (start_fields sc s) as (F1 & F2 & F3 & F4 & F5 & F6).
  assert (S : p_started s = true).
  { destruct (p_started s); auto. rewrite (proj1 I1 eq_refl) in P. destruct P. }
  rewrite S in F6.
  destruct H; cbn [p_worker set_pc set_queue set_stop set_worker set_t set_sched] in *;
    rewrite ?F6; try congruence; try (split; [assumption | discriminate]);
    match goal with W : p_worker s = _ |- _ => rewrite W in P end; try destruct P;
    (split; [exact I | discriminate]).
Qed.

Lemma last_inv : forall u ls es s, exec (pinit sc u) ls es s -> no_reset ls ->
  forall k, k < fetches ls -> last_call k u -> S k = fetches ls /\ past (p_worker s).
Proof.
  intros u ls es s H. pattern ls, es, s. revert ls es s H. apply (exec_ind_inv sc B N).
  - cbn. lia.
  - intros ls es s l e s' HX IH H NR k Hk E.
    unfold no_reset in *. rewrite in_app_iff in NR. cbn in NR.
    assert (NR1 : no_reset ls) by (unfold no_reset; tauto). specialize (IH NR1).
    assert (N1 : l <> LResetJoin) by (intros ->; tauto).
    assert (BS : basic sc N s) by (eapply basic_exec; [exact Npos | apply basic_init | exact HX]).
    rewrite fetches_snoc in Hk |- *.
    destruct (Nat.lt_ge_cases k (fetches ls)) as [Lk|Gk].
    + destruct (IH k Lk E) as [IH1 IH2].
      destruct (past_step s l e s' BS H N1 IH2) as [A C]. split; [|exact A].
      destruct l; try exact IH1. congruence.
    + assert (l = LWFetch) as -> by (destruct l; try lia; reflexivity).
      assert (k = fetches ls) as -> by lia. split; [lia|].
      unfold last_call, answer in E. rewrite <- (sched_is u ls es s HX NR1) in E.
      inversion H as [| | | | | | | | | | | | | | | | | | | | | | | | b v W G|v W G|v W G|v x L W G HL HN|v W G HN| | | | | | ];
        subst; rewrite G in E; cbn [fst snd] in E; try exact I.
      * destruct E as [E|[E|[E _]]]; discriminate.
      * destruct E as [E|[E|[_ [E|E]]]]; congruence.
Qed.

(** *** The marker *)

Definition marked (s : st) (es : list (event sc)) : Prop :=
  In EOS (p_queue s) \/ eos_seen sc es.

Lemma seen_app : forall a b, eos_seen sc (a ++ b) <-> eos_seen sc a \/ eos_seen sc b.
Proof. intros. unfold eos_seen. rewrite !in_app_iff. tauto. Qed.

Definition told (s : st) (es : list (event sc)) : Prop :=
  p_worker s = WEosPut \/ p_worker s = WForce \/
  (p_worker s = WSetStop \/ p_worker s = WDone) /\ marked s es.

Lemma marked_pop : forall i q s' es e, In EOS (i :: q) \/ eos_seen sc es ->
  p_queue s' = q -> (i = EOS -> eos_seen sc e) -> marked s' (es ++ e).
Proof.
  intros i q s' es e M Q K. unfold marked. rewrite Q, seen_app.
  destruct M as [[M|M]|M]; auto.
Qed.

Lemma marker_inv : forall u ls es s, exec (pinit sc u) ls es s -> ~ In LCallReset ls -> no_shutdown ls ->
  (exists k, k < fetches ls /\ answer k u = GStop) -> told s es.
Proof.
  intros u ls es s H. pattern ls, es, s. revert ls es s H. apply (exec_ind_inv sc B N).
  - intros _ _ (k & K & _). cbn in K. lia.
  - intros ls es s l e s' HX IH H NR NS (k & Hk & E).
    unfold no_shutdown in *. rewrite in_app_iff in NR, NS. cbn in NR, NS.
    assert (R1 : ~ In LCallReset ls) by tauto. assert (S1 : no_shutdown ls) by (unfold no_shutdown; tauto).
    destruct (no_callreset_no_join sc B N u ls es s HX R1) as (P1 & P2 & NR1).
    destruct (no_shut_put sc B N u ls es s HX S1) as (P3 & P4 & P5 & _).
    assert (N1 : l <> LResetJoin) by (intros ->; inversion H; subst; contradiction).
    assert (BS : basic sc N s) by (eapply basic_exec; [exact Npos | apply basic_init | exact HX]).
    rewrite fetches_snoc in Hk.
    destruct (Nat.lt_ge_cases k (fetches ls)) as [Lk|Gk].
    + specialize (IH R1 S1 (ex_intro _ k (conj Lk E))).
      destruct BS as [I1 _ _ _ _ _ _ _ _]. unfold started_iff in I1.
      destruct (start_fields sc s) as (F1 & F2 & F3 & F4 & F5 & F6).
      assert (S : p_started s = true).
      { destruct (p_started s); auto. unfold told in IH; rewrite (proj1 I1 eq_refl) in IH.
        destruct IH as [X|[X|[[X|X] _]]]; discriminate. }
      rewrite S in F6.
      assert (Same : forall t e', p_worker t = p_worker s -> p_queue t = p_queue s -> told t (es ++ e')).
      { intros t e' A C. unfold told, marked in *. rewrite A, C, seen_app. tauto. }
      assert (Pop : forall i q t e', p_queue s = i :: q -> p_worker t = p_worker s -> p_queue t = q ->
                (i = EOS -> eos_seen sc e') -> told t (es ++ e')).
      { intros i q t e' Q A C K. unfold told in *. rewrite A. unfold marked in IH. rewrite Q in IH.
        destruct IH as [X|[X|[X M]]]; auto. right. right. split; [exact X|].
        eapply marked_pop; eauto. }
      assert (Not : past (p_worker s)).
      { destruct IH as [X|[X|[[X|X] _]]]; rewrite X; exact I. }
      destruct (past_step s l e s' (basic_exec sc B N Npos _ _ _ _ (basic_init sc N u) HX) H N1 Not) as [_ NF].
      destruct H; try congruence; rewrite ?(start_started sc s S); try (apply Same; reflexivity);
        try (match goal with W : p_worker s = _ |- _ => rewrite W in Not; try destruct Not end).
      * eapply (Pop i q); try reflexivity; [assumption|]. intros ->. left. left. reflexivity.
      * eapply (Pop EOS q); try reflexivity; [assumption|]. intros _. right. left. reflexivity.
      * eapply (Pop (Data b) q); try reflexivity; [assumption|discriminate].
      * eapply (Pop (Data b) q); try reflexivity; [assumption|discriminate].
      * right. right. split; [left; reflexivity|]. left. cbn. rewrite in_app_iff. cbn. auto.
      * right. left. reflexivity.
      * right. right. split; [left; reflexivity|]. left. cbn. auto.
      * right. right. split; [left; reflexivity|]. left. cbn. rewrite in_app_iff. cbn. auto.
      * right. right. split; [right; reflexivity|].
        destruct IH as [X|[X|[_ M]]]; try congruence. unfold marked in *. rewrite seen_app. cbn. tauto.
    + assert (l = LWFetch) as -> by (destruct l; try lia; reflexivity).
      assert (k = fetches ls) as -> by lia.
      unfold answer in E. rewrite <- (sched_is u ls es s HX NR1) in E.
      inversion H as [| | | | | | | | | | | | | | | | | | | | | | | | b v W G|v W G|v W G|v x L W G HL HN|v W G HN| | | | | | ];
        subst; rewrite G in E; cbn [fst snd] in E; try discriminate. left. reflexivity.
Qed.

Lemma marker_arrives : forall u ls es s, exec (pinit sc u) ls es s -> ~ In LCallReset ls -> no_shutdown ls ->
  (exists k, k < fetches ls /\ answer k u = GStop) -> is_running s = false ->
  In EOS (p_queue s) \/ In EvStopEos es \/ In EvNextEos es.
Proof.
  intros u ls es s H NR NS K A. destruct (marker_inv u ls es s H NR NS K) as [X|[X|[_ M]]].
  - unfold is_running in A. rewrite X in A. discriminate.
  - unfold is_running in A. rewrite X in A. discriminate.
  - exact M.
Qed.

(** *** A drop needs a full buffer *)

Definition was_full (u : sc_state sc) (ls : list label) (es : list (event sc)) (s : st) : Prop :=
  exists ls1 es1 s1 ls2 es2, ls = ls1 ++ ls2 /\ es = es1 ++ es2 /\
    exec (pinit sc u) ls1 es1 s1 /\ exec s1 ls2 es2 s /\ List.length (p_queue s1) = N /\
    exists k, S k = fetches ls1 /\ answer k u = GStop.

Lemma was_full_snoc : forall u ls es s l e s', was_full u ls es s -> step s l = Some (e, s') ->
  was_full u (ls ++ [l]) (es ++ e) s'.
Proof.
  intros u ls es s l e s' (ls1 & es1 & s1 & ls2 & es2 & -> & -> & E1 & E2 & Q & K) H.
  exists ls1, es1, s1, (ls2 ++ [l]), (es2 ++ e).
  repeat split; try (rewrite app_assoc; reflexivity); auto. eapply exec_snoc; eauto.
Qed.

(** [exec_ind_inv] with the step itself. *)
Lemma exec_ind_step : forall (I : list label -> list (event sc) -> st -> Prop) s0,
  I [] [] s0 ->
  (forall ls es s l e s', exec s0 ls es s -> I ls es s -> step s l = Some (e, s') -> I (ls ++ [l]) (es ++ e) s') ->
  forall ls es s, exec s0 ls es s -> I ls es s.
Proof. intros I s0 H0 HS ls es s H. induction H; eauto. Qed.

Lemma eosput_inv : forall u ls es s, exec (pinit sc u) ls es s -> no_reset ls ->
  p_worker s = WEosPut -> exists k, S k = fetches ls /\ answer k u = GStop.
Proof.
  intros u ls es s H. pattern ls, es, s. revert ls es s H. apply (exec_ind_inv sc B N).
  - discriminate.
  - intros ls es s l e s' HX IH H NR W.
    unfold no_reset in *. rewrite in_app_iff in NR. cbn in NR.
    assert (NR1 : no_reset ls) by (unfold no_reset; tauto). specialize (IH NR1).
    rewrite fetches_snoc.
    destruct (start_fields sc s) as (F1 & F2 & F3 & F4 & F5 & F6).
    destruct H; cbn [p_worker set_pc set_queue set_stop set_worker set_t set_sched] in W;
      try rewrite F6 in W; try discriminate W; try (apply IH; assumption);
      try (destruct (p_started s); [apply IH; assumption | discriminate W]).
    exists (fetches ls). split; [reflexivity|].
    unfold answer. rewrite <- (sched_is u ls es s HX NR1), H0. reflexivity.
Qed.

Lemma full_inv : forall u ls es s, exec (pinit sc u) ls es s -> no_reset ls ->
  p_worker s = WForce \/ 1 <= drops sc es -> was_full u ls es s.
Proof.
  intros u. apply (exec_ind_step (fun ls es s => no_reset ls ->
    p_worker s = WForce \/ 1 <= drops sc es -> was_full u ls es s)).
  - intros _ [X|X]; [discriminate X | cbn in X; lia].
  - intros ls es s l e s' HX IH H NR C.
    unfold no_reset in *. rewrite in_app_iff in NR. cbn in NR.
    assert (NR1 : no_reset ls) by (unfold no_reset; tauto). specialize (IH NR1).
    assert (BS : basic sc N s) by (eapply basic_exec; [exact Npos | apply basic_init | exact HX]).
    rewrite drops_app in C.
    assert (D : (p_worker s = WForce \/ 1 <= drops sc es) \/
                p_worker s = WEosPut /\ N <= List.length (p_queue s)).
    { pose proof (step_R sc B N s l e s' H) as R. clear H.
      destruct (start_fields sc s) as (F1 & F2 & F3 & F4 & F5 & F6).
      destruct R; cbn [p_worker set_pc set_queue set_stop set_worker set_t set_sched] in C;
        try rewrite F6 in C; cbn [drops filter List.length] in C; auto;
        try (left; destruct C as [C|C]; [try discriminate C; auto | right; cbn in C; lia]);
        try (destruct (p_started s); [auto | discriminate C]).
      left. destruct C as [C|C]; [auto|]. right. destruct i; cbn in C; lia. }
    destruct D as [D|[W Q]].
    + apply (was_full_snoc u ls es s); [apply IH; exact D | exact H].
    + destruct BS as [_ I2 _ _ _ _ _ _ _].
      exists ls, es, s, [l], e. repeat split; auto.
      * apply exec_one. exact H.
      * lia.
      * apply (eosput_inv u ls es s HX NR1 W).
Qed.

Lemma drop_needs_full : forall u ls es s, exec (pinit sc u) ls es s -> no_reset ls -> dropped es <> [] ->
  was_full u ls es s.
Proof.
  intros u ls es s H NR D. apply (full_inv u ls es s H NR). right.
  pose proof (dropped_drops sc es). destruct (dropped es); [congruence|cbn in *; lia].
Qed.

End P.
