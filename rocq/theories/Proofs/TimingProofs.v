(** Two runs of a prefetcher that differ only in how the two threads are timed:
    at any moment one background thread is just further on the same way than the
    other. *)
From Coq Require Import List Arith ZArith String Bool Lia.
From Verif Require Import Prelude Model.Base Model.Episodic Model.Prefetch Proofs.PrefetchProofs Model.Sampler Model.Real Model.Stack
  Spec.StackSpec Proofs.StackProofs.
Import ListNotations.
Local Open Scope nat_scope.

Section Ways.
Variables (si : sif) (len : option nat) (B N : nat).
Notation sc := (sched_of si len B).
Notation pst := (pst sc).
Notation go k := (wrun si len B N k false).

(** The next step of the background thread. *)
Definition wnext (s : pst) : option pst :=
  match wlabel si len B N false s with
  | None => None
  | Some l => match pstep sc B N s l with Some (_, s') => Some s' | None => None end
  end.

Lemma go_S : forall k s, go (S k) s = match wnext s with Some s' => go k s' | None => s end.
Proof.
  intros k s. unfold wnext. cbn [wrun]. destruct (wlabel si len B N false s); [|reflexivity]. destruct (pstep sc B N s l) as [[e s']|]; reflexivity.
Qed.
Lemma go_stuck : forall k s, wnext s = None -> go k s = s.
Proof. intros [|k] s H; [reflexivity|]. rewrite go_S, H. reflexivity. Qed.
Lemma go_add : forall a b s, go (a + b) s = go b (go a s).
Proof.
  induction a as [|a IH]; intros b s; [reflexivity|]. change (S a + b) with (S (a + b)). rewrite !go_S.
  destruct (wnext s) eqn:E; [apply IH|]. symmetry. apply go_stuck. exact E.
Qed.

(** One of two threads is ahead of the other. *)
Definition level (s s' : pst) : Prop := exists k, go k s = s' \/ go k s' = s.

Lemma level_refl : forall s, level s s.
Proof. intros s. exists 0. left. reflexivity. Qed.
Lemma level_sym : forall s s', level s s' -> level s' s.
Proof. intros s s' (k & [H|H]); exists k; auto. Qed.
Lemma level_go1 : forall a b k s, level (go a s) (go b (go k s)).
Proof.
  intros a b k s. rewrite <- go_add. destruct (Nat.le_ge_cases a (k + b)) as [H|H].
  - exists (k + b - a). left. rewrite <- go_add. f_equal. lia.
  - exists (a - (k + b)). right. rewrite <- go_add. f_equal. lia.
Qed.
Lemma level_go : forall a b s s', level s s' -> level (go a s) (go b s').
Proof.
  intros a b s s' (k & [<-|<-]); [apply level_go1|]. apply level_sym, level_go1.
Qed.

(** What a worker step leaves alone, and that it never is about to drop an
    element. *)
Definition tame (s : pst) : Prop := p_worker s <> WForce.

Lemma wnext_tame : forall s s', tame s -> wnext s = Some s' -> tame s'.
Proof.
  unfold tame. intros s s' T H. unfold wnext, wlabel in H. destruct (p_worker s) eqn:W; try discriminate.
  - cbn [pstep] in H. rewrite W in H. injection H as <-. cbn. destruct (p_stop s); discriminate.
  - cbn [pstep] in H. rewrite W in H. injection H as <-. unfold fetch. destruct (sc_get sc (p_sched s)) as [[b| | |] v]; cbn; try discriminate.
    destruct len; [|discriminate]. destruct (si_next si v) as [[]]; discriminate.
  - destruct (List.length (p_queue s) <? N) eqn:R; [|discriminate]. cbn [pstep] in H. rewrite W, R in H. injection H as <-. discriminate.
  - destruct (List.length (p_queue s) <? N) eqn:R; [|discriminate]. cbn [pstep] in H. rewrite W, R in H. injection H as <-. discriminate.
  - exfalso. apply T. reflexivity.
  - cbn [pstep] in H. rewrite W in H. injection H as <-. discriminate.
Qed.
Lemma go_tame : forall k s, tame s -> tame (go k s).
Proof.
  induction k as [|k IH]; intros s T; [exact T|]. rewrite go_S. destruct (wnext s) eqn:E; [|exact T]. apply IH. eapply wnext_tame; eauto.
Qed.

(** The consumer takes elements from the front and moves on. *)
Definition alter (s : pst) (q : list (item sc)) (t : nat) (c : cpc) : pst :=
  mkP (p_sched s) q (p_stop s) (p_worker s) (p_started s) t c.

Lemma wnext_alter : forall s s1 p q t c, tame s -> p_queue s = p ++ q -> wnext s = Some s1 ->
  exists q1, p_queue s1 = p ++ q1 /\ wnext (alter s q t c) = Some (alter s1 q1 t c).
Proof.
  intros s s1 p q t c T Q H. unfold wnext, wlabel in H |- *. change (p_worker (alter s q t c)) with (p_worker s).
  change (p_queue (alter s q t c)) with q. unfold tame in T.
  assert (RM : List.length (p_queue s) <? N = true -> List.length q <? N = true).
  { rewrite !Nat.ltb_lt, Q, app_length. lia. }
  destruct (p_worker s) eqn:W; try discriminate.
  - exists q. cbn [pstep] in H |- *. change (p_worker (alter s q t c)) with (p_worker s). rewrite W in H |- *. injection H as <-. split; [exact Q | reflexivity].
  - exists q. cbn [pstep] in H |- *. change (p_worker (alter s q t c)) with (p_worker s). rewrite W in H |- *. injection H as <-.
    unfold fetch. change (p_sched (alter s q t c)) with (p_sched s). destruct (sc_get sc (p_sched s)) as [[b| | |] v]; try (split; [exact Q | reflexivity]).
    destruct (sc_len sc); [|split; [exact Q | reflexivity]]. destruct (sc_next sc v); split; try exact Q; reflexivity.
  - destruct (List.length (p_queue s) <? N) eqn:R; [|discriminate]. rewrite (RM eq_refl).
    cbn [pstep] in H |- *. change (p_worker (alter s q t c)) with (p_worker s). change (p_queue (alter s q t c)) with q.
    rewrite W, R in H. rewrite W, (RM eq_refl). injection H as <-. exists (q ++ [Data b]). split; [|reflexivity].
    cbn. rewrite Q, <- app_assoc. reflexivity.
  - destruct (List.length (p_queue s) <? N) eqn:R; [|discriminate]. rewrite (RM eq_refl).
    cbn [pstep] in H |- *. change (p_worker (alter s q t c)) with (p_worker s). change (p_queue (alter s q t c)) with q.
    rewrite W, R in H. rewrite W, (RM eq_refl). injection H as <-. exists (q ++ [EOS]). split; [|reflexivity].
    cbn. rewrite Q, <- app_assoc. reflexivity.
  - exfalso. apply T. reflexivity.
  - exists q. cbn [pstep] in H |- *. change (p_worker (alter s q t c)) with (p_worker s). rewrite W in H |- *. injection H as <-. split; [exact Q | reflexivity].
Qed.

Lemma go_alter : forall k s p q t c, tame s -> p_queue s = p ++ q ->
  exists q1 k', p_queue (go k s) = p ++ q1 /\ go k' (alter s q t c) = alter (go k s) q1 t c.
Proof.
  induction k as [|k IH]; intros s p q t c T Q; [exists q, 0; auto|]. rewrite go_S. destruct (wnext s) as [s1|] eqn:E; [|exists q, 0; auto].
  destruct (wnext_alter s s1 p q t c T Q E) as (q1 & Q1 & E1). destruct (IH s1 p q1 t c (wnext_tame _ _ T E) Q1) as (q2 & k' & Q2 & E2).
  exists q2, (S k'). split; [exact Q2|]. rewrite go_S, E1. exact E2.
Qed.

Lemma level_alter : forall s s' p q q' t c, tame s -> tame s' -> level s s' -> p_queue s = p ++ q -> p_queue s' = p ++ q' ->
  level (alter s q t c) (alter s' q' t c).
Proof.
  intros s s' p q q' t c T T' (k & [E|E]) Q Q'.
  - destruct (go_alter k s p q t c T Q) as (q1 & k' & Q1 & E1). rewrite E in Q1, E1. rewrite Q' in Q1. apply app_inv_head in Q1. subst q1.
    exists k'. left. exact E1.
  - destruct (go_alter k s' p q' t c T' Q') as (q1 & k' & Q1 & E1). rewrite E in Q1, E1. rewrite Q in Q1. apply app_inv_head in Q1. subst q1.
    exists k'. right. exact E1.
Qed.

Lemma level_head : forall s s' i q i' q', tame s -> tame s' -> level s s' -> p_queue s = i :: q -> p_queue s' = i' :: q' -> i' = i.
Proof.
  intros s s' i q i' q' T T' (k & [E|E]) Q Q'.
  - destruct (go_alter k s [i] q 0 CIdle T Q) as (q1 & _ & Q1 & _). rewrite E, Q' in Q1. injection Q1 as -> _. reflexivity.
  - destruct (go_alter k s' [i'] q' 0 CIdle T' Q') as (q1 & _ & Q1 & _). rewrite E, Q in Q1. injection Q1 as -> _. reflexivity.
Qed.

(** What both see alike. *)
Lemma wnext_same : forall s s', wnext s = Some s' -> p_pc s' = p_pc s /\ p_t s' = p_t s /\ p_started s' = p_started s.
Proof.
  intros s s' H. unfold wnext in H. destruct (wlabel si len B N false s) as [l|] eqn:E; [|discriminate].
  destruct (pstep sc B N s l) as [[e s1]|] eqn:P; [|discriminate]. injection H as <-.
  assert (W : worker_label l = true).
  { unfold wlabel in E. destruct (p_worker s); try discriminate; repeat match type of E with context [if ?b then _ else _] => destruct b end;
    inversion E; reflexivity. }
  destruct (worker_step si len B N _ _ _ _ W P) as (A1 & A2 & A3 & _). auto.
Qed.
Lemma go_same : forall k s, p_pc (go k s) = p_pc s /\ p_t (go k s) = p_t s /\ p_started (go k s) = p_started s.
Proof.
  intros k s. destruct (wrun_exec si len B N k false s) as (ls & es & _ & _ & _ & A & A' & A'' & _). auto.
Qed.
Lemma level_same : forall s s', level s s' -> p_pc s' = p_pc s /\ p_t s' = p_t s /\ p_started s' = p_started s.
Proof.
  intros s s' (k & [<-|<-]); [exact (go_same k s)|]. destruct (go_same k s') as (E1 & E2 & E3). auto.
Qed.
Lemma level_idle : forall s s', level s s' -> p_worker s = WIdle -> p_worker s' = WIdle -> s' = s.
Proof.
  intros s s' (k & [<-|<-]) W W'; apply go_stuck || (symmetry; apply go_stuck); unfold wnext, wlabel; rewrite ?W, ?W'; reflexivity.
Qed.

(** ** A background thread that keeps up *)

Hypothesis Npos : 1 <= N.

(** States the wrapped scheduler can be in; an episode is not over before it
    began. *)
Variable P : si_state si -> Prop.
Definition steady : Prop :=
  (forall u r u', P u -> sc_get sc u = (r, u') -> P u') /\
  (forall u u', P u -> sc_next sc u = Some u' -> P u') /\
  (forall u u1 u2, P u -> len <> None -> sc_get sc u = (GEpisodeEnd, u1) -> sc_next sc u1 = Some u2 ->
    fst (sc_get sc u2) <> GEpisodeEnd).
Hypothesis Hsteady : steady.

Lemma wnext_P : forall s s' : pst, P (p_sched s) -> wnext s = Some s' -> P (p_sched s').
Proof.
  destruct Hsteady as (PG & PN & _). intros s s' HP H. unfold wnext, wlabel in H. destruct (p_worker s) eqn:W; try discriminate.
  - cbn [pstep] in H. rewrite W in H. injection H as <-. exact HP.
  - cbn [pstep] in H. rewrite W in H. injection H as <-. unfold fetch. destruct (sc_get sc (p_sched s)) as [r v] eqn:G.
    pose proof (PG _ _ _ HP G) as PV. destruct r; try exact PV. destruct (sc_len sc); [|exact PV].
    destruct (sc_next sc v) eqn:NX; [|exact PV]. exact (PN _ _ PV NX).
  - destruct (List.length (p_queue s) <? N) eqn:R; [|discriminate]. cbn [pstep] in H. rewrite W, R in H. injection H as <-. exact HP.
  - destruct (List.length (p_queue s) <? N) eqn:R; [|discriminate]. cbn [pstep] in H. rewrite W, R in H. injection H as <-. exact HP.
  - cbn [pstep] in H. rewrite W in H. unfold force in H. destruct (p_queue s); injection H as <-; exact HP.
  - cbn [pstep] in H. rewrite W in H. injection H as <-. exact HP.
Qed.
Lemma go_P : forall k (s : pst), P (p_sched s) -> P (p_sched (go k s)).
Proof.
  induction k as [|k IH]; intros s T; [exact T|]. rewrite go_S. destruct (wnext s) eqn:E; [|exact T]. apply IH. eapply wnext_P; eauto.
Qed.

Definition settled (s : pst) : Prop := p_queue s <> [] \/ wnext s = None.

Lemma settled_go : forall k s, tame s -> settled s -> settled (go k s).
Proof.
  intros k s T [Q|E].
  - left. destruct (p_queue s) as [|i q] eqn:EQ; [exfalso; apply Q; reflexivity|]. destruct (go_alter k s [i] q 0 CIdle T EQ) as (q1 & _ & Q1 & _).
    rewrite Q1. discriminate.
  - right. rewrite go_stuck; exact E.
Qed.
Lemma settles_more : forall k k' s, tame s -> k <= k' -> settled (go k s) -> settled (go k' s).
Proof.
  intros k k' s T L H. replace k' with (k + (k' - k)) by lia. rewrite go_add. apply settled_go; [apply go_tame, T | exact H].
Qed.

Lemma settles_put : forall s b, p_queue s = [] -> p_worker s = WPut b -> settled (go 1 s).
Proof.
  intros s b Q W. rewrite go_S. unfold wnext, wlabel. rewrite W, Q. assert (R : List.length (@nil (item sc)) <? N = true) by (apply Nat.ltb_lt; exact Npos).
  rewrite R. cbn [pstep]. rewrite W, Q, R. left. cbn. discriminate.
Qed.
Lemma settles_eos : forall s, p_queue s = [] -> p_worker s = WEosPut -> settled (go 1 s).
Proof.
  intros s Q W. rewrite go_S. unfold wnext, wlabel. rewrite W, Q. assert (R : List.length (@nil (item sc)) <? N = true) by (apply Nat.ltb_lt; exact Npos).
  rewrite R. cbn [pstep]. rewrite W, Q, R. left. cbn. discriminate.
Qed.
Lemma settles_dead : forall s, alive (p_worker s) = false -> settled s.
Proof. intros s A. right. unfold wnext, wlabel. destruct (p_worker s); try discriminate; reflexivity. Qed.
Lemma go_fetch : forall k s, p_worker s = WFetch -> go (S k) s = go k (fetch sc s).
Proof. intros k s W. rewrite go_S. unfold wnext, wlabel. rewrite W. cbn [pstep]. rewrite W. reflexivity. Qed.
Lemma go_check : forall k s, p_worker s = WCheck -> p_stop s = false -> go (S k) s = go k (Prefetch.set_worker sc s WFetch).
Proof. intros k s W S. rewrite go_S. unfold wnext, wlabel. rewrite W. cbn [pstep]. rewrite W, S. reflexivity. Qed.
Lemma settles_check : forall s, p_worker s = WCheck -> p_stop s = true -> settled (go 1 s).
Proof. intros s W S. rewrite go_S. unfold wnext, wlabel. rewrite W. cbn [pstep]. rewrite W, S. apply settles_dead. reflexivity. Qed.
Lemma settles_fetch1 : forall s, p_queue s = [] -> p_worker s = WFetch -> fst (sc_get sc (p_sched s)) <> GEpisodeEnd -> settled (go 2 s).
Proof.
  intros s Q W NE. rewrite go_fetch by exact W. unfold fetch. destruct (sc_get sc (p_sched s)) as [[b| | |] v].
  - eapply settles_put; [exact Q | reflexivity].
  - exfalso. apply NE. reflexivity.
  - apply settles_eos; [exact Q | reflexivity].
  - apply settled_go; [discriminate | apply settles_dead; reflexivity].
Qed.
Lemma settles_fetch : forall s : pst, p_queue s = [] -> p_worker s = WFetch -> P (p_sched s) -> settled (go 4 s).
Proof.
  intros s Q W HP. destruct (sc_get sc (p_sched s)) as [r v] eqn:G.
  assert (D : r = GEpisodeEnd \/ r <> GEpisodeEnd) by (destruct r; auto; right; discriminate). destruct D as [->|NE].
  2:{ apply (settles_more 2); [unfold tame; rewrite W; discriminate | lia|]. apply settles_fetch1; auto. rewrite G. exact NE. }
  rewrite go_fetch by exact W. unfold fetch. rewrite G. destruct (sc_len sc) eqn:EL.
  2:{ apply settled_go; [discriminate | apply settles_dead; reflexivity]. }
  destruct (sc_next sc v) as [u'|] eqn:NX.
  2:{ apply settled_go; [discriminate | apply settles_dead; reflexivity]. }
  assert (LN : len <> None) by (change (len = Some n) in EL; congruence).
  destruct Hsteady as (_ & _ & HS). pose proof (HS _ _ _ HP LN G NX) as NE.
  set (s1 := Prefetch.set_worker sc (Prefetch.set_sched sc s u') WCheck). destruct (p_stop s1) eqn:S.
  - apply (settles_more 1); [discriminate | lia|]. apply settles_check; [reflexivity | exact S].
  - rewrite go_check by (reflexivity || exact S). apply settles_fetch1; [exact Q | reflexivity | exact NE].
Qed.
Lemma settles : forall k (s : pst), tame s -> p_worker s <> WIdle -> P (p_sched s) -> 5 <= k -> settled (go k s).
Proof.
  intros k s T I HP K. apply (settles_more 5); [exact T | exact K|]. destruct (p_queue s) as [|i q] eqn:Q.
  2:{ apply settled_go; [exact T|]. left. rewrite Q. discriminate. }
  destruct (p_worker s) eqn:W.
  - exfalso. apply I. reflexivity.
  - destruct (p_stop s) eqn:S.
    + apply (settles_more 1); [exact T | lia|]. apply settles_check; assumption.
    + rewrite go_check by assumption. apply settles_fetch; auto.
  - apply (settles_more 4); [exact T | lia|]. apply settles_fetch; auto.
  - apply (settles_more 1); [exact T | lia|]. eapply settles_put; eauto.
  - apply (settles_more 1); [exact T | lia|]. eapply settles_eos; eauto.
  - exfalso. apply T. exact W.
  - apply (settles_more 1); [exact T | lia|]. rewrite go_S. unfold wnext, wlabel. rewrite W. cbn [pstep]. rewrite W. apply settles_dead. reflexivity.
  - apply settled_go; [exact T | apply settles_dead; rewrite W; reflexivity].
  - apply settled_go; [exact T | apply settles_dead; rewrite W; reflexivity].
Qed.

(** Two settled threads have something to offer, or neither has. *)
Lemma level_empty : forall s s', tame s -> tame s' -> level s s' -> settled s -> settled s' -> (p_queue s = [] <-> p_queue s' = []).
Proof.
  assert (H : forall s s' k, tame s -> go k s = s' -> settled s -> (p_queue s = [] <-> p_queue s' = [])).
  { intros s s' k T E [Q|W].
    - split; [contradiction|]. intros Q'. exfalso. destruct (p_queue s) as [|i q] eqn:EQ; [apply Q; reflexivity|].
      destruct (go_alter k s [i] q 0 CIdle T EQ) as (q1 & _ & Q1 & _). rewrite E, Q' in Q1. discriminate.
    - rewrite go_stuck in E by exact W. subst s'. tauto. }
  intros s s' T T' (k & [E|E]) S S'; [eapply H; eauto|]. symmetry. eapply H; eauto.
Qed.

(** ** The calls *)

Notation calm := (calm si len B N).
Notation tst := (tst si len B).
Notation start := (start sc).

Definition fine (u : tst) : Prop := calm u /\ tame (t_st u) /\ prompt (t_time u) /\ P (p_sched (t_st u)).
Definition alike (u u' : tst) : Prop := fine u /\ fine u' /\ level (t_st u) (t_st u').

Lemma start_tame : forall s, tame s -> tame (start s).
Proof. intros s T. unfold Prefetch.start. destruct (p_started s); [exact T | discriminate]. Qed.
Lemma start_P : forall s : pst, P (p_sched s) -> P (p_sched (start s)).
Proof. intros s H. unfold Prefetch.start. destruct (p_started s); exact H. Qed.
Lemma start_awake : forall s, started_iff sc s -> p_worker (start s) <> WIdle.
Proof.
  intros s [H1 H2] W. unfold Prefetch.start in W. destruct (p_started s) eqn:E; [|discriminate]. apply H2 in W. discriminate.
Qed.
Lemma start_level : forall s s', started_iff sc s -> started_iff sc s' -> level s s' -> level (start s) (start s').
Proof.
  intros s s' I I' H. destruct (level_same _ _ H) as (_ & _ & E). unfold Prefetch.start. rewrite E. destruct (p_started s) eqn:S; [exact H|].
  assert (s' = s) as ->; [|apply level_refl]. apply (level_idle s s' H); [apply I; exact S | apply I'; congruence].
Qed.
Lemma level_pc : forall s s' c, tame s -> tame s' -> level s s' -> level (Prefetch.set_pc sc s c) (Prefetch.set_pc sc s' c).
Proof.
  intros s s' c T T' H. destruct (level_same _ _ H) as (_ & E & _).
  assert (E1 : Prefetch.set_pc sc s c = alter s (p_queue s) (p_t s) c) by reflexivity.
  assert (E2 : Prefetch.set_pc sc s' c = alter s' (p_queue s') (p_t s) c) by (rewrite <- E; reflexivity).
  rewrite E1, E2. apply (level_alter s s' []); auto.
Qed.
Lemma level_t : forall s s' t, tame s -> tame s' -> level s s' -> level (Prefetch.set_t sc s t) (Prefetch.set_t sc s' t).
Proof.
  intros s s' t T T' H. destruct (level_same _ _ H) as (E & _ & _).
  assert (E1 : Prefetch.set_t sc s t = alter s (p_queue s) t (p_pc s)) by reflexivity.
  assert (E2 : Prefetch.set_t sc s' t = alter s' (p_queue s') t (p_pc s)) by (rewrite <- E; reflexivity).
  rewrite E1, E2. apply (level_alter s s' []); auto.
Qed.
Lemma go_awake : forall j x, p_worker x <> WIdle -> p_worker (go j x) <> WIdle.
Proof.
  induction j as [|j IH]; intros x HX; [exact HX|]. rewrite go_S. destruct (wnext x) as [y|] eqn:EX; [|exact HX]. apply IH.
  unfold wnext, wlabel in EX. destruct (p_worker x) eqn:WX; try discriminate.
  - cbn [pstep] in EX. rewrite WX in EX. injection EX as <-. cbn. destruct (p_stop x); discriminate.
  - cbn [pstep] in EX. rewrite WX in EX. injection EX as <-. unfold fetch. destruct (sc_get sc (p_sched x)) as [[b| | |] v]; try discriminate.
    destruct (sc_len sc); [|discriminate]. destruct (sc_next sc v); discriminate.
  - destruct (List.length (p_queue x) <? N) eqn:R; [|discriminate]. cbn [pstep] in EX. rewrite WX, R in EX. injection EX as <-. discriminate.
  - destruct (List.length (p_queue x) <? N) eqn:R; [|discriminate]. cbn [pstep] in EX. rewrite WX, R in EX. injection EX as <-. discriminate.
  - cbn [pstep] in EX. rewrite WX in EX. unfold force in EX. destruct (p_queue x); injection EX as <-; discriminate.
  - cbn [pstep] in EX. rewrite WX in EX. injection EX as <-. discriminate.
Qed.
Lemma go_started : forall k s, started_iff sc s -> started_iff sc (go k s).
Proof.
  intros k s H. destruct (go_same k s) as (_ & _ & E). unfold started_iff in *. rewrite E.
  destruct (p_started s) eqn:S.
  - split; [discriminate|]. intros W. exfalso. apply (go_awake k s); [|exact W]. intros WI. apply H in WI. discriminate.
  - destruct H as [H1 _]. pose proof (H1 eq_refl) as W. rewrite go_stuck; [|unfold wnext, wlabel; rewrite W; reflexivity]. tauto.
Qed.

Definition reply (i : item sc) : result (fdata (si_flow si) (si_img si)) :=
  match i with Data b => Ok b | EOS => Err StopIteration end.

(** [get_batch], with the background thread keeping up. *)
Inductive got (n : nat) (u : tst) : result (fdata (si_flow si) (si_img si)) -> tst -> Prop :=
| got_size : forall k, n <> B -> got n u (Err ValueError) (mkTst (go k (t_st u)) (later (t_time u) 1))
| got_end : forall k L, n = B -> len = Some L -> L <= p_t (t_st u) ->
    got n u (Err EpisodeEnd) (mkTst (start (go k (t_st u))) (later (t_time u) 1))
| got_none : forall k k2, n = B -> (forall L, len = Some L -> p_t (t_st u) < L) -> 5 <= k2 ->
    let s2 := go k2 (Prefetch.set_pc sc (start (go k (t_st u))) CGet) in p_queue s2 = [] ->
    got n u (Err StopIteration) (mkTst (Prefetch.set_pc sc s2 CIdle) (later (t_time u) 1))
| got_one : forall k k2 i q, n = B -> (forall L, len = Some L -> p_t (t_st u) < L) -> 5 <= k2 ->
    let s2 := go k2 (Prefetch.set_pc sc (start (go k (t_st u))) CGet) in p_queue s2 = i :: q ->
    got n u (reply i) (mkTst (alter s2 q (S (p_t s2)) CIdle) (later (t_time u) 1)).

Lemma pf_get_got : forall n u r v, fine u -> pf_get si len B N n u = (r, v) -> got n u r v.
Proof.
  intros n u r v ((HB & HI) & T & PR & HP) H. unfold pf_get in H. destruct (PR 0) as (K5 & F1 & F2).
  unfold wait in H. rewrite F1, F2 in H. set (k := fst (fst (t_time u 0))) in *. set (k2 := fst (snd (t_time u 0))) in *.
  destruct (go_same k (t_st u)) as (S1 & S2 & S3).
  destruct (pstep sc B N (go k (t_st u)) (LCallGet n)) as [[e1 s1]|] eqn:E1.
  2:{ exfalso. cbn in E1. rewrite S1, HI in E1. discriminate. }
  destruct (call_get_cases si len B N _ _ _ _ E1) as [_ [(NE & -> & ->) | [(-> & (L & EL & TL) & -> & ->) | (-> & TL & -> & ->)]]].
  - injection H as <- <-. apply got_size. exact NE.
  - injection H as <- <-. eapply got_end; [reflexivity | exact EL | lia].
  - set (s2 := go k2 (Prefetch.set_pc sc (start (go k (t_st u))) CGet)) in *.
    assert (PC : p_pc s2 = CGet) by (unfold s2; destruct (go_same k2 (Prefetch.set_pc sc (start (go k (t_st u))) CGet)) as (A & _); rewrite A; reflexivity).
    assert (TL' : forall L, len = Some L -> p_t (t_st u) < L) by (intros L EL; specialize (TL L EL); lia).
    cbn [pstep] in H. rewrite PC in H. destruct (p_queue s2) as [|i q] eqn:Q.
    + injection H as <- <-. apply (got_none B u k k2 eq_refl TL' K5 Q).
    + pose proof (got_one B u k k2 i q eq_refl TL' K5 Q) as G. destruct i; injection H as <- <-; exact G.
Qed.

Lemma fine_get : forall n u r v, fine u -> pf_get si len B N n u = (r, v) -> fine v.
Proof.
  intros n u r v F H. pose proof F as (C & T & PR & HP). pose proof C as (HB & _). split; [eapply calm_get; eauto|].
  assert (G : forall k, tame (go k (t_st u)) /\ P (p_sched (go k (t_st u)))) by (intros k; split; [apply go_tame, T | apply go_P, HP]).
  assert (G2 : forall k k2, let s2 := go k2 (Prefetch.set_pc sc (start (go k (t_st u))) CGet) in tame s2 /\ P (p_sched s2)).
  { intros k k2 s2. split; [apply go_tame, start_tame, go_tame, T | apply go_P, start_P, go_P, HP]. }
  destruct (pf_get_got n u r v F H) as [k NE | k L EN EL TL | k k2 EN TL K5 s2 Q | k k2 i q EN TL K5 s2 Q]; cbn [t_st t_time].
  - split; [apply G|]. split; [apply prompt_later, PR | apply G].
  - split; [apply start_tame, G|]. split; [apply prompt_later, PR | apply start_P, G].
  - split; [apply (G2 k k2)|]. split; [apply prompt_later, PR | apply (G2 k k2)].
  - split; [apply (G2 k k2)|]. split; [apply prompt_later, PR | apply (G2 k k2)].
Qed.

Lemma alike_get : forall n u u' r v r' v', alike u u' -> pf_get si len B N n u = (r, v) -> pf_get si len B N n u' = (r', v') ->
  r' = r /\ alike v v'.
Proof.
  intros n u u' r v r' v' (F & F' & LV) H H'.
  pose proof (fine_get _ _ _ _ F H) as FV. pose proof (fine_get _ _ _ _ F' H') as FV'.
  pose proof F as ((HB & _) & T & _ & HP). pose proof F' as ((HB' & _) & T' & _ & HP').
  destruct (level_same _ _ LV) as (EP & ET & ES).
  assert (TT : forall k k2 (x : pst), tame x -> tame (go k2 (Prefetch.set_pc sc (start (go k x)) CGet))).
  { intros k k2 x X. apply go_tame, start_tame, go_tame, X. }
  assert (LL : forall k k', level (start (go k (t_st u))) (start (go k' (t_st u')))).
  { intros k k'. apply start_level; [apply go_started, HB | apply go_started, HB' | apply level_go, LV]. }
  assert (L2 : forall k k2 k' k2', 5 <= k2 -> 5 <= k2' -> let s2 := go k2 (Prefetch.set_pc sc (start (go k (t_st u))) CGet) in
    let s2' := go k2' (Prefetch.set_pc sc (start (go k' (t_st u'))) CGet) in level s2 s2' /\ settled s2 /\ settled s2').
  { intros k k2 k' k2' K K' s2 s2'. split; [|split].
    - apply level_go, level_pc; [apply start_tame, go_tame, T | apply start_tame, go_tame, T' | apply LL].
    - apply settles; [apply start_tame, go_tame, T | apply start_awake, go_started, HB | apply start_P, go_P, HP | exact K].
    - apply settles; [apply start_tame, go_tame, T' | apply start_awake, go_started, HB' | apply start_P, go_P, HP' | exact K']. }
  destruct (pf_get_got n u r v F H) as [k NE | k L EN EL TL | k k2 EN TL K5 s2 Q | k k2 i q EN TL K5 s2 Q];
  destruct (pf_get_got n u' r' v' F' H') as [k' NE' | k' L' EN' EL' TL' | k' k2' EN' TL' K5' s2' Q' | k' k2' i' q' EN' TL' K5' s2' Q'];
  try congruence;
  try (exfalso; match goal with E : len = Some ?l, F : forall L, len = Some L -> _ |- _ => specialize (F l E) end; lia).
  - split; [reflexivity|]. split; [exact FV|]. split; [exact FV'|]. apply level_go, LV.
  - split; [reflexivity|]. split; [exact FV|]. split; [exact FV'|]. apply LL.
  - split; [reflexivity|]. split; [exact FV|]. split; [exact FV'|]. apply level_pc; [apply TT, T | apply TT, T' |]. apply (L2 k k2 k' k2' K5 K5').
  - exfalso. destruct (L2 k k2 k' k2' K5 K5') as (A & A1 & A2). fold s2 s2' in A, A1, A2.
    pose proof (proj1 (level_empty s2 s2' (TT _ _ _ T) (TT _ _ _ T') A A1 A2) Q). congruence.
  - exfalso. destruct (L2 k k2 k' k2' K5 K5') as (A & A1 & A2). fold s2 s2' in A, A1, A2.
    pose proof (proj2 (level_empty s2 s2' (TT _ _ _ T) (TT _ _ _ T') A A1 A2) Q'). congruence.
  - destruct (L2 k k2 k' k2' K5 K5') as (A & A1 & A2). fold s2 s2' in A, A1, A2.
    pose proof (level_head s2 s2' i q i' q' (TT _ _ _ T) (TT _ _ _ T') A Q Q') as ->.
    split; [reflexivity|]. split; [exact FV|]. split; [exact FV'|]. cbn [t_st]. destruct (level_same _ _ A) as (_ & -> & _).
    apply (level_alter s2 s2' [i]); auto; [apply TT, T | apply TT, T'].
Qed.

(** [next_episode]. *)
Lemma alike_discard : forall k s s' tm tm', level s s' -> tame s -> tame s' -> P (p_sched s) -> P (p_sched s') ->
  p_worker s <> WIdle -> p_worker s' <> WIdle -> prompt tm -> prompt tm' ->
  let v := pf_discard si len B N k s tm in let v' := pf_discard si len B N k s' tm' in
  level (t_st v) (t_st v') /\ tame (t_st v) /\ tame (t_st v') /\ P (p_sched (t_st v)) /\ P (p_sched (t_st v')) /\
  prompt (t_time v) /\ prompt (t_time v').
Proof.
  induction k as [|k IH]; intros s s' tm tm' LV T T' HP HP' W W' PR PR'; cbn [pf_discard]; [cbn; auto 8|].
  destruct (level_same _ _ LV) as (EP & ET & _). rewrite EP. destruct (p_pc s) as [| | | | | | |n] eqn:PC; try (cbn; auto 8; fail).
  destruct (PR 0) as (K & _ & F). destruct (PR' 0) as (K' & _ & F'). unfold wait. rewrite F, F'.
  set (s0 := go (fst (snd (tm 0))) s). set (s0' := go (fst (snd (tm' 0))) s').
  assert (L0 : level s0 s0') by (apply level_go, LV).
  assert (T0 : tame s0) by (apply go_tame, T). assert (T0' : tame s0') by (apply go_tame, T').
  assert (P0 : P (p_sched s0)) by (apply go_P, HP). assert (P0' : P (p_sched s0')) by (apply go_P, HP').
  assert (S0 : settled s0) by (apply settles; assumption). assert (S0' : settled s0') by (apply settles; assumption).
  assert (C0 : p_pc s0 = CDiscard n) by (unfold s0; destruct (go_same (fst (snd (tm 0))) s) as (A & _); congruence).
  assert (C0' : p_pc s0' = CDiscard n) by (destruct (level_same _ _ L0) as (A & _); congruence).
  pose proof (prompt_later tm 1 PR) as PL. pose proof (prompt_later tm' 1 PR') as PL'.
  assert (W0 : p_worker s0 <> WIdle) by (apply go_awake, W). assert (W0' : p_worker s0' <> WIdle) by (apply go_awake, W').
  cbn [pstep]. rewrite C0, C0'. pose proof (level_empty s0 s0' T0 T0' L0 S0 S0') as EM.
  destruct (p_queue s0) as [|i q] eqn:Q; destruct (p_queue s0') as [|i' q'] eqn:Q'.
  - cbn [t_st t_time]. split; [|auto 8]. apply level_pc; auto. apply level_t; auto.
  - exfalso. destruct EM as [EM _]. discriminate (EM eq_refl).
  - exfalso. destruct EM as [_ EM]. discriminate (EM eq_refl).
  - pose proof (level_head s0 s0' i q i' q' T0 T0' L0 Q Q') as ->. unfold discard.
    assert (LA : forall t c, level (alter s0 q t c) (alter s0' q' t c)) by (intros t c; apply (level_alter s0 s0' [i]); auto).
    assert (ST : forall j (x : tst) y z, p_pc y = CIdle -> pf_discard si len B N j y z = mkTst y z).
    { intros j x y z Py. destruct j; [reflexivity|]. cbn [pf_discard]. rewrite Py. reflexivity. }
    destruct i as [b|].
    + destruct (n <=? 1).
      * rewrite !ST by (reflexivity || exact (mkTst s tm)). cbn [t_st t_time]. split; [apply LA | auto 8].
      * apply IH; auto. destruct (level_same _ _ L0) as (_ & E0 & _).
        assert (E2 : Prefetch.set_pc sc (Prefetch.set_queue sc s0' q') (CDiscard (n - 1)) = alter s0' q' (p_t s0) (CDiscard (n - 1))) by (rewrite <- E0; reflexivity).
        rewrite E2. apply LA.
    + rewrite !ST by (reflexivity || exact (mkTst s tm)). cbn [t_st t_time]. split; [apply LA | auto 8].
Qed.

Lemma alike_next : forall u u' r v r' v', alike u u' -> pf_next si len B N u = (r, v) -> pf_next si len B N u' = (r', v') ->
  r' = r /\ alike v v'.
Proof.
  intros u u' r v r' v' (F & F' & LV) H H'. pose proof F as (CA & T & PR & HP). pose proof F' as (CA' & T' & PR' & HP').
  destruct (calm_next si len B N Npos _ _ _ CA H) as (-> & CV). destruct (calm_next si len B N Npos _ _ _ CA' H') as (-> & CV').
  split; [reflexivity|]. destruct CA as (HB & HI). destruct CA' as (HB' & HI').
  enough (E : level (t_st v) (t_st v') /\ tame (t_st v) /\ tame (t_st v') /\ P (p_sched (t_st v)) /\ P (p_sched (t_st v')) /\ prompt (t_time v) /\ prompt (t_time v')).
  { destruct E as (E1 & E2 & E3 & E4 & E5 & E6 & E7). split; [|split]; [split; auto | split; auto | exact E1]. }
  unfold pf_next in H, H'. destruct (PR 0) as (_ & F1 & _). destruct (PR' 0) as (_ & F1' & _). unfold wait in H, H'. rewrite F1 in H. rewrite F1' in H'.
  set (s0 := go (fst (fst (t_time u 0))) (t_st u)) in *. set (s0' := go (fst (fst (t_time u' 0))) (t_st u')) in *.
  assert (L0 : level s0 s0') by (apply level_go, LV).
  assert (T0 : tame s0) by (apply go_tame, T). assert (T0' : tame s0') by (apply go_tame, T').
  assert (P0 : P (p_sched s0)) by (apply go_P, HP). assert (P0' : P (p_sched s0')) by (apply go_P, HP').
  assert (I0 : started_iff sc s0) by (apply go_started, HB). assert (I0' : started_iff sc s0') by (apply go_started, HB').
  assert (C0 : p_pc s0 = CIdle) by (unfold s0; destruct (go_same (fst (fst (t_time u 0))) (t_st u)) as (A & _); congruence).
  destruct (level_same _ _ L0) as (EP & ET & ES).
  pose proof (prompt_later _ 1 PR) as PL. pose proof (prompt_later _ 1 PR') as PL'.
  cbn [pstep] in H, H'. rewrite EP, C0 in H'. rewrite C0 in H. unfold call_next in H, H'. rewrite ES, ET in H'. destruct (sc_len sc) as [L|].
  - destruct (p_started s0 && (p_t s0 <? L)) eqn:C.
    + injection H as <-. injection H' as <-. apply alike_discard; auto.
      * apply level_pc; auto.
      * apply andb_prop in C. destruct C as (C & _). cbn. intros W. apply I0 in W. congruence.
      * apply andb_prop in C. destruct C as (C & _). cbn. intros W. apply I0' in W. congruence.
    + injection H as <-. injection H' as <-. apply alike_discard; auto.
      * apply level_t; [apply start_tame, T0 | apply start_tame, T0' | apply start_level; assumption].
      * apply start_tame, T0.
      * apply start_tame, T0'.
      * apply start_P, P0.
      * apply start_P, P0'.
      * apply start_awake, I0.
      * apply start_awake, I0'.
  - injection H as <-. injection H' as <-.
    assert (ST : forall j (y : pst) z, p_pc y = CIdle -> pf_discard si len B N j y z = mkTst y z).
    { intros j y z Py. destruct j; [reflexivity|]. cbn [pf_discard]. rewrite Py. reflexivity. }
    rewrite !ST by congruence. cbn [t_st t_time]. auto 8.
Qed.

(** [reset], for a wrapped scheduler that always starts over from the same
    point. *)
Lemma reset_ends : forall u, fine u -> exists v, P v /\ t_st (pf_reset si len B N u) = pinit sc (si_reset si v) /\ prompt (t_time (pf_reset si len B N u)).
Proof.
  intros u ((HB & HI) & T & PR & HP). unfold pf_reset. destruct (PR 0) as (_ & F1 & F2). destruct (PR 1) as (_ & _ & F3).
  unfold wait. rewrite F1, F2, F3. set (s0 := go (fst (fst (t_time u 0))) (t_st u)).
  assert (C0 : p_pc s0 = CIdle) by (unfold s0; destruct (go_same (fst (fst (t_time u 0))) (t_st u)) as (A & _); congruence).
  assert (E1 : pstep sc B N s0 LCallReset = Some ([], Prefetch.set_pc sc (Prefetch.set_stop sc s0) CReset1)) by (cbn; rewrite C0; reflexivity).
  rewrite E1. set (s1 := Prefetch.set_pc sc (Prefetch.set_stop sc s0) CReset1).
  set (s2 := go (fst (snd (t_time u 0))) s1).
  assert (C2 : p_pc s2 = CReset1) by (unfold s2; destruct (go_same (fst (snd (t_time u 0))) s1) as (A & _); rewrite A; reflexivity).
  assert (E2 : pstep sc B N s2 LResetPoll = Some (fst (poll sc s2), Prefetch.set_pc sc (snd (poll sc s2)) CReset2)).
  { cbn. rewrite C2. destruct (poll sc s2); reflexivity. }
  rewrite E2. set (s3 := Prefetch.set_pc sc (snd (poll sc s2)) CReset2). set (s4 := go 4 s3).
  assert (C4 : p_pc s4 = CReset2) by (unfold s4; destruct (go_same 4 s3) as (A & _); rewrite A; reflexivity).
  assert (P4 : P (p_sched s4)).
  { apply go_P. unfold s3. assert (E : p_sched (Prefetch.set_pc sc (snd (poll sc s2)) CReset2) = p_sched s2) by (unfold poll; destruct (p_queue s2); reflexivity).
    rewrite E. apply go_P. exact (go_P _ _ HP). }
  assert (A : alive (p_worker s4) = false).
  { assert (X : exists ls0 es0, exec sc B N (t_st u) ls0 es0 s2 /\ p_stop s2 = true).
    { destruct (wrun_exec si len B N (fst (fst (t_time u 0))) false (t_st u)) as (ls0 & es0 & X0 & _). fold s0 in X0.
      destruct (wrun_exec si len B N (fst (snd (t_time u 0))) false s1) as (ls1 & es1 & X1 & _ & _ & _ & _ & _ & S1). fold s2 in X1, S1.
      exists ((ls0 ++ [LCallReset]) ++ ls1), ((es0 ++ []) ++ es1). split; [|apply S1; reflexivity].
      eapply exec_app; [|exact X1]. eapply exec_app; [exact X0 | apply exec_one, E1]. }
    destruct X as (ls0 & es0 & X & S2). pose proof (b_queue _ _ _ (basic_exec sc B N Npos _ _ _ _ HB X)) as Q2.
    apply drained.
    - unfold s3, poll. destruct (p_queue s2); exact S2.
    - unfold s3, poll. destruct (p_queue s2) eqn:Q; cbn; [rewrite Q; cbn; lia | cbn in Q2; lia]. }
  assert (E4 : pstep sc B N s4 LResetJoin = Some ([EvReset], pinit sc (sc_reset sc (p_sched s4)))) by (unfold pstep; rewrite C4, A; reflexivity).
  rewrite E4. exists (p_sched s4). split; [exact P4|]. split; [reflexivity|]. apply (prompt_later _ 2 PR).
Qed.

Lemma alike_reset : forall u u', (forall v v', P v -> P v' -> si_reset si v = si_reset si v') -> (forall v, P v -> P (si_reset si v)) ->
  alike u u' -> alike (pf_reset si len B N u) (pf_reset si len B N u').
Proof.
  intros u u' R RP (F & F' & LV). destruct (reset_ends u F) as (v & PV & E & PR). destruct (reset_ends u' F') as (v' & PV' & E' & PR').
  destruct F as (CA & _). destruct F' as (CA' & _). split; [|split].
  - split; [apply calm_reset; auto|]. rewrite E. split; [discriminate|]. split; [exact PR | exact (RP v PV)].
  - split; [apply calm_reset; auto|]. rewrite E'. split; [discriminate|]. split; [exact PR' | exact (RP v' PV')].
  - rewrite E, E', (R v' v PV' PV). apply level_refl.
Qed.

Lemma alike_steps : forall u u', alike u u' -> psteps_remaining (t_st u') = psteps_remaining (t_st u).
Proof. intros u u' (_ & _ & LV). destruct (level_same _ _ LV) as (_ & E & _). unfold psteps_remaining. rewrite E. reflexivity. Qed.

Lemma alike_init : forall u tm tm', P u -> prompt tm -> prompt tm' -> alike (mkTst (pinit sc u) tm) (mkTst (pinit sc u) tm').
Proof.
  intros u tm tm' HP PR PR'. split; [|split; [|apply level_refl]].
  - split; [apply calm_init; exact Npos|]. split; [discriminate|]. split; [exact PR | exact HP].
  - split; [apply calm_init; exact Npos|]. split; [discriminate|]. split; [exact PR' | exact HP].
Qed.
End Ways.

(** * Samplers over schedulers that cannot be told apart *)

Section Told.
Variable si : sif.
(** [true]: [reset(scheduler_reset=True)] may be called. *)
Variable resets : bool.
Variable R : si_state si -> si_state si -> Prop.
Record bisim : Prop := mkBisim {
  bi_get : forall n u u' r v r' v', R u u' -> si_get si n u = (r, v) -> si_get si n u' = (r', v') -> r' = r /\ R v v';
  bi_next : forall u u' r v r' v', R u u' -> si_next si u = (r, v) -> si_next si u' = (r', v') -> r' = r /\ R v v';
  bi_steps : forall u u', R u u' -> si_steps si u' = si_steps si u;
  bi_reset : resets = true -> forall u u', R u u' -> R (si_reset si u) (si_reset si u')
}.
Hypothesis BI : bisim.

Definition allowed (o : sop) : Prop := o = SReset true -> resets = true.

Section Synthetic.
Context {oflow bflow img : Type}.
Variable c : scfg si oflow bflow img.

Definition pals (s s' : sst si oflow bflow) : Prop :=
  R (y_sched s) (y_sched s') /\ y_rng s' = y_rng s /\ y_cur s' = y_cur s /\ y_gen s' = y_gen s /\ y_mask s' = y_mask s /\ y_files s' = y_files s.

Lemma pals_fetch : forall s s' r v r' v', pals s s' -> syn_fetch c s = (r, v) -> syn_fetch c s' = (r', v') -> r' = r /\ pals v v'.
Proof.
  intros s s' r v r' v' (H & E1 & E2 & E3 & E4 & E5) F F'. unfold syn_fetch in F, F'. rewrite E1, E2, E3, E4, E5 in F'.
  destruct (match y_cur s with CurNone => true | _ => sc_bpf c <=? y_gen s end).
  - destruct (si_get si (sc_F c) (y_sched s)) as [g w] eqn:G. destruct (si_get si (sc_F c) (y_sched s')) as [g' w'] eqn:G'.
    destruct (bi_get BI _ _ _ _ _ _ _ H G G') as (-> & K). destruct g as [d|e].
    + destruct (shard (sc_nd c) (fd_flows d)); injection F as <- <-; injection F' as <- <-; (split; [reflexivity|]); repeat split; auto.
    + injection F as <- <-; injection F' as <- <-. split; [reflexivity|]. repeat split; auto.
  - injection F as <- <-; injection F' as <- <-. split; [reflexivity|]. repeat split; auto.
Qed.
Lemma pals_generate : forall s s' r v r' v', pals s s' -> syn_generate c s = (r, v) -> syn_generate c s' = (r', v') -> r' = r /\ pals v v'.
Proof.
  intros s s' r v r' v' (H & E1 & E2 & E3 & E4 & E5) F F'. unfold syn_generate in F, F'. rewrite E1, E2, E3, E4, E5 in F'.
  destruct (y_cur s) as [| |outs bounds].
  - injection F as <- <-; injection F' as <- <-. split; [reflexivity|]. repeat split; auto.
  - injection F as <- <-; injection F' as <- <-. split; [reflexivity|]. repeat split; auto.
  - destruct bounds as [|b bounds]; [|destruct (shard (sc_nd c) (b :: bounds))];
    injection F as <- <-; injection F' as <- <-; (split; [reflexivity|]); repeat split; auto.
Qed.
Lemma pals_next : forall s s' r v r' v', pals s s' -> syn_next c s = (r, v) -> syn_next c s' = (r', v') -> r' = r /\ pals v v'.
Proof.
  intros s s' r v r' v' H F F'. unfold syn_next, sampler_next in F, F'. rewrite (bi_steps BI _ _ (proj1 H)) in F'.
  destruct (si_protocol si && (si_steps si (y_sched s) =? 0)%Z).
  { injection F as <- <-; injection F' as <- <-. auto. }
  unfold syn_get_next in F, F'. destruct (syn_fetch c s) as [g w] eqn:G. destruct (syn_fetch c s') as [g' w'] eqn:G'.
  destruct (pals_fetch _ _ _ _ _ _ H G G') as (-> & K). destruct g as [[]|e].
  - destruct (syn_generate c w) as [h x] eqn:X. destruct (syn_generate c w') as [h' x'] eqn:X'.
    destruct (pals_generate _ _ _ _ _ _ K X X') as (-> & K2). destruct h as [b|e].
    + rewrite (bi_steps BI _ _ (proj1 K2)) in F'. injection F as <- <-; injection F' as <- <-. auto.
    + injection F as <- <-; injection F' as <- <-. auto.
  - injection F as <- <-; injection F' as <- <-. auto.
Qed.
Lemma pals_op : forall o s s' r v r' v', allowed o -> pals s s' -> do_sop c o s = (r, v) -> do_sop c o s' = (r', v') -> r' = r /\ pals v v'.
Proof.
  intros o s s' r v r' v' A H F F'. destruct o; cbn [do_sop] in F, F'.
  - destruct (syn_next c s) as [h x] eqn:X. destruct (syn_next c s') as [h' x'] eqn:X'. destruct (pals_next _ _ _ _ _ _ H X X') as (-> & K).
    destruct h; injection F as <- <-; injection F' as <- <-; auto.
  - injection F as <- <-; injection F' as <- <-. split; [reflexivity|]. destruct H as (H & E1 & E2 & E3 & E4 & E5).
    destruct scheduler_reset; unfold syn_reset, syn_clear, Sampler.set_sched; repeat split; cbn; auto. apply (bi_reset BI); auto.
  - unfold syn_next_episode in F, F'. destruct (si_protocol si).
    + destruct (si_next si (y_sched s)) as [h x] eqn:X. destruct (si_next si (y_sched s')) as [h' x'] eqn:X'.
      destruct (bi_next BI _ _ _ _ _ _ (proj1 H) X X') as (-> & K). destruct H as (_ & E1 & E2 & E3 & E4 & E5).
      destruct h; injection F as <- <-; injection F' as <- <-; (split; [reflexivity|]); repeat split; cbn; auto.
    + injection F as <- <-; injection F' as <- <-. auto.
Qed.
Lemma pals_run : forall ops s s', Forall allowed ops -> pals s s' -> fst (srun c ops s') = fst (srun c ops s).
Proof.
  induction ops as [|o ops IH]; intros s s' A H; [reflexivity|]. inversion A as [|? ? A1 A2]; subst. cbn [srun].
  destruct (do_sop c o s) as [r v] eqn:E. destruct (do_sop c o s') as [r' v'] eqn:E'. destruct (pals_op _ _ _ _ _ _ _ A1 H E E') as (-> & K).
  specialize (IH _ _ A2 K). destruct (srun c ops v), (srun c ops v'). cbn [fst] in *. congruence.
Qed.
Lemma pals_init : forall u u', R u u' -> pals (syn_init c u) (syn_init c u').
Proof. intros u u' H. repeat split. exact H. Qed.
End Synthetic.

Lemma real_next_same : forall B u u' r v r' v', R u u' -> real_next si B u = (r, v) -> real_next si B u' = (r', v') -> r' = r /\ R v v'.
Proof.
  intros B u u' r v r' v' H F F'. unfold real_next, sampler_next in F, F'. rewrite (bi_steps BI _ _ H) in F'.
  destruct (si_protocol si && (si_steps si u =? 0)%Z).
  { injection F as <- <-; injection F' as <- <-. auto. }
  unfold real_get_next in F, F'. destruct (si_get si B u) as [g w] eqn:G. destruct (si_get si B u') as [g' w'] eqn:G'.
  destruct (bi_get BI _ _ _ _ _ _ _ H G G') as (-> & K). destruct g as [d|e].
  - destruct (fd_images1 d) as [a|]; [destruct (fd_images2 d) as [b|]|];
    rewrite ?(bi_steps BI _ _ K) in F'; injection F as <- <-; injection F' as <- <-; auto.
  - injection F as <- <-; injection F' as <- <-. auto.
Qed.
Lemma real_op_same : forall B o u u' r v r' v', allowed o -> R u u' -> do_rop si B o u = (r, v) -> do_rop si B o u' = (r', v') -> r' = r /\ R v v'.
Proof.
  intros B o u u' r v r' v' A H F F'. destruct o; cbn [do_rop] in F, F'.
  - destruct (real_next si B u) as [h x] eqn:X. destruct (real_next si B u') as [h' x'] eqn:X'. destruct (real_next_same _ _ _ _ _ _ _ H X X') as (-> & K).
    destruct h; injection F as <- <-; injection F' as <- <-; auto.
  - injection F as <- <-; injection F' as <- <-. split; [reflexivity|]. unfold real_reset. destruct scheduler_reset; auto. apply (bi_reset BI); auto.
  - unfold real_next_episode in F, F'. destruct (si_protocol si).
    + destruct (si_next si u) as [h x] eqn:X. destruct (si_next si u') as [h' x'] eqn:X'.
      destruct (bi_next BI _ _ _ _ _ _ H X X') as (-> & K). destruct h; injection F as <- <-; injection F' as <- <-; auto.
    + injection F as <- <-; injection F' as <- <-. auto.
Qed.
Lemma real_run_same : forall B ops u u', Forall allowed ops -> R u u' -> fst (rrun si B ops u') = fst (rrun si B ops u).
Proof.
  induction ops as [|o ops IH]; intros u u' A H; [reflexivity|]. inversion A as [|? ? A1 A2]; subst. cbn [rrun].
  destruct (do_rop si B o u) as [r v] eqn:E. destruct (do_rop si B o u') as [r' v'] eqn:E'. destruct (real_op_same _ _ _ _ _ _ _ _ A1 H E E') as (-> & K).
  specialize (IH _ _ A2 K). destruct (rrun si B ops v), (rrun si B ops v'). cbn [fst] in *. congruence.
Qed.
End Told.

(** A scheduler is like itself. *)
Lemma bisim_eq : forall si, bisim si true eq.
Proof.
  intros si. constructor.
  - intros n u u' r v r' v' <- E E'. rewrite E in E'. injection E' as <- <-. auto.
  - intros u u' r v r' v' <- E E'. rewrite E in E'. injection E' as <- <-. auto.
  - intros u u' <-. reflexivity.
  - intros _ u u' <-. reflexivity.
Qed.

Lemma bisim_prefetch : forall si len B N P resets, 1 <= N -> steady si len B P ->
  (resets = true -> (forall v v', P v -> P v' -> si_reset si v = si_reset si v') /\ (forall v, P v -> P (si_reset si v))) ->
  bisim (prefetch_sif si len B N) resets (alike si len B N P).
Proof.
  intros si len B N P resets Npos ST RS. constructor.
  - intros n u u' r v r' v' H E E'. exact (alike_get si len B N Npos P ST n u u' r v r' v' H E E').
  - intros u u' r v r' v' H E E'. exact (alike_next si len B N Npos P ST u u' r v r' v' H E E').
  - intros u u' H. exact (alike_steps si len B N P u u' H).
  - intros Q u u' H. destruct (RS Q) as (R1 & R2). exact (alike_reset si len B N Npos P ST u u' R1 R2 H).
Qed.
