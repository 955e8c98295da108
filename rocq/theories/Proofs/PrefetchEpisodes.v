(** Episodes under prefetching: step counting and alignment. *)
From Coq Require Import List Arith Bool ZArith Lia.
Import ListNotations.
From Verif Require Import Model.Prefetch Spec.PrefetchSpec Proofs.PrefetchProofs Proofs.PrefetchMore.
Local Open Scope nat_scope.

Lemma app_split : forall A (a b c d : list A) x, a ++ b = c ++ x :: d ->
  (exists r, a = c ++ x :: r /\ d = r ++ b) \/ (exists r, b = r ++ x :: d /\ c = a ++ r).
Proof.
  induction a as [|y a IH]; intros b c d x H; cbn in H.
  - right. exists c. auto.
  - destruct c as [|z c]; cbn in H; injection H as -> H.
    + left. exists a. cbn. auto.
    + destruct (IH _ _ _ _ H) as [(r & -> & ->)|(r & -> & ->)].
      * left. exists r. auto.
      * right. exists r. auto.
Qed.

Lemma nth_error_snoc : forall A (l : list A) x k y,
  nth_error (l ++ [x]) k = Some y -> nth_error l k = Some y \/ k = List.length l /\ y = x.
Proof.
  intros A l x k y H. destruct (Nat.lt_ge_cases k (List.length l)) as [K|K].
  - rewrite nth_error_app1 in H by lia. auto.
  - rewrite nth_error_app2 in H by lia. destruct (k - List.length l) eqn:E; cbn in H.
    + injection H as ->. right. split; [lia|reflexivity].
    + destruct n; discriminate.
Qed.

Section Producer.
Variable sc : sched.
Variable L : nat.
Variable ep : nat -> nat -> sc_batch sc.
Hypothesis len : sc_len sc = Some L.
Variable at_ : sc_state sc -> nat -> nat -> Prop.
Hypothesis at_get : forall v e t, at_ v e t -> t < L ->
  exists w, sc_get sc v = (GBatch (ep e t), w) /\ at_ w e (S t).
Hypothesis at_end : forall v e, at_ v e L ->
  exists w x, sc_get sc v = (GEpisodeEnd, w) /\ sc_next sc w = Some x /\ at_ x (S e) 0.

(** Everything produced so far, and where the scheduler stands. *)
Lemma calls_episodes : forall u, at_ u 0 0 -> forall n,
  exists e t, t <= L /\ at_ (snd (calls n u)) e t /\
    List.length (fst (calls n u)) = e * L + t /\
    (forall k b, nth_error (fst (calls n u)) k = Some b -> b = ep (k / L) (k mod L)).
Proof.
  intros u H0. induction n as [|n IH].
  - exists 0, 0. cbn. repeat split; auto with arith. intros [|k] b; discriminate.
  - destruct IH as (e & t & T & A & LE & V). cbn. destruct (calls n u) as [l v]. cbn in *.
    destruct (Nat.eq_dec t L) as [->|NE].
    + destruct (at_end _ _ A) as (w & x & G & X & A'). rewrite G, len, X. cbn.
      exists (S e), 0. repeat split; auto; lia.
    + destruct (at_get _ _ _ A) as (w & G & A'); [lia|]. rewrite G. cbn.
      exists e, (S t). rewrite app_length. cbn. repeat split; auto; try lia.
      intros k b K. apply nth_error_snoc in K as [K|[-> ->]]; [auto|].
      rewrite LE. rewrite Nat.div_add_l, Nat.div_small, Nat.add_0_r by lia.
      rewrite Nat.add_comm, Nat.mod_add, Nat.mod_small by lia. reflexivity.
Qed.

End Producer.

Section P.
Variable sc : sched.
Variables B N : nat.
Notation step := (pstep sc B N).
Notation exec := (exec sc B N).
Notation st := (pst sc).
Hypothesis Npos : 1 <= N.

(** *** Step counting *)

Lemma taken_app : forall a b, @taken_in_episode sc (a ++ b) = fold_left (taken_step sc) b (taken_in_episode a).
Proof. intros. apply fold_left_app. Qed.

Lemma t_taken : forall u ls es s L, sc_len sc = Some L -> exec (pinit sc u) ls es s ->
  p_t s = taken_in_episode es.
Proof.
  intros u ls es s L EL H. pattern ls, es, s. revert ls es s H.
  apply (exec_ind_inv sc B N).
  - reflexivity.
  - intros ls es s l e s' _ IH H. rewrite taken_app, <- IH.
    destruct H; cbn; rewrite ?start_t; auto; try congruence. destruct i; reflexivity.
Qed.

Lemma steps_range : forall u ls es s L, sc_len sc = Some L -> exec (pinit sc u) ls es s ->
  taken_in_episode es <= L /\
  psteps_remaining s = (Z.of_nat L - Z.of_nat (taken_in_episode es))%Z.
Proof.
  intros u ls es s L EL H. rewrite <- (t_taken u ls es s L EL H). split.
  - eapply b_t; eauto. eapply basic_exec; [| apply basic_init |]; eauto.
  - unfold psteps_remaining. rewrite EL. reflexivity.
Qed.

Lemma end_iff : forall u ls es s L e s', sc_len sc = Some L -> exec (pinit sc u) ls es s ->
  step s (LCallGet B) = Some (e, s') ->
  (In EvEpisodeEnd e <-> psteps_remaining s = 0%Z).
Proof.
  intros u ls es s L e s' EL H ST.
  destruct (steps_range u ls es s L EL H) as [R E]. rewrite E.
  rewrite <- (t_taken u ls es s L EL H) in *.
  apply step_R in ST. inversion ST; subst; cbn.
  - congruence.
  - split; [|auto]. intros _.
    match goal with K : sc_len sc = Some ?M |- _ => assert (L = M) by congruence end. lia.
  - split; [intros []|]. intros K.
    match goal with K : forall M, sc_len sc = Some M -> _ |- _ => specialize (K L EL) end. lia.
Qed.

(** *** Alignment *)

Section Align.
Variable L : nat.
Variable u : sc_state sc.
Variable ep : nat -> nat -> sc_batch sc.
Hypothesis len : sc_len sc = Some L.
Hypothesis eps : yields_episodes L u ep.

Definition quiet (ls : list label) : Prop :=
  ~ In LCallReset ls /\ no_shutdown ls /\ ~ In LDiscardTimeout ls.

Lemma quiet_app : forall a b, quiet (a ++ b) -> quiet a /\ quiet b.
Proof. intros a b. unfold quiet, no_shutdown. rewrite !in_app_iff. tauto. Qed.

(** The producer neither ends nor fails, and nobody asks it to stop. *)
Definition smooth (s : st) : Prop :=
  p_stop s = false /\ ~ In EOS (p_queue s) /\
  match p_worker s with WIdle | WCheck | WFetch | WPut _ => True | _ => False end.

Lemma smooth_inv : forall ls es s, exec (pinit sc u) ls es s -> quiet ls -> smooth s /\ drops sc es = 0.
Proof.
  intros ls es s H. pattern ls, es, s. revert ls es s H. apply (exec_ind_inv sc B N).
  - intros _. repeat split; auto.
  - intros ls es s l e s' HX IH H Q. apply quiet_app in Q as [Q1 Q2].
    destruct (IH Q1) as ((S & E & W) & D). rewrite drops_app, D.
    destruct Q1 as (N1 & N2 & N3). destruct Q2 as (M1 & M2 & M3). unfold no_shutdown in *. cbn in M1, M2, M3.
    pose proof (no_callreset_no_join sc B N u ls es s HX N1) as (P1 & P2 & NR).
    pose proof (no_shut_put sc B N u ls es s HX N2) as (P3 & P4 & P5 & _).
    destruct (start_fields sc s) as (F1 & F2 & F3 & F4 & F5 & F6).
    assert (SS : smooth (start sc s)).
    { unfold smooth. rewrite F2, F3, F6. repeat split; auto. destruct (p_started s); auto. }
    unfold smooth in *.
    destruct H; cbn; try tauto; try congruence;
      try (match goal with K : p_worker s = _ |- _ => rewrite K in * end); try tauto;
      try (match goal with K : p_queue s = _ |- _ => rewrite K in * end); cbn in E;
      repeat split; auto; try tauto.
    + destruct i; reflexivity.
    + exfalso. pose proof (conserved_exec sc B N Npos u ls es s HX NR) as C.
      destruct eps as (at_ & A0 & AG & AE).
      destruct (calls_episodes sc L ep len at_ AG AE u A0 (fetches ls)) as (a & t & T & A & _).
      rewrite C in A. cbn in A. destruct (Nat.eq_dec t L) as [->|NE].
      * destruct (AE _ _ A) as (w & x & G & _). rewrite G in H0. discriminate.
      * destruct (AG _ _ _ A) as (w & G & _); [lia|]. rewrite G in H0. discriminate.
    + exfalso. pose proof (conserved_exec sc B N Npos u ls es s HX NR) as C.
      destruct eps as (at_ & A0 & AG & AE).
      destruct (calls_episodes sc L ep len at_ AG AE u A0 (fetches ls)) as (a & t & T & A & _).
      rewrite C in A. cbn in A. destruct (Nat.eq_dec t L) as [->|NE].
      * destruct (AE _ _ A) as (w & x & G & _). rewrite G in H0. discriminate.
      * destruct (AG _ _ _ A) as (w & G & _); [lia|]. rewrite G in H0. discriminate.
    + exfalso. pose proof (conserved_exec sc B N Npos u ls es s HX NR) as C.
      destruct eps as (at_ & A0 & AG & AE).
      destruct (calls_episodes sc L ep len at_ AG AE u A0 (fetches ls)) as (a & t & T & A & _).
      rewrite C in A. cbn in A. destruct (Nat.eq_dec t L) as [->|NE].
      * destruct (AE _ _ A) as (w & x & G & X & _). rewrite G in H0. injection H0 as <-.
        destruct H1; congruence.
      * destruct (AG _ _ _ A) as (w & G & _); [lia|]. rewrite G in H0. discriminate.
    + rewrite in_app_iff. cbn. intros [K|[K|[]]]; [tauto | discriminate].
Qed.

(** Where the consumer is, in terms of what has left the queue. *)
Definition positioned (es : list (event sc)) (s : st) : Prop :=
  let '(e, k, begun) := place es in
  p_t s = k /\
  match p_pc s with
  | CIdle => List.length (handed es) = e * L + k /\ begun = p_started s
  | CGet => List.length (handed es) = e * L + k
  | CDiscard n => List.length (handed es) = e * L + (L - n) /\ n <= L /\ begun = true
  | _ => False
  end.

Lemma place_app : forall a b, @place sc (a ++ b) = fold_left (place_step sc) b (place a).
Proof. intros. apply fold_left_app. Qed.

Lemma t0_unstarted : forall ls es s, exec (pinit sc u) ls es s -> p_started s = false -> p_t s = 0.
Proof.
  intros ls es s H. pattern ls, es, s. revert ls es s H. apply (exec_ind_inv sc B N).
  - reflexivity.
  - intros ls es s l e s' HX IH H.
    assert (BS : basic sc N s) by (eapply basic_exec; [| apply basic_init |]; eauto).
    destruct (start_fields sc s) as (F1 & F2 & F3 & F4 & F5 & F6).
    destruct H; cbn; rewrite ?F5, ?start_t; auto; try discriminate.
    intros K. destruct (b_busy _ _ _ BS K) as [X _]. congruence.
Qed.

Lemma positioned_inv : forall ls es s, exec (pinit sc u) ls es s -> quiet ls -> positioned es s.
Proof.
  intros ls es s H. pattern ls, es, s. revert ls es s H. apply (exec_ind_inv sc B N).
  - intros _. cbn. auto.
  - intros ls es s l e s' HX IH H Q. apply quiet_app in Q as [Q1 Q2]. specialize (IH Q1).
    destruct (smooth_inv _ _ _ HX Q1) as ((S & E & W) & D).
    assert (BS : basic sc N s) by (eapply basic_exec; [| apply basic_init |]; eauto).
    pose proof (t0_unstarted _ _ _ HX) as T0.
    destruct Q2 as (M1 & M2 & M3). unfold no_shutdown in *. cbn in M1, M2, M3.
    destruct (start_fields sc s) as (F1 & F2 & F3 & F4 & F5 & F6). pose proof (start_t sc s) as F7.
    unfold positioned in *. rewrite place_app, handed_app, app_length.
    destruct (place es) as [[a k] g] eqn:PL.
    destruct IH as [TK IH].
    destruct H; cbn; rewrite ?F4, ?F7; cbn;
      try (match goal with K : p_pc s = _ |- _ => rewrite K in *; cbn in * end);
      rewrite ?Nat.add_0_r; auto; try tauto; try congruence.
    + rewrite F5. split; [assumption|]. destruct IH as [IH _]. auto.
    + destruct i.
      * cbn. split; [congruence|]. split; [lia|].
        destruct (p_started s) eqn:ST; auto. destruct (b_busy _ _ _ BS ST) as [X _]. congruence.
      * exfalso. apply E. rewrite H0. cbn. auto.
    + split; [assumption|]. split; [assumption|].
      destruct (p_started s) eqn:ST; auto. destruct (b_busy _ _ _ BS ST) as [X _]. congruence.
    + destruct IH as [IH IG]. rewrite len in H0. injection H0 as <-.
      split; [assumption|]. split; [lia|]. split; [lia | congruence].
    + destruct IH as [IH IG]. rewrite len in H0. injection H0 as <-. rewrite F5.
      split; [reflexivity|]. split; [|reflexivity].
      destruct g.
      * assert (LE : p_t s <= L) by (eapply b_t; eauto).
        destruct H1 as [H1|H1]; [congruence|]. lia.
      * symmetry in IG. specialize (T0 IG). lia.
    + exfalso. apply E. rewrite H0. cbn. auto.
    + destruct IH as (IH & NL & ->). destruct (b_disc _ _ _ BS _ H) as (L' & EL & R).
      rewrite len in EL. injection EL as <-.
      split; [reflexivity|]. split; [lia|].
      destruct (p_started s) eqn:ST; auto. destruct (b_busy _ _ _ BS ST) as [_ X]. elim (X n). assumption.
    + destruct IH as (IH & NL & ->). repeat split; auto; lia.
Qed.

Lemma return_places : forall ls es s, exec (pinit sc u) ls es s -> quiet ls ->
  forall es1 b es2 e k g, es = es1 ++ EvReturn b :: es2 -> place es1 = (e, k, g) ->
    k < L /\ List.length (handed es1) = e * L + k.
Proof.
  intros ls es s H. pattern ls, es, s. revert ls es s H. apply (exec_ind_inv sc B N).
  - intros _ es1 b es2 a k g K. destruct es1; discriminate.
  - intros ls es s l e s' HX IH H Q es1 b es2 a k g E PL. apply quiet_app in Q as [Q1 Q2].
    apply app_split in E as [(r & -> & ->)|(r & E & ->)]; [eapply IH; eauto|].
    assert (BS : basic sc N s) by (eapply basic_exec; [| apply basic_init |]; eauto).
    pose proof (positioned_inv _ _ _ HX Q1) as P.
    assert (r = [] /\ p_pc s = CGet) as [-> PC].
    { destruct H; try (destruct r as [|? [|? [|? ?]]]; try discriminate E;
        try (destruct i); try discriminate E; auto; fail). }
    rewrite app_nil_r in *. unfold positioned in P. rewrite PL, PC in P. destruct P as [P1 P2].
    split; [|assumption]. rewrite <- P1. eapply b_get; eauto.
Qed.

Lemma aligned : forall ls es s, exec (pinit sc u) ls es s -> quiet ls ->
  forall es1 b es2 e k g, es = es1 ++ EvReturn b :: es2 -> place es1 = (e, k, g) ->
    k < L /\ b = ep e k.
Proof.
  intros ls es s H Q es1 b es2 e k g E PL.
  destruct (return_places ls es s H Q es1 b es2 e k g E PL) as [KL HL]. split; [assumption|].
  destruct (smooth_inv _ _ _ H Q) as (_ & D). destruct Q as (N1 & N2 & N3).
  pose proof (loss_none sc B N Npos u ls es s H N1 N2 (drops0_dropped sc es D)) as C.
  destruct eps as (at_ & A0 & AG & AE).
  destruct (calls_episodes sc L ep len at_ AG AE u A0 (fetches ls)) as (a & t & T & A & LE & V).
  rewrite (V (e * L + k) b).
  - rewrite Nat.div_add_l, Nat.div_small, Nat.add_0_r by lia.
    rewrite Nat.add_comm, Nat.mod_add, Nat.mod_small by lia. reflexivity.
  - rewrite C, E. change (EvReturn b :: es2) with ([EvReturn b] ++ es2).
    rewrite !handed_app, <- !app_assoc. rewrite nth_error_app2 by lia.
    replace (e * L + k - List.length (handed es1)) with 0 by lia. reflexivity.
Qed.

End Align.

(** *** A waiting consumer makes progress *)

Definition no_double_end : Prop :=
  forall v w x, sc_get sc v = (GEpisodeEnd, w) -> sc_next sc w = Some x ->
    forall y, sc_get sc x <> (GEpisodeEnd, y).

Definition is_end (v : sc_state sc) : bool :=
  match sc_get sc v with (GEpisodeEnd, _) => true | _ => false end.

Definition mu (s : st) : nat :=
  match p_worker s with
  | WIdle | WDone | WCrashed => 0
  | WPut _ | WEosPut | WForce | WSetStop => 1
  | WFetch => if is_end (p_sched s) then 4 else 2
  | WCheck => if is_end (p_sched s) then 5 else 3
  end.

Lemma mu_step : forall s l e s', no_double_end -> p_queue s = [] -> worker_label l = true ->
  stepR sc B N s l e s' -> p_queue s' = [] -> mu s' < mu s.
Proof.
  intros s l e s' ND Q WL H Q'. unfold mu. destruct H; try discriminate WL; cbn in *;
    try (match goal with K : p_worker s = _ |- _ => rewrite K end);
    try (rewrite Q in *); try discriminate; cbn in *;
    unfold is_end; try (match goal with K : sc_get sc _ = _ |- _ => rewrite K end);
    try (destruct (sc_get sc (p_sched s)) as [[] ?]; lia); try lia.
  specialize (ND _ _ _ H0 H2). destruct (sc_get sc x) as [[] y] eqn:G; try lia.
  exfalso. eapply ND. reflexivity.
Qed.

Lemma queue_grows : forall s l e s', stepR sc B N s l e s' -> worker_label l = true ->
  p_queue s' = [] -> p_queue s = [].
Proof.
  intros s l e s' H WL Q. destruct H; try discriminate WL; cbn in Q; auto;
    try (destruct (p_queue s); discriminate); destruct q; discriminate.
Qed.

Lemma mu_run : forall s ls es s', exec s ls es s' -> no_double_end ->
  Forall (fun l => worker_label l = true) ls -> p_queue s' = [] ->
  p_queue s = [] /\ List.length ls + mu s' <= mu s.
Proof.
  intros s ls es s' H. pattern ls, es, s'. revert ls es s' H. apply (exec_ind_inv sc B N).
  - cbn. auto.
  - intros ls es s1 l e s2 HX IH H ND F Q. apply Forall_app in F as [F1 F2]. inversion F2; subst.
    pose proof (queue_grows _ _ _ _ H H2 Q) as Q1.
    destruct (IH ND F1 Q1) as [A C]. split; [assumption|].
    pose proof (mu_step s1 l e s2 ND Q1 H2 H Q). rewrite app_length. cbn. lia.
Qed.

Lemma empty_enabled : forall s : st, p_queue s = [] -> alive (p_worker s) = true -> worker_enabled B N s.
Proof.
  intros s Q A. apply room_enabled; auto. unfold room. rewrite Q. cbn. destruct (p_worker s); auto.
Qed.

Lemma wait_progress : forall s ls es s', exec s ls es s' -> no_double_end ->
  Forall (fun l => worker_label l = true) ls -> p_queue s' = [] ->
  List.length ls <= 5 /\ (alive (p_worker s') = true -> worker_enabled B N s').
Proof.
  intros s ls es s' H ND F Q. destruct (mu_run s ls es s' H ND F Q) as [_ M]. split.
  - unfold mu in M at 2. destruct (p_worker s); try destruct (is_end (p_sched s)); lia.
  - apply empty_enabled. assumption.
Qed.

End P.
