(** The stack of schedulers under a sampler: every call on a prefetcher is an
    execution of Model/Prefetch.v, and what prefetching preserves. *)
From Coq Require Import List Arith ZArith String Bool Lia.
From Verif Require Import Prelude Model.Base Model.Episodic Model.Prefetch Spec.PrefetchSpec Proofs.PrefetchProofs
  Model.Sampler Spec.SamplerSpec Model.Stack Spec.StackSpec.
Import ListNotations.
Local Open Scope nat_scope.

Section Calls.
Variables (si : sif) (len : option nat) (B N : nat).
Hypothesis Npos : 1 <= N.
Notation sc := (sched_of si len B).
Notation basic := (basic sc N).
Notation exec := (exec sc B N).
Notation pstep := (pstep sc B N).

Lemma worker_step : forall s l e s', worker_label l = true -> pstep s l = Some (e, s') ->
  p_pc s' = p_pc s /\ p_t s' = p_t s /\ p_started s' = p_started s /\ (p_stop s = true -> p_stop s' = true) /\
  returned e = [] /\ handed e = [] /\ Forall silent e.
Proof.
  intros s l e s' W H. apply (step_R sc B N) in H. destruct H; try discriminate; cbn; repeat split; auto;
  repeat constructor.
Qed.

Lemma wrun_exec : forall k ex s, exists ls es, exec s ls es (wrun si len B N k ex s) /\
  Forall (fun l => worker_label l = true) ls /\ Forall silent es /\
  p_pc (wrun si len B N k ex s) = p_pc s /\ p_t (wrun si len B N k ex s) = p_t s /\
  p_started (wrun si len B N k ex s) = p_started s /\ (p_stop s = true -> p_stop (wrun si len B N k ex s) = true).
Proof.
  induction k as [|k IH]; intros ex s; cbn [wrun].
  - exists [], []. repeat split; auto. constructor.
  - destruct (wlabel si len B N ex s) as [l|] eqn:E; [|exists [], []; repeat split; auto; constructor].
    assert (W : worker_label l = true).
    { unfold wlabel in E. destruct (p_worker s); try discriminate; repeat match type of E with context [if ?b then _ else _] => destruct b end;
      inversion E; reflexivity. }
    destruct (pstep s l) as [[e s']|] eqn:P; [|exists [], []; repeat split; auto; constructor].
    destruct (worker_step _ _ _ _ W P) as (A1 & A2 & A3 & A4 & _ & _ & A7).
    destruct (IH ex s') as (ls & es & I1 & I2 & I3 & I4 & I5 & I6 & I7).
    exists (l :: ls), (e ++ es). split; [eapply exec_cons; eauto|]. split; [constructor; auto|].
    split; [apply Forall_app; auto|]. repeat split; try congruence. auto.
Qed.

Lemma wait_exec : forall t s, exists ls es, exec s ls es (wait si len B N t s) /\
  Forall (fun l => worker_label l = true) ls /\ Forall silent es /\
  p_pc (wait si len B N t s) = p_pc s /\ p_t (wait si len B N t s) = p_t s /\
  p_started (wait si len B N t s) = p_started s /\ (p_stop s = true -> p_stop (wait si len B N t s) = true).
Proof. intros t s. apply wrun_exec. Qed.

(** ** [get_batch] *)

Lemma call_get_cases : forall n s e s', pstep s (LCallGet n) = Some (e, s') ->
  p_pc s = CIdle /\
  ((n <> B /\ e = [EvValueError] /\ s' = s) \/
   (n = B /\ (exists L, len = Some L /\ L <= p_t s) /\ e = [EvEpisodeEnd] /\ s' = start sc s) \/
   (n = B /\ (forall L, len = Some L -> p_t s < L) /\ e = [] /\ s' = Prefetch.set_pc sc (start sc s) CGet)).
Proof.
  intros n s e s' H. unfold Prefetch.pstep in H. destruct (p_pc s); try discriminate. split; [reflexivity|].
  injection H as H. unfold call_get in H. destruct (n =? B) eqn:E.
  - apply Nat.eqb_eq in E. right. change (sc_len sc) with len in H. destruct len as [L|].
    + rewrite start_t in H. destruct (L <=? p_t s) eqn:T; injection H as <- <-.
      * apply Nat.leb_le in T. left. repeat split; auto. exists L; auto.
      * apply Nat.leb_gt in T. right. repeat split; auto. intros L' [= <-]. exact T.
    + injection H as <- <-. right. repeat split; auto. discriminate.
  - apply Nat.eqb_neq in E. injection H as <- <-. left; auto.
Qed.

Lemma pf_get_exec : forall n u r u', p_pc (t_st u) = CIdle -> pf_get si len B N n u = (r, u') ->
  exists ls pre ev, exec (t_st u) ls (pre ++ [ev]) (t_st u') /\ Forall silent pre /\ answers ev r /\ p_pc (t_st u') = CIdle /\
    (forall l, In l ls -> worker_label l = true \/ l = LCallGet n \/ l = LTake \/ l = LTimeout).
Proof.
  intros n u r u' P H. unfold pf_get in H. set (tm := t_time u) in *.
  destruct (wait_exec (fst (tm 0)) (t_st u)) as (ls0 & es0 & X0 & W0 & D0 & P0 & _ & _ & _).
  set (s0 := wait si len B N (fst (tm 0)) (t_st u)) in *.
  destruct (pstep s0 (LCallGet n)) as [[e1 s1]|] eqn:E1.
  2:{ exfalso. cbn in E1. rewrite P0, P in E1. discriminate. }
  pose proof (exec_app sc B N _ _ _ _ _ _ _ X0 (exec_one sc B N _ _ _ _ E1)) as X1.
  assert (WL0 : forall l, In l ls0 -> worker_label l = true) by (apply Forall_forall, W0).
  destruct (call_get_cases _ _ _ _ E1) as [_ [(NE & -> & ->) | [(-> & (L & EL & TL) & -> & ->) | (-> & TL & -> & ->)]]].
  - injection H as <- <-. exists (ls0 ++ [LCallGet n]), es0, EvValueError. cbn [t_st].
    split; [exact X1|]. split; [exact D0|]. split; [constructor|]. split; [congruence|].
    intros l Hl. apply in_app_iff in Hl. destruct Hl as [Hl|[<-|[]]]; auto.
  - injection H as <- <-. exists (ls0 ++ [LCallGet B]), es0, EvEpisodeEnd.
    destruct (start_fields sc s0) as (_ & _ & _ & F4 & _). cbn [t_st].
    split; [exact X1|]. split; [exact D0|]. split; [constructor|]. split; [congruence|].
    intros l Hl. apply in_app_iff in Hl. destruct Hl as [Hl|[<-|[]]]; auto.
  - set (s1 := Prefetch.set_pc sc (start sc s0) CGet) in *.
    destruct (wait_exec (snd (tm 0)) s1) as (ls1 & es1 & X2 & W1 & D1 & P1 & _ & _ & _).
    set (s2 := wait si len B N (snd (tm 0)) s1) in *.
    assert (P2 : p_pc s2 = CGet) by (rewrite P1; reflexivity).
    assert (WL1 : forall l, In l ls1 -> worker_label l = true) by (apply Forall_forall, W1).
    pose proof (exec_app sc B N _ _ _ _ _ _ _ X1 X2) as X3. rewrite app_nil_r in X3.
    destruct (p_queue s2) as [|i q] eqn:Q.
    + assert (ET : pstep s2 LTake = None) by (cbn; rewrite P2, Q; reflexivity). rewrite ET in H.
      assert (EO : pstep s2 LTimeout = Some ([EvStopTimeout], Prefetch.set_pc sc s2 CIdle)) by (cbn; rewrite P2, Q; reflexivity).
      rewrite EO in H. injection H as <- <-.
      pose proof (exec_app sc B N _ _ _ _ _ _ _ X3 (exec_one sc B N _ _ _ _ EO)) as X4.
      exists (((ls0 ++ [LCallGet B]) ++ ls1) ++ [LTimeout]), (es0 ++ es1), EvStopTimeout. cbn [t_st].
      split; [exact X4|]. split; [apply Forall_app; auto|]. split; [constructor|]. split; [reflexivity|].
      intros l Hl. rewrite !in_app_iff in Hl. destruct Hl as [[[Hl|[<-|[]]]|Hl]|[<-|[]]]; auto.
    + assert (ET : pstep s2 LTake = Some (take sc i q s2)) by (cbn; rewrite P2, Q; reflexivity).
      pose proof (exec_app sc B N _ _ _ _ _ _ _ X3 (exec_one sc B N _ _ _ _ ET)) as X4.
      rewrite ET in H. cbn [take] in H. unfold take in H.
      exists (((ls0 ++ [LCallGet B]) ++ ls1) ++ [LTake]), (es0 ++ es1), (match i with Data b => EvReturn b | EOS => EvStopEos end).
      assert (E : u' = mkTst (Prefetch.set_pc sc (Prefetch.set_t sc (Prefetch.set_queue sc s2 q) (S (p_t s2))) CIdle) (later tm 1)).
      { destruct i; injection H as _ <-; reflexivity. }
      subst u'. cbn [t_st]. split; [exact X4|]. split; [apply Forall_app; auto|].
      split; [destruct i; injection H as <-; constructor|]. split; [reflexivity|].
      intros l Hl. rewrite !in_app_iff in Hl. destruct Hl as [[[Hl|[<-|[]]]|Hl]|[<-|[]]]; auto.
Qed.

(** ** [next_episode] *)

Lemma pf_discard_exec : forall k s tm n, p_pc s = CDiscard n -> n <= k -> 1 <= n ->
  exists ls es, exec s ls es (t_st (pf_discard si len B N k s tm)) /\ p_pc (t_st (pf_discard si len B N k s tm)) = CIdle /\
    p_t (t_st (pf_discard si len B N k s tm)) = 0 /\
    (forall l, In l ls -> worker_label l = true \/ l = LDiscard \/ l = LDiscardTimeout).
Proof.
  induction k as [|k IH]; intros s tm n P Hn H1; [lia|]. cbn [pf_discard]. rewrite P.
  destruct (wait_exec (snd (tm 0)) s) as (ls0 & es0 & X0 & W0 & _ & P0 & T0 & _ & _).
  set (s0 := wait si len B N (snd (tm 0)) s) in *.
  assert (WL0 : forall l, In l ls0 -> worker_label l = true) by (apply Forall_forall, W0).
  assert (P' : p_pc s0 = CDiscard n) by congruence.
  assert (TO : pstep s0 LDiscardTimeout = Some ([EvNextTimeout], Prefetch.set_pc sc (Prefetch.set_t sc s0 0) CIdle)) by (cbn; rewrite P'; reflexivity).
  assert (FT : exists ls es, exec s ls es (Prefetch.set_pc sc (Prefetch.set_t sc s0 0) CIdle) /\
    (forall l, In l ls -> worker_label l = true \/ l = LDiscard \/ l = LDiscardTimeout)).
  { exists (ls0 ++ [LDiscardTimeout]), (es0 ++ [EvNextTimeout]). split; [eapply exec_app; [exact X0 | apply exec_one, TO]|].
    intros l Hl. apply in_app_iff in Hl. destruct Hl as [Hl|[<-|[]]]; auto. }
  destruct (snd (snd (tm 0))).
  - rewrite TO. cbn [t_st]. destruct FT as (ls & es & X & W). exists ls, es. auto.
  - destruct (pstep s0 LDiscard) as [[e s1]|] eqn:E.
    + pose proof (exec_app sc B N _ _ _ _ _ _ _ X0 (exec_one sc B N _ _ _ _ E)) as X1.
      apply (step_R sc B N) in E. inversion E; subst.
      * assert (EP : pf_discard si len B N k (Prefetch.set_pc sc (Prefetch.set_t sc (Prefetch.set_queue sc s0 q) 0) CIdle) (later tm 1)
          = mkTst (Prefetch.set_pc sc (Prefetch.set_t sc (Prefetch.set_queue sc s0 q) 0) CIdle) (later tm 1)) by (destruct k; reflexivity).
        rewrite EP. cbn [t_st]. exists (ls0 ++ [LDiscard]), (es0 ++ [EvNextEos]). repeat split; auto.
        intros l Hl. apply in_app_iff in Hl. destruct Hl as [Hl|[<-|[]]]; auto.
      * assert (EP : pf_discard si len B N k (Prefetch.set_pc sc (Prefetch.set_t sc (Prefetch.set_queue sc s0 q) 0) CIdle) (later tm 1)
          = mkTst (Prefetch.set_pc sc (Prefetch.set_t sc (Prefetch.set_queue sc s0 q) 0) CIdle) (later tm 1)) by (destruct k; reflexivity).
        rewrite EP. cbn [t_st]. eexists (ls0 ++ [LDiscard]), _. repeat split; [exact X1| ..].
        intros l Hl. apply in_app_iff in Hl. destruct Hl as [Hl|[<-|[]]]; auto.
      * match goal with Hd : p_pc s0 = CDiscard ?m |- _ => assert (m = n) by congruence; subst m end.
        destruct (IH (Prefetch.set_pc sc (Prefetch.set_queue sc s0 q) (CDiscard (n - 1))) (later tm 1) (n - 1) eq_refl ltac:(lia) ltac:(lia)) as (ls & es & I1 & I2 & I3 & I4).
        exists ((ls0 ++ [LDiscard]) ++ ls), ((es0 ++ [EvFlush b]) ++ es). split; [eapply exec_app; eauto|]. split; [exact I2|]. split; [exact I3|].
        intros l Hl. rewrite !in_app_iff in Hl. destruct Hl as [[Hl|[<-|[]]]|Hl]; auto.
    + rewrite TO. cbn [t_st]. destruct FT as (ls & es & X & W). exists ls, es. auto.
Qed.

Lemma pf_next_exec : forall u r u', basic (t_st u) -> p_pc (t_st u) = CIdle -> pf_next si len B N u = (r, u') ->
  r = Ok tt /\ exists ls es, exec (t_st u) ls es (t_st u') /\ p_pc (t_st u') = CIdle /\ (len <> None -> p_t (t_st u') = 0) /\
    (len = None -> p_t (t_st u') = p_t (t_st u)) /\
    (forall l, In l ls -> worker_label l = true \/ l = LCallNext \/ l = LDiscard \/ l = LDiscardTimeout).
Proof.
  intros u r u' HB P H. unfold pf_next in H. set (tm := t_time u) in *.
  destruct (wait_exec (fst (tm 0)) (t_st u)) as (ls0 & es0 & X0 & W0 & _ & P0 & T0 & _ & _).
  set (s0 := wait si len B N (fst (tm 0)) (t_st u)) in *.
  assert (B0 : basic s0) by (eapply basic_exec; eauto).
  assert (WL0 : forall l, In l ls0 -> worker_label l = true) by (apply Forall_forall, W0).
  destruct (pstep s0 LCallNext) as [[e1 s1]|] eqn:E1.
  2:{ exfalso. cbn in E1. rewrite P0, P in E1. discriminate. }
  injection H as <- <-. split; [reflexivity|].
  pose proof (exec_app sc B N _ _ _ _ _ _ _ X0 (exec_one sc B N _ _ _ _ E1)) as X1.
  assert (STOP : forall k s, p_pc s = CIdle -> pf_discard si len B N k s (later tm 1) = mkTst s (later tm 1)).
  { intros k s Ps. destruct k; [reflexivity|]. cbn [pf_discard]. rewrite Ps. reflexivity. }
  apply (step_R sc B N) in E1. inversion E1; subst.
  - rewrite STOP by congruence. cbn [t_st]. exists (ls0 ++ [LCallNext]), (es0 ++ [EvNext]).
    split; [exact X1|]. split; [congruence|]. split; [intros NN; exfalso; apply NN; assumption|]. split; [intros; exact T0|]. intros l Hl. apply in_app_iff in Hl. destruct Hl as [Hl|[<-|[]]]; auto.
  - match goal with Hl : sc_len _ = Some L |- _ => pose proof Hl as EL end. change (len = Some L) in EL. assert (EM : match len with Some L0 => L0 | None => 0 end = L) by (clear - EL; rewrite EL; reflexivity). rewrite EM.
    set (s1 := Prefetch.set_pc sc s0 (CDiscard (L - p_t s0))) in *.
    destruct (pf_discard_exec L s1 (later tm 1) (L - p_t s0) eq_refl ltac:(lia) ltac:(lia)) as (ls & es & I1 & I2 & I3 & I4).
    exists ((ls0 ++ [LCallNext]) ++ ls), ((es0 ++ []) ++ es). split; [eapply exec_app; eauto|]. split; [exact I2|]. split; [auto|]. split; [intros ?; congruence|].
    intros l Hl. rewrite !in_app_iff in Hl. destruct Hl as [[Hl|[<-|[]]]|Hl]; auto. destruct (I4 l Hl) as [?|[?|?]]; auto.
  - destruct (start_fields sc s0) as (_ & _ & _ & F4 & _).
    rewrite STOP by (cbn; congruence). cbn [t_st]. exists (ls0 ++ [LCallNext]), (es0 ++ [EvNext]).
    split; [exact X1|]. split; [cbn; congruence|]. split; [reflexivity|]. split; [intros NN; match goal with Hl : sc_len _ = Some L |- _ => cbn in Hl end; congruence|]. intros l Hl. apply in_app_iff in Hl. destruct Hl as [Hl|[<-|[]]]; auto.
Qed.

(** ** [reset] *)

Lemma drained : forall ex s, p_stop s = true -> List.length (p_queue s) < N -> alive (p_worker (wrun si len B N 4 ex s)) = false.
Proof.
  assert (NA : forall k ex s, alive (p_worker s) = false -> alive (p_worker (wrun si len B N k ex s)) = false).
  { intros k ex s A. destruct k; [exact A|]. cbn [wrun]. unfold wlabel. destruct (p_worker s) eqn:W; try discriminate; rewrite ?W; auto. }
  assert (CK : forall k ex s, p_stop s = true -> p_worker s = WCheck -> alive (p_worker (wrun si len B N (S k) ex s)) = false).
  { intros k ex s S W. cbn [wrun]. unfold wlabel. rewrite W. cbn [Prefetch.pstep]. rewrite W, S. apply NA. reflexivity. }
  assert (SS : forall k ex s, p_worker s = WSetStop -> alive (p_worker (wrun si len B N (S k) ex s)) = false).
  { intros k ex s W. cbn [wrun]. unfold wlabel. rewrite W. cbn [Prefetch.pstep]. rewrite W. apply NA. reflexivity. }
  assert (FO : forall k ex s, p_worker s = WForce -> alive (p_worker (wrun si len B N (S (S k)) ex s)) = false).
  { intros k ex s W. cbn [wrun]. unfold wlabel. rewrite W. cbn [Prefetch.pstep]. rewrite W. unfold force.
    destruct (p_queue s); apply (SS k); reflexivity. }
  assert (EO : forall k ex s, p_worker s = WEosPut -> List.length (p_queue s) < N -> alive (p_worker (wrun si len B N (S (S k)) ex s)) = false).
  { intros k ex s W R. apply Nat.ltb_lt in R. cbn [wrun]. unfold wlabel. rewrite W, R. cbn [Prefetch.pstep]. rewrite W, R. apply (SS k). reflexivity. }
  assert (PU : forall k ex s b, p_stop s = true -> p_worker s = WPut b -> List.length (p_queue s) < N -> alive (p_worker (wrun si len B N (S (S k)) ex s)) = false).
  { intros k ex s b S W R. apply Nat.ltb_lt in R. cbn [wrun]. unfold wlabel. rewrite W, R. cbn [Prefetch.pstep]. rewrite W, R. apply (CK k); [exact S | reflexivity]. }
  assert (FE : forall k ex s, p_stop s = true -> p_worker s = WFetch -> List.length (p_queue s) < N -> alive (p_worker (wrun si len B N (S (S (S k))) ex s)) = false).
  { intros k ex s S W R.
    assert (E : wrun si len B N (Datatypes.S (Datatypes.S (Datatypes.S k))) ex s = wrun si len B N (Datatypes.S (Datatypes.S k)) ex (fetch sc s)).
    { cbn [wrun]. unfold wlabel at 1. rewrite W. cbn [Prefetch.pstep]. rewrite W. reflexivity. }
    rewrite E. unfold fetch. destruct (sc_get sc (p_sched s)) as [r u]. destruct r.
    - eapply PU; [exact S | reflexivity | exact R].
    - destruct (sc_len sc).
      + destruct (sc_next sc u); [apply CK; [exact S | reflexivity] | apply NA; reflexivity].
      + apply NA; reflexivity.
    - apply EO; [reflexivity | exact R].
    - apply NA; reflexivity. }
  intros ex s S R. destruct (p_worker s) eqn:W; try (apply NA; rewrite W; reflexivity); eauto.
Qed.

Lemma pf_reset_exec : forall u, basic (t_st u) -> p_pc (t_st u) = CIdle ->
  exists ls es v, exec (t_st u) ls es (t_st (pf_reset si len B N u)) /\ t_st (pf_reset si len B N u) = pinit sc (sc_reset sc v) /\
    (forall l, In l ls -> worker_label l = true \/ l = LCallReset \/ l = LResetPoll \/ l = LResetJoin).
Proof.
  intros u HB P. unfold pf_reset. set (tm := t_time u) in *.
  destruct (wait_exec (fst (tm 0)) (t_st u)) as (ls0 & es0 & X0 & W0 & _ & P0 & _ & _ & _).
  set (s0 := wait si len B N (fst (tm 0)) (t_st u)) in *.
  assert (E1 : pstep s0 LCallReset = Some ([], Prefetch.set_pc sc (Prefetch.set_stop sc s0) CReset1)) by (cbn; rewrite P0, P; reflexivity).
  rewrite E1. set (s1 := Prefetch.set_pc sc (Prefetch.set_stop sc s0) CReset1) in *.
  destruct (wait_exec (snd (tm 0)) s1) as (ls1 & es1 & X1 & W1 & _ & P1 & _ & _ & S1).
  set (s2 := wait si len B N (snd (tm 0)) s1) in *. specialize (S1 eq_refl).
  assert (X2 : exec (t_st u) ((ls0 ++ [LCallReset]) ++ ls1) ((es0 ++ []) ++ es1) s2).
  { eapply exec_app; [|exact X1]. eapply exec_app; [exact X0 | apply exec_one, E1]. }
  assert (B2 : basic s2) by (eapply basic_exec; eauto).
  assert (E2 : pstep s2 LResetPoll = Some (fst (poll sc s2), Prefetch.set_pc sc (snd (poll sc s2)) CReset2)).
  { cbn. rewrite P1. cbn. destruct (poll sc s2); reflexivity. }
  rewrite E2. set (s3 := Prefetch.set_pc sc (snd (poll sc s2)) CReset2) in *.
  assert (S3 : p_stop s3 = true) by (unfold s3, poll; destruct (p_queue s2); exact S1).
  assert (R3 : List.length (p_queue s3) < N).
  { pose proof (b_queue _ _ _ B2) as Q. unfold s3, poll. destruct (p_queue s2) eqn:EQ; cbn; [rewrite EQ; cbn; lia | cbn in Q; lia]. }
  destruct (wrun_exec 4 (snd (snd (tm 1))) s3) as (ls3 & es3 & X3 & W3 & _ & P3 & _ & _ & _).
  pose proof (drained (snd (snd (tm 1))) s3 S3 R3) as A.
  set (s4 := wrun si len B N 4 (snd (snd (tm 1))) s3) in *.
  assert (E4 : pstep s4 LResetJoin = Some ([EvReset], pinit sc (sc_reset sc (p_sched s4)))) by (unfold Prefetch.pstep; rewrite P3; change (p_pc s3) with CReset2; cbn iota; rewrite A; reflexivity).
  rewrite E4. cbn [t_st]. eexists _, _, (p_sched s4). split; [|split; [reflexivity|]].
  - eapply exec_app; [|apply exec_one, E4]. eapply exec_app; [|exact X3]. eapply exec_app; [exact X2 | apply exec_one, E2].
  - intros l Hl. rewrite !in_app_iff in Hl. rewrite Forall_forall in W0, W1, W3.
    destruct Hl as [[[[[Hl|[<-|[]]]|Hl]|[<-|[]]]|Hl]|[<-|[]]]; auto.
Qed.

(** ** Asked for another number of slices than configured *)

Lemma pf_wrong_size : forall n u, n <> B -> p_pc (t_st u) = CIdle ->
  pf_get si len B N n u = (Err ValueError, mkTst (wait si len B N (fst (t_time u 0)) (t_st u)) (later (t_time u) 1)).
Proof.
  intros n u NE P. unfold pf_get. destruct (wait_exec (fst (t_time u 0)) (t_st u)) as (_ & _ & _ & _ & _ & P0 & _ & _ & _).
  destruct (pstep (wait si len B N (fst (t_time u 0)) (t_st u)) (LCallGet n)) as [[e1 s1]|] eqn:E1.
  - destruct (call_get_cases _ _ _ _ E1) as [_ [(_ & -> & ->) | [(-> & _) | (-> & _)]]]; congruence.
  - exfalso. cbn in E1. rewrite P0, P in E1. discriminate.
Qed.

Definition calm (u : tst si len B) : Prop := basic (t_st u) /\ p_pc (t_st u) = CIdle.

Lemma calm_init : forall v tm, calm (mkTst (pinit sc v) tm).
Proof. intros v tm. split; [apply basic_init; exact Npos | reflexivity]. Qed.
Lemma calm_get : forall n u r u', calm u -> pf_get si len B N n u = (r, u') -> calm u'.
Proof.
  intros n u r u' [HB HP] H. destruct (pf_get_exec _ _ _ _ HP H) as (ls & pre & ev & X & _ & _ & P & _).
  split; [eapply basic_exec; eauto | exact P].
Qed.
Lemma calm_next : forall u r u', calm u -> pf_next si len B N u = (r, u') -> r = Ok tt /\ calm u'.
Proof.
  intros u r u' [HB HP] H. destruct (pf_next_exec _ _ _ HB HP H) as (-> & ls & es & X & P & _).
  split; [reflexivity|]. split; [eapply basic_exec; eauto | exact P].
Qed.
Lemma calm_reset : forall u, calm u -> calm (pf_reset si len B N u).
Proof.
  intros u [HB HP]. destruct (pf_reset_exec _ HB HP) as (ls & es & v & X & E & _). split; [eapply basic_exec; eauto|].
  rewrite E. reflexivity.
Qed.
End Calls.

(** A scheduler that rejects the size at every state it can be in. *)
Lemma never_a_batch : forall si oflow bflow img (c : scfg si oflow bflow img) (I : si_state si -> Prop),
  (forall u, I u -> si_steps si u <> 0%Z) ->
  (forall u, I u -> exists u', si_get si (sc_F c) u = (Err ValueError, u') /\ I u') ->
  (forall u r u', I u -> si_next si u = (r, u') -> I u') -> (forall u, I u -> I (si_reset si u)) ->
  forall ops s, I (y_sched s) -> y_cur s = CurNone ->
  forall j, nth_error ops j = Some SNext -> nth_error (fst (srun c ops s)) j = Some (SRaise ValueError).
Proof.
  intros si oflow bflow img c I IS IG IN IR. induction ops as [|o ops IH]; intros s Hs Hc j Hj; [destruct j; discriminate|].
  cbn [srun]. destruct (do_sop c o s) as [r s1] eqn:E.
  assert (K : I (y_sched s1) /\ y_cur s1 = CurNone /\ (o = SNext -> r = SRaise ValueError)).
  { destruct o; cbn [do_sop] in E.
    - unfold syn_next, sampler_next in E.
      assert (Z : andb (si_protocol si) (si_steps si (y_sched s) =? 0)%Z = false).
      { rewrite (proj2 (Z.eqb_neq _ _) (IS _ Hs)). apply andb_false_r. }
      rewrite Z in E. unfold syn_get_next, syn_fetch in E. rewrite Hc in E.
      destruct (IG _ Hs) as (u' & G & K). rewrite G in E. injection E as <- <-. auto.
    - injection E as <- <-. unfold syn_reset. destruct scheduler_reset; cbn; repeat split; auto; discriminate.
    - unfold syn_next_episode in E. destruct (si_protocol si).
      + destruct (si_next si (y_sched s)) as [r' u'] eqn:G. pose proof (IN _ _ _ Hs G) as K.
        destruct r'; injection E as <- <-; repeat split; auto; discriminate.
      + injection E as <- <-; repeat split; auto; discriminate. }
  destruct K as (K1 & K2 & K3). specialize (IH s1 K1 K2). destruct (srun c ops s1) as [rs s2] eqn:R. cbn [fst] in *.
  destruct j; cbn in Hj |- *; [injection Hj as ->; f_equal; auto | auto].
Qed.

(** * A background thread that keeps up *)

Lemma prompt_later : forall tm i, prompt tm -> prompt (later tm i).
Proof. intros tm i P j. apply P. Qed.

Section KeepsUp.
Variables (si : sif) (len : option nat) (B N : nat).
Hypothesis Npos : 1 <= N.
Notation sc := (sched_of si len B).
Notation basic := (basic sc N).
Notation pstep := (pstep sc B N).
(** Batch number [g] of the wrapped scheduler is [D g], as long as [g] is below
    [J] (if there is a limit); [src u g] if the next one is number [g]. *)
Variables (J : option nat) (D : nat -> sc_batch sc) (src : si_state si -> nat -> Prop).
Definition live (g : nat) : Prop := match J with Some j => g < j | None => True end.
Hypothesis feeds : forall u g, src u g -> live g ->
  (exists u', sc_get sc u = (GBatch (D g), u') /\ src u' (S g)) \/
  (exists u1 u2 u3, len <> None /\ sc_get sc u = (GEpisodeEnd, u1) /\ sc_next sc u1 = Some u2 /\
     src u2 g /\ sc_get sc u2 = (GBatch (D g), u3) /\ src u3 (S g)).
Hypothesis ends : forall u j, J = Some j -> src u j -> exists u', sc_get sc u = (GStop, u').
Hypothesis bounded : forall u g j, src u g -> J = Some j -> g <= j.

Definition pending (g f : nat) : list (item sc) := map (fun i => @Data sc (D i)) (seq g (f - g)).

(** The consumer has taken [g] batches. *)
Definition holds (g : nat) (s : pst sc) : Prop :=
  match p_worker s with
  | WIdle => p_started s = false /\ p_stop s = false /\ p_queue s = [] /\ src (p_sched s) g
  | WCheck | WFetch => p_started s = true /\ p_stop s = false /\ exists f, g <= f /\ p_queue s = pending g f /\ src (p_sched s) f
  | WPut b => p_started s = true /\ p_stop s = false /\
      exists f, g <= f /\ p_queue s = pending g f /\ b = D f /\ src (p_sched s) (S f) /\ live f
  | WEosPut => p_started s = true /\ p_stop s = false /\ exists j, J = Some j /\ g <= j /\ p_queue s = pending g j
  | WSetStop | WDone => p_started s = true /\ exists j, J = Some j /\ g <= j /\ p_queue s = pending g j ++ [EOS]
  | WForce | WCrashed => False
  end.
(** The marker has been taken too. *)
Definition exhausted (s : pst sc) : Prop :=
  (p_worker s = WSetStop \/ p_worker s = WDone) /\ p_queue s = [] /\ p_started s = true.

Lemma pending_snoc : forall g f, g <= f -> pending g (S f) = pending g f ++ [Data (D f)].
Proof.
  intros g f H. unfold pending. replace (S f - g) with (S (f - g)) by lia. rewrite seq_S, map_app. cbn.
  replace (g + (f - g)) with f by lia. reflexivity.
Qed.
Lemma pending_cons : forall g f, g < f -> pending g f = Data (D g) :: pending (S g) f.
Proof. intros g f H. unfold pending. replace (f - g) with (S (f - S g)) by lia. reflexivity. Qed.
Lemma pending_nil : forall g f, f <= g -> pending g f = [].
Proof. intros g f H. unfold pending. replace (f - g) with 0 by lia. reflexivity. Qed.
Lemma pending_empty : forall g f, g <= f -> pending g f = [] -> f = g.
Proof. intros g f H E. destruct (Nat.eq_dec f g); auto. rewrite pending_cons in E by lia. discriminate. Qed.

Lemma given_len : len <> None -> forall A (x y : A), match len with Some _ => x | None => y end = x.
Proof. intros NE A x y. clear - NE. destruct len; [reflexivity | congruence]. Qed.

Lemma in_episode : forall t, (forall L, len = Some L -> t < L) -> forall A (x y : A),
  match len with Some L => if L <=? t then x else y | None => y end = y.
Proof.
  intros t H A x y. clear - H. destruct len as [L|]; [|reflexivity].
  assert ((L <=? t) = false) as -> by (apply Nat.leb_gt; auto). reflexivity.
Qed.

Lemma match_len : forall L, len = Some L -> forall A (f : nat -> A) (x z : A), f L = z -> match len with Some M => f M | None => x end = z.
Proof. intros L E A f x z H. clear - E H. rewrite E. exact H. Qed.

Lemma live_or_last : forall u g, src u g -> live g \/ J = Some g.
Proof.
  intros u g H. unfold live. case_eq J; [intros j E | auto]. pose proof (bounded _ _ _ H E).
  destruct (Nat.eq_dec g j); [right; congruence | left; lia].
Qed.

Lemma holds_fetch : forall g s, holds g s -> p_worker s = WFetch -> holds g (fetch sc s).
Proof.
  intros g s H W. unfold holds in H. rewrite W in H. destruct H as (H1 & H2 & f & H3 & H4 & H5).
  unfold fetch. destruct (live_or_last _ _ H5) as [L | L].
  - destruct (feeds _ _ H5 L) as [(u' & G & H6) | (u1 & u2 & u3 & NE & G & X & H6 & _)].
    + rewrite G. unfold holds. cbn. repeat split; auto. exists f. auto.
    + rewrite G, X. change (sc_len sc) with len. rewrite (given_len NE). unfold holds. cbn. repeat split; auto. exists f; auto.
  - destruct (ends _ _ L H5) as (u' & G). rewrite G. unfold holds. cbn. repeat split; auto. exists f; auto.
Qed.

Lemma holds_step : forall g s l e s', holds g s -> wlabel si len B N false s = Some l -> pstep s l = Some (e, s') -> holds g s'.
Proof.
  intros g s l e s' H L P. unfold wlabel in L. destruct (p_worker s) eqn:W; try discriminate.
  - injection L as <-. unfold Prefetch.pstep in P. rewrite W in P. pose proof H as H'. unfold holds in H'. rewrite W in H'.
    destruct H' as (_ & S & _). rewrite S in P. injection P as <- <-. unfold holds in *. rewrite W in H. cbn. exact H.
  - injection L as <-. unfold Prefetch.pstep in P. rewrite W in P. injection P as <- <-. apply holds_fetch; auto.
  - destruct (List.length (p_queue s) <? N) eqn:R; [|discriminate]. injection L as <-. unfold Prefetch.pstep in P.
    rewrite W, R in P. injection P as <- <-. unfold holds in *. rewrite W in H. cbn. destruct H as (H1 & H2 & f & H3 & H4 & -> & H6 & _).
    repeat split; auto. exists (S f). rewrite pending_snoc, H4 by lia. auto.
  - destruct (List.length (p_queue s) <? N) eqn:R; [|discriminate]. injection L as <-. unfold Prefetch.pstep in P.
    rewrite W, R in P. injection P as <- <-. unfold holds in *. rewrite W in H. cbn. destruct H as (H1 & H2 & j & H3 & H4 & H5).
    split; auto. exists j. rewrite H5. auto.
  - exfalso. unfold holds in H. rewrite W in H. exact H.
  - injection L as <-. unfold Prefetch.pstep in P. rewrite W in P. injection P as <- <-. unfold holds in *. rewrite W in H. exact H.
Qed.

Lemma holds_wrun : forall k g s, holds g s -> holds g (wrun si len B N k false s).
Proof.
  induction k as [|k IH]; intros g s H; cbn [wrun]; auto.
  destruct (wlabel si len B N false s) as [l|] eqn:L; auto. destruct (pstep s l) as [[e s']|] eqn:P; auto.
  apply IH. eapply holds_step; eauto.
Qed.

Lemma exhausted_wrun : forall k x s, exhausted s -> exhausted (wrun si len B N k x s).
Proof.
  induction k as [|k IH]; intros x s H; cbn [wrun]; auto. destruct H as ([W|W] & Q & T); unfold wlabel; rewrite W.
  - unfold Prefetch.pstep. rewrite W. apply IH. split; [right; reflexivity | auto].
  - split; auto.
Qed.

(** A worker step only adds to the queue. *)
Lemma queue_grows : forall k s, p_queue s <> [] -> p_worker s <> WForce -> p_queue (wrun si len B N k false s) <> [].
Proof.
  induction k as [|k IH]; intros s H NF; cbn [wrun]; auto.
  destruct (wlabel si len B N false s) as [l|] eqn:L; auto. destruct (pstep s l) as [[e s']|] eqn:P; auto.
  unfold wlabel in L. destruct (p_worker s) eqn:W; try discriminate; try congruence.
  - injection L as <-. unfold Prefetch.pstep in P. rewrite W in P. destruct (p_stop s); injection P as <- <-; apply IH; cbn; auto; discriminate.
  - injection L as <-. unfold Prefetch.pstep in P. rewrite W in P. injection P as <- <-. unfold fetch.
    destruct (sc_get sc (p_sched s)) as [r u]. destruct r; try (apply IH; cbn; auto; discriminate).
    destruct (sc_len sc); [destruct (sc_next sc u)|]; apply IH; cbn; auto; discriminate.
  - destruct (List.length (p_queue s) <? N) eqn:R; [|discriminate]. injection L as <-. unfold Prefetch.pstep in P. rewrite W, R in P.
    injection P as <- <-. apply IH; cbn; [|discriminate]. destruct (p_queue s); discriminate.
  - destruct (List.length (p_queue s) <? N) eqn:R; [|discriminate]. injection L as <-. unfold Prefetch.pstep in P. rewrite W, R in P.
    injection P as <- <-. apply IH; cbn; [|discriminate]. destruct (p_queue s); discriminate.
  - injection L as <-. unfold Prefetch.pstep in P. rewrite W in P. injection P as <- <-. apply IH; cbn; auto. discriminate.
Qed.

Lemma wrun_check : forall k s, p_worker s = WCheck -> p_stop s = false ->
  wrun si len B N (S k) false s = wrun si len B N k false (set_worker sc s WFetch).
Proof. intros k s W S. cbn [wrun]. unfold wlabel. rewrite W. unfold Prefetch.pstep. rewrite W, S. reflexivity. Qed.
Lemma wrun_fetch : forall k s, p_worker s = WFetch -> wrun si len B N (S k) false s = wrun si len B N k false (fetch sc s).
Proof. intros k s W. cbn [wrun]. unfold wlabel. rewrite W. unfold Prefetch.pstep. rewrite W. reflexivity. Qed.

Lemma arrives_put : forall k s b, p_worker s = WPut b -> p_queue s = [] -> p_queue (wrun si len B N (S k) false s) <> [].
Proof.
  intros k s b W Q. cbn [wrun]. unfold wlabel. rewrite W, Q. cbn [List.length].
  assert (R : (0 <? N) = true) by (apply Nat.ltb_lt; lia). rewrite R. unfold Prefetch.pstep. rewrite W, Q. cbn [List.length]. rewrite R.
  apply queue_grows; discriminate.
Qed.
Lemma arrives_eos : forall k s, p_worker s = WEosPut -> p_queue s = [] -> p_queue (wrun si len B N (S k) false s) <> [].
Proof.
  intros k s W Q. cbn [wrun]. unfold wlabel. rewrite W, Q. cbn [List.length].
  assert (R : (0 <? N) = true) by (apply Nat.ltb_lt; lia). rewrite R. unfold Prefetch.pstep. rewrite W, Q. cbn [List.length]. rewrite R.
  apply queue_grows; discriminate.
Qed.
Lemma arrives_fetch : forall k (s : pst sc) g, p_worker s = WFetch -> p_stop s = false -> p_queue s = [] -> src (p_sched s) g ->
  p_queue (wrun si len B N (4 + k) false s) <> [].
Proof.
  intros k s g W S Q H. change (4 + k) with (Datatypes.S (3 + k)). rewrite wrun_fetch by exact W. unfold fetch.
  destruct (live_or_last _ _ H) as [L|L].
  - destruct (feeds _ _ H L) as [(u' & G & _) | (u1 & u2 & u3 & NE & G & X & _ & G' & _)]; rewrite G.
    + eapply (arrives_put (2 + k)); [reflexivity | exact Q].
    + rewrite X. change (sc_len sc) with len. rewrite (given_len NE).
      change (3 + k) with (Datatypes.S (2 + k)). rewrite wrun_check; [|reflexivity | exact S].
      change (2 + k) with (Datatypes.S (1 + k)). rewrite wrun_fetch by reflexivity. unfold fetch. cbn [p_sched set_worker Prefetch.set_sched]. rewrite G'.
      eapply (arrives_put k); [reflexivity | exact Q].
  - destruct (ends _ _ L H) as (u' & G). rewrite G. eapply (arrives_eos (2 + k)); [reflexivity | exact Q].
Qed.

Lemma arrives : forall k g (s : pst sc), holds g s -> p_started s = true -> 5 <= k -> p_queue (wrun si len B N k false s) <> [].
Proof.
  intros k g s H T Hk. destruct (p_queue s) eqn:Q.
  2:{ apply queue_grows; [rewrite Q; discriminate|]. intros W. unfold holds in H. rewrite W in H. exact H. }
  unfold holds in H. destruct (p_worker s) eqn:W.
  - destruct H as (H & _). congruence.
  - destruct H as (_ & S & f & H1 & H2 & H3). replace k with (Datatypes.S (4 + (k - 5))) by lia. rewrite wrun_check by assumption.
    eapply arrives_fetch; [reflexivity | exact S | exact Q | exact H3].
  - destruct H as (_ & S & f & H1 & H2 & H3). replace k with (4 + (k - 4)) by lia. eapply arrives_fetch; eauto.
  - replace k with (S (k - 1)) by lia. eapply arrives_put; eauto.
  - replace k with (S (k - 1)) by lia. eapply arrives_eos; eauto.
  - destruct H.
  - destruct H as (_ & j & _ & _ & E). rewrite Q in E. destruct (pending g j); discriminate.
  - destruct H as (_ & j & _ & _ & E). rewrite Q in E. destruct (pending g j); discriminate.
  - destruct H.
Qed.

(** Taking what has arrived. *)
Lemma holds_head : forall g s i q, holds g s -> p_queue s = i :: q ->
  (i = Data (D g) /\ live g /\ forall t c, holds (S g) (Prefetch.set_pc sc (Prefetch.set_t sc (Prefetch.set_queue sc s q) t) c)) \/
  (i = EOS /\ J = Some g /\ forall t c, exhausted (Prefetch.set_pc sc (Prefetch.set_t sc (Prefetch.set_queue sc s q) t) c)).
Proof.
  intros g s i q H Q. unfold holds in H.
  assert (LV : forall f, src (p_sched s) f -> g < f -> live g).
  { intros f Hs Hf. unfold live. case_eq J; [intros j EJ | auto]. pose proof (bounded _ _ _ Hs EJ). lia. }
  destruct (p_worker s) eqn:W.
  - destruct H as (_ & _ & H & _). congruence.
  - destruct H as (H1 & H2 & f & H3 & H4 & H5). rewrite Q in H4. destruct (Nat.eq_dec f g) as [->|NE]; [rewrite pending_nil in H4 by lia; discriminate|].
    rewrite pending_cons in H4 by lia. injection H4 as -> ->. left. split; auto. split; [eapply LV; eauto; lia|].
    intros t c. unfold holds. cbn. rewrite W. repeat split; auto. exists f. repeat split; auto; lia.
  - destruct H as (H1 & H2 & f & H3 & H4 & H5). rewrite Q in H4. destruct (Nat.eq_dec f g) as [->|NE]; [rewrite pending_nil in H4 by lia; discriminate|].
    rewrite pending_cons in H4 by lia. injection H4 as -> ->. left. split; auto. split; [eapply LV; eauto; lia|].
    intros t c. unfold holds. cbn. rewrite W. repeat split; auto. exists f. repeat split; auto; lia.
  - destruct H as (H1 & H2 & f & H3 & H4 & H5 & H6 & H7). rewrite Q in H4. destruct (Nat.eq_dec f g) as [->|NE]; [rewrite pending_nil in H4 by lia; discriminate|].
    rewrite pending_cons in H4 by lia. injection H4 as -> ->. left. split; auto. split; [eapply LV; eauto; lia|].
    intros t c. unfold holds. cbn. rewrite W. repeat split; auto. exists f. repeat split; auto; lia.
  - destruct H as (H1 & H2 & j & H3 & H4 & H5). rewrite Q in H5. destruct (Nat.eq_dec j g) as [->|NE]; [rewrite pending_nil in H5 by lia; discriminate|].
    rewrite pending_cons in H5 by lia. injection H5 as -> ->. left. split; auto. split; [unfold live; rewrite H3; lia|].
    intros t c. unfold holds. cbn. rewrite W. repeat split; auto. exists j. repeat split; auto; lia.
  - destruct H.
  - destruct H as (H1 & j & H3 & H4 & H5). rewrite Q in H5. destruct (Nat.eq_dec j g) as [->|NE].
    + rewrite pending_nil in H5 by lia. injection H5 as -> ->. right. split; auto. split; auto. intros t c. split; [cbn; auto|]. split; auto.
    + rewrite pending_cons in H5 by lia. injection H5 as -> ->. left. split; auto. split; [unfold live; rewrite H3; lia|].
      intros t c. unfold holds. cbn. rewrite W. split; auto. exists j. repeat split; auto; lia.
  - destruct H as (H1 & j & H3 & H4 & H5). rewrite Q in H5. destruct (Nat.eq_dec j g) as [->|NE].
    + rewrite pending_nil in H5 by lia. injection H5 as -> ->. right. split; auto. split; auto. intros t c. split; [cbn; auto|]. split; auto.
    + rewrite pending_cons in H5 by lia. injection H5 as -> ->. left. split; auto. split; [unfold live; rewrite H3; lia|].
      intros t c. unfold holds. cbn. rewrite W. split; auto. exists j. repeat split; auto; lia.
  - destruct H.
Qed.

Lemma holds_pc : forall g s c, holds g s -> holds g (Prefetch.set_pc sc s c).
Proof. intros g s c H. exact H. Qed.
Lemma holds_t : forall g s t, holds g s -> holds g (Prefetch.set_t sc s t).
Proof. intros g s t H. exact H. Qed.
Lemma holds_start : forall g s, holds g s -> holds g (start sc s).
Proof.
  intros g s H. unfold start. destruct (p_started s) eqn:T; [exact H|]. unfold holds in *. cbn.
  destruct (p_worker s); try (destruct H as (H & _); congruence); try destruct H.
  destruct H0 as (H1 & H2 & H3). repeat split; auto. exists g. rewrite pending_nil by lia. auto.
Qed.

Lemma pf_get_data : forall g u, holds g (t_st u) -> p_pc (t_st u) = CIdle -> prompt (t_time u) ->
  (forall L, len = Some L -> p_t (t_st u) < L) ->
  exists s', p_pc s' = CIdle /\ p_t s' = S (p_t (t_st u)) /\ p_started s' = true /\
    ((live g /\ pf_get si len B N B u = (Ok (D g), mkTst s' (later (t_time u) 1)) /\ holds (S g) s') \/
     (J = Some g /\ pf_get si len B N B u = (Err StopIteration, mkTst s' (later (t_time u) 1)) /\ exhausted s')).
Proof.
  intros g u H P PR HT. unfold pf_get. set (tm := t_time u) in *. destruct (PR 0) as (P5 & PF0 & PF1).
  destruct (wait_exec si len B N (fst (tm 0)) (t_st u)) as (_ & _ & _ & _ & _ & P0 & T0 & _ & _).
  assert (H0 : holds g (wait si len B N (fst (tm 0)) (t_st u))) by (unfold wait; fold tm in PF0; rewrite PF0; apply holds_wrun, H).
  set (s0 := wait si len B N (fst (tm 0)) (t_st u)) in *.
  assert (E1 : pstep s0 (LCallGet B) = Some ([], Prefetch.set_pc sc (start sc s0) CGet)).
  { unfold Prefetch.pstep. rewrite P0, P. unfold call_get. rewrite Nat.eqb_refl. change (sc_len sc) with len. rewrite start_t, T0.
    f_equal. apply in_episode, HT. }
  rewrite E1. set (s1 := Prefetch.set_pc sc (start sc s0) CGet) in *.
  assert (H1 : holds g s1) by (apply holds_pc, holds_start, H0).
  assert (T1 : p_started s1 = true) by (unfold s1; cbn; destruct (start_fields sc s0) as (_ & _ & _ & _ & E & _); exact E).
  destruct (wait_exec si len B N (snd (tm 0)) s1) as (_ & _ & _ & _ & _ & P2 & T2 & S2 & _).
  assert (H2 : holds g (wait si len B N (snd (tm 0)) s1)) by (unfold wait; fold tm in PF1; rewrite PF1; apply holds_wrun, H1).
  assert (Q2 : p_queue (wait si len B N (snd (tm 0)) s1) <> []) by (unfold wait; fold tm in PF1; rewrite PF1; eapply arrives; eauto).
  set (s2 := wait si len B N (snd (tm 0)) s1) in *.
  destruct (p_queue s2) as [|i q] eqn:Q; [congruence|].
  assert (ET : pstep s2 LTake = Some (take sc i q s2)) by (unfold Prefetch.pstep; rewrite P2, Q; reflexivity).
  rewrite ET. unfold take. exists (Prefetch.set_pc sc (Prefetch.set_t sc (Prefetch.set_queue sc s2 q) (S (p_t s2))) CIdle).
  split; [reflexivity|]. split; [cbn; rewrite T2; unfold s1; cbn; rewrite start_t; congruence|]. split; [cbn; congruence|].
  destruct (holds_head _ _ _ _ H2 Q) as [(-> & LV & K) | (-> & EJ & K)]; [left | right]; auto.
Qed.

Lemma pf_get_exhausted : forall n u, exhausted (t_st u) -> p_pc (t_st u) = CIdle -> len = None ->
  n = B -> exists u', pf_get si len B N n u = (Err StopIteration, u') /\ exhausted (t_st u') /\ p_pc (t_st u') = CIdle.
Proof.
  intros n u H P EL ->. unfold pf_get. set (tm := t_time u) in *.
  destruct (wait_exec si len B N (fst (tm 0)) (t_st u)) as (_ & _ & _ & _ & _ & P0 & _ & _ & _).
  assert (H0 : exhausted (wait si len B N (fst (tm 0)) (t_st u))) by (apply exhausted_wrun, H).
  set (s0 := wait si len B N (fst (tm 0)) (t_st u)) in *.
  assert (E1 : pstep s0 (LCallGet B) = Some ([], Prefetch.set_pc sc s0 CGet)).
  { unfold Prefetch.pstep. rewrite P0, P. unfold call_get. rewrite Nat.eqb_refl. change (sc_len sc) with len.
    f_equal. rewrite in_episode by (intros L0 E0; congruence). unfold start. destruct H0 as (_ & _ & ->). reflexivity. }
  rewrite E1. set (s1 := Prefetch.set_pc sc s0 CGet) in *.
  assert (H1 : exhausted s1) by exact H0.
  destruct (wait_exec si len B N (snd (tm 0)) s1) as (_ & _ & _ & _ & _ & P2 & _ & _ & _).
  assert (H2 : exhausted (wait si len B N (snd (tm 0)) s1)) by (apply exhausted_wrun, H1).
  set (s2 := wait si len B N (snd (tm 0)) s1) in *. pose proof H2 as (_ & Q & _).
  assert (ET : pstep s2 LTake = None) by (unfold Prefetch.pstep; rewrite P2, Q; reflexivity).
  assert (EO : pstep s2 LTimeout = Some ([EvStopTimeout], Prefetch.set_pc sc s2 CIdle)) by (unfold Prefetch.pstep; rewrite P2, Q; reflexivity).
  rewrite ET, EO. eexists. split; [reflexivity|]. split; [exact H2 | reflexivity].
Qed.

(** Leaving an episode early. *)
Lemma pf_discard_data : forall k s tm n g, holds g s -> p_started s = true -> p_pc s = CDiscard n -> 1 <= n <= k -> prompt tm -> J = None ->
  exists s' tm', pf_discard si len B N k s tm = mkTst s' tm' /\ prompt tm' /\ holds (g + n) s' /\ p_pc s' = CIdle /\ p_t s' = 0 /\ p_started s' = true.
Proof.
  induction k as [|k IH]; intros s tm n g H T P Hn PR NJ; [lia|]. cbn [pf_discard]. rewrite P. destruct (PR 0) as (P5 & PF0 & PF1).
  destruct (wait_exec si len B N (snd (tm 0)) s) as (_ & _ & _ & _ & _ & P0 & T0 & S0 & _).
  assert (H0 : holds g (wait si len B N (snd (tm 0)) s)) by (unfold wait; rewrite PF1; apply holds_wrun, H).
  assert (Q0 : p_queue (wait si len B N (snd (tm 0)) s) <> []) by (unfold wait; rewrite PF1; eapply arrives; eauto).
  rewrite PF1. set (s0 := wait si len B N (snd (tm 0)) s) in *. destruct (p_queue s0) as [|i q] eqn:Q; [congruence|].
  assert (ED : pstep s0 LDiscard = Some (discard sc n i q s0)) by (unfold Prefetch.pstep; rewrite P0, P, Q; reflexivity).
  rewrite ED. destruct (holds_head _ _ _ _ H0 Q) as [(-> & _ & K) | (_ & E & _)]; [|congruence].
  unfold discard. destruct (n <=? 1) eqn:E1.
  - apply Nat.leb_le in E1. assert (n = 1) by lia. subst n. exists (Prefetch.set_pc sc (Prefetch.set_t sc (Prefetch.set_queue sc s0 q) 0) CIdle), (later tm 1).
    split; [destruct k; reflexivity|]. split; [apply prompt_later, PR|]. rewrite Nat.add_1_r. split; [apply K|]. repeat split. cbn. congruence.
  - apply Nat.leb_gt in E1.
    destruct (IH (Prefetch.set_pc sc (Prefetch.set_queue sc s0 q) (CDiscard (n - 1))) (later tm 1) (n - 1) (S g)) as (s' & tm' & I1 & I2 & I3 & I4);
      try (apply prompt_later, PR); auto; try lia.
    + apply (K (p_t s0) (CDiscard (n - 1))).
    + cbn; congruence.
    + exists s', tm'. split; [exact I1|]. split; [exact I2|]. split; [|exact I4]. replace (g + n) with (S g + (n - 1)) by lia. exact I3.
Qed.

Lemma pf_next_data : forall u g L, holds g (t_st u) -> p_started (t_st u) = true -> p_pc (t_st u) = CIdle -> prompt (t_time u) -> J = None ->
  len = Some L -> p_t (t_st u) <= L ->
  exists s' tm', pf_next si len B N u = (Ok tt, mkTst s' tm') /\ prompt tm' /\ holds (g + (L - p_t (t_st u))) s' /\ p_pc s' = CIdle /\ p_t s' = 0 /\ p_started s' = true.
Proof.
  intros u g L H T P PR NJ EL HT. unfold pf_next. set (tm := t_time u) in *. destruct (PR 0) as (P5 & PF0 & PF1).
  destruct (wait_exec si len B N (fst (tm 0)) (t_st u)) as (_ & _ & _ & _ & _ & P0 & T0 & S0 & _).
  assert (H0 : holds g (wait si len B N (fst (tm 0)) (t_st u))) by (unfold wait; fold tm in PF0; rewrite PF0; apply holds_wrun, H).
  set (s0 := wait si len B N (fst (tm 0)) (t_st u)) in *.
  assert (EM : match len with Some L => L | None => 0 end = L) by (clear - EL; rewrite EL; reflexivity). rewrite EM.
  destruct (Nat.eq_dec (p_t (t_st u)) L) as [HL|HL].
  - assert (E1 : pstep s0 LCallNext = Some ([EvNext], Prefetch.set_t sc s0 0)).
    { unfold Prefetch.pstep. rewrite P0, P. unfold call_next. change (sc_len sc) with len.
      rewrite T0, HL, S0, T. unfold start. rewrite S0, T. f_equal. apply (match_len L EL). rewrite Nat.ltb_irrefl. reflexivity. }
    rewrite E1. exists (Prefetch.set_t sc s0 0), (later tm 1).
    split; [f_equal; destruct L; [reflexivity|]; cbn [pf_discard]; cbn [p_pc Prefetch.set_t]; rewrite P0, P; reflexivity|].
    split; [apply prompt_later, PR|]. replace (g + (L - p_t (t_st u))) with g by lia. split; [exact H0|]. cbn. repeat split; congruence.
  - assert (E1 : pstep s0 LCallNext = Some ([], Prefetch.set_pc sc s0 (CDiscard (L - p_t (t_st u))))).
    { unfold Prefetch.pstep. rewrite P0, P. unfold call_next. change (sc_len sc) with len. rewrite S0, T, T0. f_equal. apply (match_len L EL).
      assert ((p_t (t_st u) <? L) = true) as -> by (apply Nat.ltb_lt; lia). reflexivity. }
    rewrite E1.
    destruct (pf_discard_data L (Prefetch.set_pc sc s0 (CDiscard (L - p_t (t_st u)))) (later tm 1) (L - p_t (t_st u)) g) as (s' & tm' & I1 & I2 & I3 & I4);
      auto; try lia; try (apply prompt_later, PR); try (cbn; congruence).
    exists s', tm'. rewrite I1. auto.
Qed.
End KeepsUp.

(** * What the consumer of a prefetcher sees, if the thread keeps up *)

Fixpoint after (si : sif) (n : nat) (u : si_state si) (j : nat) : si_state si :=
  match j with 0 => u | S j => snd (si_get si n (after si n u j)) end.

Lemma sched_get_ok : forall si len B u d u', si_get si B u = (Ok d, u') -> sc_get (sched_of si len B) u = (GBatch d, u').
Proof. intros si len B u d u' H. cbn. rewrite H. reflexivity. Qed.

Lemma prefetch_upto : forall si B N J u D S_ tm, 1 <= N -> prompt tm -> delivers_upto si B J u D S_ ->
  exists S', delivers_upto (prefetch_sif si None B N) B J (mkTst (pinit (sched_of si None B) u) tm) D S' /\
    forall j, calm si None B N (S' j).
Proof.
  intros si B N J u D S_ tm HN PR (D0 & D1 & D2).
  set (src := fun v g => v = S_ g /\ g <= J).
  assert (FE : forall v g, src v g -> live (Some J) g ->
    (exists u', sc_get (sched_of si None B) v = (GBatch (D g), u') /\ src u' (S g)) \/
    (exists u1 u2 u3, (None : option nat) <> None /\ sc_get (sched_of si None B) v = (GEpisodeEnd, u1) /\ sc_next (sched_of si None B) u1 = Some u2 /\
       src u2 g /\ sc_get (sched_of si None B) u2 = (GBatch (D g), u3) /\ src u3 (S g))).
  { intros v g [-> Hg] L. cbn in L. left. exists (S_ (g + 1)). split; [apply sched_get_ok, D1, L|]. split; [f_equal; lia | lia]. }
  assert (EN : forall v j, Some J = Some j -> src v j -> exists u', sc_get (sched_of si None B) v = (GStop, u')).
  { intros v j [= <-] [-> _]. exists (S_ (J + 1)). cbn. rewrite D2 by lia. reflexivity. }
  assert (BD : forall v g j, src v g -> Some J = Some j -> g <= j) by (intros v g j [_ H] [= <-]; exact H).
  set (psi := prefetch_sif si None B N). set (u0 := mkTst (pinit (sched_of si None B) u) tm : si_state psi).
  pose (K := fun j (x : tst si None B) => p_pc (t_st x) = CIdle /\
     ((j <= J /\ prompt (t_time x) /\ holds si None B (Some J) D src j (t_st x)) \/ (J < j /\ exhausted si None B (t_st x)))).
  assert (ST : forall j x, K j x ->
    (j < J -> exists x', pf_get si None B N B x = (Ok (D j), x') /\ K (S j) x') /\
    (J <= j -> exists x', pf_get si None B N B x = (Err StopIteration, x') /\ K (S j) x')).
  { intros j x (P & [(Hj & PX & H) | (Hj & H)]).
    - destruct (pf_get_data si None B N HN (Some J) D src FE EN BD j x H P PX ltac:(discriminate)) as (s' & P' & _ & _ & [(L & E & H') | (EJ & E & H')]).
      + cbn in L. split; [|lia]. intros _. eexists; split; [exact E|]. split; [exact P'|]. left. split; [lia|]. split; [apply prompt_later, PX | exact H'].
      + injection EJ as ->. split; [lia|]. intros _. eexists; split; [exact E|]. split; [exact P'|]. right. split; [lia | exact H'].
    - split; [lia|]. intros _. destruct (pf_get_exhausted si None B N B x H P eq_refl eq_refl) as (x' & E & H' & P').
      exists x'. split; [exact E|]. split; [exact P'|]. right. split; [lia | exact H']. }
  assert (KA : forall j, K j (after psi B u0 j)).
  { induction j as [|j IH].
    - split; [reflexivity|]. left. split; [lia|]. split; [exact PR|]. unfold holds. cbn. repeat split; auto; try lia.
    - cbn [after]. change (si_get psi B) with (pf_get si None B N B). destruct (ST _ _ IH) as [A1 A2].
      destruct (Nat.lt_ge_cases j J) as [L|L]; [destruct (A1 L) as (x' & -> & H) | destruct (A2 L) as (x' & -> & H)]; exact H. }
  assert (KC : forall j, calm si None B N (after psi B u0 j)).
  { induction j as [|j IH]; [apply calm_init; exact HN|]. cbn [after].
    destruct (si_get psi B (after psi B u0 j)) as [r x] eqn:E. eapply calm_get; [exact HN | exact IH | exact E]. }
  exists (after psi B u0). split; [|exact KC]. split; [reflexivity|]. split; intros j Hj; rewrite Nat.add_1_r; cbn [after];
    change (si_get psi B) with (pf_get si None B N B); destruct (ST _ _ (KA j)) as [A1 A2].
  - destruct (A1 Hj) as (x' & E & _). rewrite E. reflexivity.
  - destruct (A2 Hj) as (x' & E & _). rewrite E. reflexivity.
Qed.

Lemma prefetch_stream : forall si B N u D S_ tm, 1 <= N -> prompt tm -> delivers si B u D S_ ->
  exists S', delivers (prefetch_sif si None B N) B (mkTst (pinit (sched_of si None B) u) tm) D S' /\
    forall j, calm si None B N (S' j).
Proof.
  intros si B N u D S_ tm HN PR (D0 & D1).
  set (src := fun v g => v = S_ g).
  assert (FE : forall v g, src v g -> live None g ->
    (exists u', sc_get (sched_of si None B) v = (GBatch (D g), u') /\ src u' (S g)) \/
    (exists u1 u2 u3, (None : option nat) <> None /\ sc_get (sched_of si None B) v = (GEpisodeEnd, u1) /\ sc_next (sched_of si None B) u1 = Some u2 /\
       src u2 g /\ sc_get (sched_of si None B) u2 = (GBatch (D g), u3) /\ src u3 (S g))).
  { intros v g -> _. left. exists (S_ (g + 1)). split; [apply sched_get_ok, D1|]. unfold src. f_equal; lia. }
  set (psi := prefetch_sif si None B N). set (u0 := mkTst (pinit (sched_of si None B) u) tm : si_state psi).
  pose (K := fun j (x : tst si None B) => p_pc (t_st x) = CIdle /\ prompt (t_time x) /\ holds si None B None D src j (t_st x)).
  assert (ST : forall j x, K j x -> exists x', pf_get si None B N B x = (Ok (D j), x') /\ K (S j) x').
  { intros j x (P & PX & H).
    destruct (pf_get_data si None B N HN None D src FE ltac:(discriminate) ltac:(discriminate) j x H P PX ltac:(discriminate)) as (s' & P' & _ & _ & [(_ & E & H') | (EJ & _)]); [|discriminate].
    eexists; split; [exact E|]. split; [exact P'|]. split; [apply prompt_later, PX | exact H']. }
  assert (KA : forall j, K j (after psi B u0 j)).
  { induction j as [|j IH].
    - split; [reflexivity|]. split; [exact PR|]. unfold holds. cbn. repeat split; auto. unfold src. congruence.
    - cbn [after]. change (si_get psi B) with (pf_get si None B N B). destruct (ST _ _ IH) as (x' & -> & H). exact H. }
  assert (KC : forall j, calm si None B N (after psi B u0 j)).
  { induction j as [|j IH]; [apply calm_init; exact HN|]. cbn [after].
    destruct (si_get psi B (after psi B u0 j)) as [r x] eqn:E. eapply calm_get; [exact HN | exact IH | exact E]. }
  exists (after psi B u0). split; [|exact KC]. split; [reflexivity|]. intros j. rewrite Nat.add_1_r. cbn [after].
  change (si_get psi B) with (pf_get si None B N B). destruct (ST _ _ (KA j)) as (x' & E & _). rewrite E. reflexivity.
Qed.

(** Episodes: the prefetcher, once started, is again an episodic scheduler
    that goes through the same episodes. *)
Section Episodes.
Variables (si : sif) (B N L : nat) (D : nat -> nat -> fdata (si_flow si) (si_img si)) (at_ : si_state si -> nat -> nat -> Prop).
Hypothesis Npos : 1 <= N.
Hypothesis Lpos : 1 <= L.
Hypothesis EP : episodic si B L D at_.
Hypothesis EE : forall u e, at_ u e L -> exists u', si_get si B u = (Err EpisodeEnd, u') /\ at_ u' e L.

Definition line (g : nat) : fdata (si_flow si) (si_img si) := D (g / L) (g mod L).
Definition on_line (u : si_state si) (g : nat) : Prop := exists e t, at_ u e t /\ g = e * L + t.
Notation sc := (sched_of si (Some L) B).

Lemma line_at : forall e t, t < L -> line (e * L + t) = D e t.
Proof.
  intros e t H. unfold line. rewrite Nat.add_comm. rewrite Nat.div_add, Nat.mod_add by lia.
  rewrite Nat.div_small, Nat.mod_small by lia. reflexivity.
Qed.

Lemma episodes_feed : forall u g, on_line u g -> live None g ->
  (exists u', sc_get sc u = (GBatch (line g), u') /\ on_line u' (S g)) \/
  (exists u1 u2 u3, Some L <> None /\ sc_get sc u = (GEpisodeEnd, u1) /\ sc_next sc u1 = Some u2 /\
     on_line u2 g /\ sc_get sc u2 = (GBatch (line g), u3) /\ on_line u3 (S g)).
Proof.
  intros u g (e & t & A & ->) _. destruct (ep_range _ _ _ _ _ EP _ _ _ A) as [R _].
  destruct (Nat.eq_dec t L) as [->|NE].
  - right. destruct (EE _ _ A) as (u1 & G1 & A1). destruct (ep_next _ _ _ _ _ EP _ _ _ A1) as (u2 & G2 & A2).
    destruct (ep_step _ _ _ _ _ EP _ _ _ A2) as (u3 & G3 & A3); [lia|].
    exists u1, u2, u3. split; [discriminate|]. cbn [sc_get sc_next sched_of]. rewrite G1, G2, G3. split; [reflexivity|]. split; [reflexivity|].
    split; [exists (S e), 0; split; [exact A2 | cbn; lia]|]. split; [|exists (S e), 1; split; [exact A3 | cbn; lia]].
    replace (e * L + L) with (S e * L + 0) by (cbn; lia). rewrite line_at by lia. reflexivity.
  - left. destruct (ep_step _ _ _ _ _ EP _ _ _ A) as (u' & G & A'); [lia|]. exists u'. split; [|exists e, (S t); split; [exact A' | lia]].
    rewrite line_at by lia. apply sched_get_ok, G.
Qed.

Definition started_at (x : tst si (Some L) B) (e t : nat) : Prop :=
  p_pc (t_st x) = CIdle /\ p_started (t_st x) = true /\ prompt (t_time x) /\ p_t (t_st x) = t /\ t <= L /\
  holds si (Some L) B None line on_line (e * L + t) (t_st x).

Lemma prefetch_episodic : episodic (prefetch_sif si (Some L) B N) B L D started_at.
Proof.
  constructor.
  - reflexivity.
  - intros u e t (_ & _ & _ & T & R & _). split; [exact R|]. cbn. unfold psteps_remaining. cbn. rewrite T. reflexivity.
  - intros u e t (P & ST & PR & T & R & H) HT.
    assert (HL : forall L', Some L = Some L' -> p_t (t_st u) < L') by (intros L' [= <-]; lia).
    destruct (pf_get_data si (Some L) B N Npos None line on_line episodes_feed ltac:(discriminate) ltac:(discriminate) _ _ H P PR HL) as (s' & P' & T' & S' & [(_ & E & H') | (EJ & _)]); [|discriminate].
    eexists; split; [cbn; rewrite E, line_at by lia; reflexivity|]. repeat split; auto; cbn; try lia; try (apply prompt_later, PR).
    rewrite Nat.add_succ_r. exact H'.
  - intros u e t (P & ST & PR & T & R & H).
    destruct (pf_next_data si (Some L) B N Npos None line on_line episodes_feed ltac:(discriminate) ltac:(discriminate) _ _ L H ST P PR eq_refl eq_refl ltac:(lia)) as (s' & tm' & E & PR' & H' & P' & T' & S').
    eexists; split; [exact E|]. repeat split; auto; try (apply PR'); cbn [t_st t_time]; try lia.
    rewrite T in H'. replace (e * L + t + (L - t)) with (S e * L + 0) in H' by (cbn; lia). exact H'.
Qed.

(** Before its first call the thread is not running: the first [get_batch]
    behaves as if it were, while the first [next_episode] only starts it. *)
Definition warmed (tm : timing) : timing := fun i => match i with 0 => ((0, false), snd (tm 0)) | S _ => tm i end.

Lemma warmed_prompt : forall tm, prompt tm -> prompt (warmed tm).
Proof. intros tm P [|i]; [|apply P]. cbn. destruct (P 0) as (A & _ & C). auto. Qed.

Lemma first_get : forall u tm, pf_get si (Some L) B N B (mkTst (pinit sc u) tm) = pf_get si (Some L) B N B (mkTst (start sc (pinit sc u)) (warmed tm)).
Proof.
  intros u tm. unfold pf_get. cbn [t_time t_st]. assert (W : wait si (Some L) B N (fst (tm 0)) (pinit sc u) = pinit sc u).
  { unfold wait. destruct (fst (fst (tm 0))); reflexivity. }
  rewrite W. change (wait si (Some L) B N (fst (warmed tm 0)) (start sc (pinit sc u))) with (start sc (pinit sc u)).
  unfold Prefetch.pstep. cbn [p_pc pinit start p_started]. unfold call_get. rewrite Nat.eqb_refl. reflexivity.
Qed.

Lemma first_next : forall u tm, pf_next si (Some L) B N (mkTst (pinit sc u) tm) = (Ok tt, mkTst (start sc (pinit sc u)) (later tm 1)).
Proof.
  intros u tm. unfold pf_next. cbn [t_time t_st]. assert (W : wait si (Some L) B N (fst (tm 0)) (pinit sc u) = pinit sc u).
  { unfold wait. destruct (fst (fst (tm 0))); reflexivity. }
  rewrite W. cbn. destruct L; reflexivity.
Qed.

Lemma started_first : forall u tm e, prompt tm -> at_ u e 0 -> started_at (mkTst (start sc (pinit sc u)) tm) e 0.
Proof.
  intros u tm e PR A. split; [reflexivity|]. split; [reflexivity|]. split; [exact PR|]. split; [reflexivity|]. split; [lia|].
  cbn [t_st]. unfold holds. cbn. repeat split. exists (e * L + 0). split; [lia|]. split; [unfold pending; rewrite Nat.sub_diag; reflexivity|]. exists e, 0. auto.
Qed.
End Episodes.
