(** What can still come out of a prefetcher that was shut down. *)
From Coq Require Import List Arith ZArith String Bool Lia.
From Verif Require Import Prelude Model.Base Model.Prefetch Spec.PrefetchSpec Proofs.PrefetchProofs Proofs.PrefetchMore
  Model.Sampler Model.Stack Spec.StackSpec Proofs.StackProofs Model.Make Model.Real Model.Shutdown Spec.ShutdownSpec.
Import ListNotations.
Local Open Scope nat_scope.

Section Machine.
Variable sc : sched.
Variables B N : nat.
Hypothesis Npos : 1 <= N.
Notation exec := (exec sc B N).
Notation pstep := (pstep sc B N).

(** What the thread may still put once the stop event is set. *)
Definition owed (s : pst sc) : nat := match p_worker s with WFetch | WPut _ => 1 | _ => 0 end.
Definition left_over (s : pst sc) : nat := List.length (queued (p_queue s)) + owed s.

Lemma queued_app : forall q1 q2 : list (item sc), queued (q1 ++ q2) = queued q1 ++ queued q2.
Proof. intros. unfold queued. apply flat_map_app. Qed.

Lemma queued_length : forall q : list (item sc), List.length (queued q) <= List.length q.
Proof. unfold queued. induction q as [|[b|] q IH]; cbn in *; lia. Qed.

Lemma handed_app : forall e1 e2 : list (event sc), handed (e1 ++ e2) = handed e1 ++ handed e2.
Proof. intros. unfold handed. apply flat_map_app. Qed.

Lemma returned_handed : forall es : list (event sc), List.length (returned es) <= List.length (handed es).
Proof. unfold returned, handed. induction es as [|e es IH]; [cbn; lia|]. destruct e; cbn in *; lia. Qed.

Lemma stopped_step : forall s l e s', stepR sc B N s l e s' -> started_iff sc s -> p_stop s = true -> l <> LResetJoin ->
  p_stop s' = true /\ List.length (handed e) + left_over s' <= left_over s.
Proof.
  intros s l e s' H I S NR. destruct (start_fields sc s) as (F1 & F2 & F3 & F4 & F5 & F6). unfold left_over, owed.
  destruct H; try congruence; (split; [cbn; rewrite ?F3; auto; fail|]); unfold queued; cbn -[flat_map List.length];
    repeat match goal with
      | K : p_queue s = _ |- _ => rewrite K; clear K
      | K : p_worker s = _ |- _ => rewrite K; clear K
    end; rewrite ?F2, ?F6, ?flat_map_app, ?app_length;
    try (match goal with x : item sc |- _ => destruct x end);
    cbn; try lia.
  all: destruct (p_started s) eqn:E; [try lia | destruct I as [I _]; rewrite (I E); cbn; lia].
Qed.

(** Everything handed over from now on is in [left_over]. *)
Lemma stopped_exec : forall s ls es s', exec s ls es s' -> basic sc N s -> p_stop s = true -> no_reset ls ->
  p_stop s' = true /\ List.length (handed es) + left_over s' <= left_over s.
Proof.
  intros s ls es s' H. pattern ls, es, s'. revert ls es s' H. apply (exec_ind_inv sc B N).
  - cbn. intros; split; [assumption|lia].
  - intros ls es s1 l e s2 HX IH H I1 S NR. unfold no_reset in *. rewrite in_app_iff in NR. cbn in NR.
    destruct IH as [S1 C]; try tauto. rewrite handed_app, app_length.
    assert (I2 : started_iff sc s1) by (apply (b_started sc N), (basic_exec sc B N Npos _ _ _ _ I1 HX)).
    destruct (stopped_step s1 l e s2 H I2 S1) as [S2 C2]; [intros ->; tauto|]. split; [exact S2|lia].
Qed.

(** While [shutdown] is past its poll, no more than a buffer's worth is left. *)
Lemma shut_left : forall s l e s', stepR sc B N s l e s' -> basic sc N s ->
  (p_pc s = CShut2 \/ p_pc s = CShut3 -> left_over s <= N) -> (p_pc s' = CShut2 \/ p_pc s' = CShut3 -> left_over s' <= N).
Proof.
  intros s l e s' H HB IH P'.
  assert (ST : p_pc s = CShut1 \/ p_pc s = CShut2 \/ p_pc s = CShut3 -> p_stop s = true) by (intros K; apply (b_pcstop _ _ _ HB); tauto).
  assert (DEC : p_pc s = CShut2 \/ p_pc s = CShut3 -> l <> LResetJoin -> left_over s' <= N).
  { intros K NR. destruct (stopped_step s l e s' H (b_started _ _ _ HB) (ST ltac:(tauto)) NR) as [_ C]. specialize (IH K). lia. }
  pose proof (b_queue _ _ _ HB) as HQ. pose proof (queued_length (p_queue s)) as QL.
  destruct (start_fields sc s) as (F1 & F2 & F3 & F4 & F5 & F6).
  destruct H; cbn in P'; rewrite ?F4 in P'; try (destruct P'; discriminate); try (destruct P'; congruence);
    try (apply DEC; [tauto|discriminate]).
  - unfold left_over, owed. cbn. rewrite H0. cbn. destruct (p_worker s); lia.
  - unfold left_over, owed. cbn. rewrite H0 in HQ. cbn in HQ. pose proof (queued_length q) as K. unfold queued in K.
    destruct (p_worker s); lia.
Qed.

Lemma shut_left_exec : forall u ls es s, exec (pinit sc u) ls es s -> p_pc s = CShut2 \/ p_pc s = CShut3 -> left_over s <= N.
Proof.
  intros u ls es s H. pattern ls, es, s. revert ls es s H. apply (exec_ind_inv sc B N).
  - cbn. intros [K|K]; discriminate.
  - intros ls es s1 l e s2 HX IH H. eapply shut_left; eauto. eapply basic_exec; [exact Npos | apply basic_init | exact HX].
Qed.

(** [shutdown] has returned. *)
Lemma shutdown_left : forall u ls es s s' e, exec (pinit sc u) ls es s -> pstep s LShutJoin = Some (e, s') ->
  p_stop s' = true /\ left_over s' <= N.
Proof.
  intros u ls es s s' e H K. apply step_R in K.
  pose proof (basic_exec sc B N Npos _ _ _ _ (basic_init sc N u) H) as HB.
  inversion K as [| | | | | | | | | | | | | |P| | | | | | | | | | | | | | | | | | | | ]; subst.
  split; [cbn; apply (b_pcstop _ _ _ HB); tauto|]. exact (shut_left_exec _ _ _ _ H (or_intror P)).
Qed.
End Machine.

Section Calls.
Variables (si : sif) (len : option nat) (B N : nat).
Hypothesis Npos : 1 <= N.
Notation sc := (sched_of si len B).
Notation basic := (basic sc N).
Notation exec := (exec sc B N).

Lemma workers_only : forall ls, Forall (fun l => worker_label l = true) ls -> no_reset ls.
Proof. intros ls H K. rewrite Forall_forall in H. specialize (H _ K). discriminate. Qed.

Lemma no_reset_app : forall a b, no_reset a -> no_reset b -> no_reset (a ++ b).
Proof. unfold no_reset. intros a b Ha Hb K. apply in_app_iff in K. tauto. Qed.

(** [shutdown] is an execution that ends with its return. *)
Lemma pf_shutdown_exec : forall u, p_pc (t_st u) = CIdle ->
  exists ls es s e, exec (t_st u) ls es s /\ pstep sc B N s LShutJoin = Some (e, t_st (pf_shutdown si len B N u)) /\
    no_reset ls /\ p_pc (t_st (pf_shutdown si len B N u)) = CIdle.
Proof.
  intros u P. unfold pf_shutdown. set (tm := t_time u).
  destruct (wait_exec si len B N (fst (tm 0)) (t_st u)) as (l0 & e0 & X0 & W0 & _ & P0 & _).
  set (s0 := wait si len B N (fst (tm 0)) (t_st u)) in *.
  destruct (pstep sc B N s0 LCallShutdown) as [[e1 s1]|] eqn:E1; [|exfalso; unfold pstep in E1; rewrite P0, P in E1; discriminate].
  assert (P1 : p_pc s1 = CShut1) by (apply step_R in E1; inversion E1; reflexivity).
  destruct (wait_exec si len B N (snd (tm 0)) s1) as (l2 & e2 & X2 & W2 & _ & P2 & _).
  set (s2 := wait si len B N (snd (tm 0)) s1) in *.
  destruct (pstep sc B N s2 LShutPoll) as [[e3 s3]|] eqn:E3;
    [|exfalso; revert E3; unfold pstep; rewrite P2, P1; destruct (poll sc s2); discriminate].
  assert (P3 : p_pc s3 = CShut2) by (apply step_R in E3; inversion E3; reflexivity).
  destruct (wait_exec si len B N (fst (tm 1)) s3) as (l4 & e4 & X4 & W4 & _ & P4 & _).
  set (s4 := wait si len B N (fst (tm 1)) s3) in *.
  destruct (pstep sc B N s4 LShutPut) as [[e5 s5]|] eqn:E5;
    [|exfalso; revert E5; unfold pstep; rewrite P4, P3; discriminate].
  assert (P5 : p_pc s5 = CShut3) by (apply step_R in E5; inversion E5; reflexivity).
  destruct (wait_exec si len B N (snd (tm 1)) s5) as (l6 & e6 & X6 & W6 & _ & P6 & _).
  set (s6 := wait si len B N (snd (tm 1)) s5) in *.
  destruct (pstep sc B N s6 LShutJoin) as [[e7 s7]|] eqn:E7; [|exfalso; unfold pstep in E7; rewrite P6, P5 in E7; discriminate].
  assert (P7 : p_pc s7 = CIdle) by (apply step_R in E7; inversion E7; reflexivity).
  exists (l0 ++ LCallShutdown :: l2 ++ LShutPoll :: l4 ++ LShutPut :: l6),
    (e0 ++ e1 ++ e2 ++ e3 ++ e4 ++ e5 ++ e6), s6, e7.
  split.
  { eapply exec_app; [exact X0|]. eapply exec_cons; [exact E1|]. eapply exec_app; [exact X2|]. eapply exec_cons; [exact E3|].
    eapply exec_app; [exact X4|]. eapply exec_cons; [exact E5|]. exact X6. }
  split; [exact E7|]. split; [|exact P7].
  assert (C : forall l ls, l <> LResetJoin -> no_reset ls -> no_reset (l :: ls)).
  { unfold no_reset. intros l ls Hl Hs [K|K]; [congruence|tauto]. }
  apply no_reset_app; [apply workers_only, W0|]. apply C; [discriminate|].
  apply no_reset_app; [apply workers_only, W2|]. apply C; [discriminate|].
  apply no_reset_app; [apply workers_only, W4|]. apply C; [discriminate|]. apply workers_only, W6.
Qed.

(** Between two calls. *)
Record ready (u : tst si len B) : Prop := mkReady {
  rd_pc : p_pc (t_st u) = CIdle;
  rd_reach : exists u0 ls es, exec (pinit sc u0) ls es (t_st u)
}.

(** Shut down, with at most [n] batches still to come. *)
Record shut (n : nat) (u : tst si len B) : Prop := mkShut {
  sh_ready : ready u;
  sh_stop : p_stop (t_st u) = true;
  sh_left : left_over sc (t_st u) <= n
}.

Lemma ready_basic : forall u, ready u -> basic (t_st u).
Proof. intros u [_ (u0 & ls & es & X)]. exact (basic_exec sc B N Npos _ _ _ _ (basic_init sc N u0) X). Qed.

Lemma ready_start : forall v tm, ready (mkTst (pinit sc v) tm).
Proof. intros v tm. constructor; [reflexivity|]. exists v, [], []. constructor. Qed.

Lemma ready_more : forall u u' ls es, ready u -> exec (t_st u) ls es (t_st u') -> p_pc (t_st u') = CIdle -> ready u'.
Proof.
  intros u u' ls es [_ (u0 & l0 & e0 & X0)] X P. constructor; [exact P|]. exists u0, (l0 ++ ls), (e0 ++ es). eapply exec_app; eauto.
Qed.

Lemma shut_more : forall n u u' ls es, shut n u -> exec (t_st u) ls es (t_st u') -> p_pc (t_st u') = CIdle -> no_reset ls ->
  List.length (handed es) <= n /\ shut (n - List.length (handed es)) u'.
Proof.
  intros n u u' ls es [R S L] X P NR. destruct (stopped_exec sc B N Npos _ _ _ _ X (ready_basic u R) S NR) as [S' C].
  split; [lia|]. constructor; [eapply ready_more; eauto | exact S' | lia].
Qed.

Lemma shut_le : forall n m u, shut n u -> n <= m -> shut m u.
Proof. intros n m u [R S L] H. constructor; auto. lia. Qed.

Lemma get_ready : forall n u, ready u -> ready (snd (pf_get si len B N n u)).
Proof.
  intros n u R. destruct (pf_get si len B N n u) as [r u'] eqn:E.
  destruct (pf_get_exec si len B N n u r u' (rd_pc _ R) E) as (ls & pre & ev & X & _ & _ & P & _). eapply ready_more; eauto.
Qed.

Lemma get_shut : forall m n u, shut m u ->
  match pf_get si len B N n u with
  | (Ok _, u') => 1 <= m /\ shut (m - 1) u'
  | (Err _, u') => shut m u'
  end.
Proof.
  intros m n u H. destruct (pf_get si len B N n u) as [r u'] eqn:E.
  destruct (pf_get_exec si len B N n u r u' (rd_pc _ (sh_ready _ _ H)) E) as (ls & pre & ev & X & SI & A & P & LB).
  assert (NR : no_reset ls). { intros K. destruct (LB _ K) as [K'|[K'|[K'|K']]]; discriminate. }
  assert (HP : handed pre = []). { clear -SI. induction SI as [|e l He _ IH]; [reflexivity|]. destruct He. exact IH. }
  destruct (shut_more m u u' ls _ H X P NR) as [L S]. unfold handed in *. rewrite flat_map_app, HP in L, S.
  destruct A; cbn in L, S; rewrite ?Nat.sub_0_r in S; auto.
Qed.

Lemma next_ready : forall u, ready u -> ready (snd (pf_next si len B N u)).
Proof.
  intros u R. destruct (pf_next si len B N u) as [r u'] eqn:E.
  destruct (pf_next_exec si len B N Npos u r u' (ready_basic u R) (rd_pc _ R) E) as (_ & ls & es & X & P & _). eapply ready_more; eauto.
Qed.

Lemma next_shut : forall m u, shut m u -> shut m (snd (pf_next si len B N u)).
Proof.
  intros m u H. pose proof (sh_ready _ _ H) as R. destruct (pf_next si len B N u) as [r u'] eqn:E.
  destruct (pf_next_exec si len B N Npos u r u' (ready_basic u R) (rd_pc _ R) E) as (_ & ls & es & X & P & _ & _ & LB).
  assert (NR : no_reset ls). { intros K. destruct (LB _ K) as [K'|[K'|[K'|K']]]; discriminate. }
  destruct (shut_more m u u' ls _ H X P NR) as [_ S]. eapply shut_le; [exact S|lia].
Qed.

Lemma reset_ready : forall u, ready u -> ready (pf_reset si len B N u).
Proof.
  intros u R. destruct (pf_reset_exec si len B N Npos u (ready_basic u R) (rd_pc _ R)) as (ls & es & v & X & E & _).
  eapply ready_more; [exact R | exact X |]. rewrite E. reflexivity.
Qed.

Lemma shutdown_shut : forall u, ready u -> shut N (pf_shutdown si len B N u).
Proof.
  intros u R. destruct (pf_shutdown_exec u (rd_pc _ R)) as (ls & es & s & e & X & J & NR & P).
  pose proof (rd_reach _ R) as (u0 & l0 & e0 & X0).
  pose proof (exec_app sc B N _ _ _ _ _ _ _ X0 X) as X1.
  destruct (shutdown_left sc B N Npos u0 _ _ _ _ _ X1 J) as [S L]. constructor; [|exact S|exact L].
  constructor; [exact P|]. exists u0, ((l0 ++ ls) ++ [LShutJoin]), ((e0 ++ es) ++ e ++ []).
  eapply exec_app; [exact X1|]. eapply exec_cons; [exact J|]. constructor.
Qed.

Lemma shutdown_again : forall m u, shut m u -> shut m (pf_shutdown si len B N u).
Proof.
  intros m u H. destruct (pf_shutdown_exec u (rd_pc _ (sh_ready _ _ H))) as (ls & es & s & e & X & J & NR & P).
  pose proof (shutdown_shut u (sh_ready _ _ H)) as [R' S' _].
  destruct (stopped_exec sc B N Npos (t_st u) (ls ++ [LShutJoin]) (es ++ e ++ []) (t_st (pf_shutdown si len B N u))) as [_ C].
  - eapply exec_app; [exact X|]. eapply exec_cons; [exact J|]. constructor.
  - exact (ready_basic u (sh_ready _ _ H)).
  - exact (sh_stop _ _ H).
  - apply no_reset_app; [exact NR|]. intros [K|[]]; discriminate.
  - constructor; auto. pose proof (sh_left _ _ H). lia.
Qed.
End Calls.

(** * The samplers *)
Section Samplers.
Variables (si : sif) (len : option nat) (B N : nat).
Hypothesis Npos : 1 <= N.
Notation psi := (prefetch_sif si len B N).
Notation off := (pf_shutdown si len B N).
Notation ready := (ready si len B N).
Notation shut := (shut si len B N).

Lemma rget_ready : forall b u, ready u -> ready (snd (real_next psi b u)).
Proof.
  intros b u R. unfold real_next, sampler_next. destruct (si_protocol psi && (si_steps psi u =? 0)%Z); [exact R|].
  unfold real_get_next. change (si_get psi) with (pf_get si len B N). pose proof (get_ready si len B N b u R) as R'.
  destruct (pf_get si len B N b u) as [[[fl i1 i2 mk fs]|e] u']; [|exact R']. cbn [fd_images1 fd_images2].
  destruct i1; [|exact R']. destruct i2; exact R'.
Qed.

Lemma rget_shut : forall m b u, shut m u ->
  match real_next psi b u with
  | (Ok _, u') => 1 <= m /\ shut (m - 1) u'
  | (Err _, u') => shut m u'
  end.
Proof.
  intros m b u H. unfold real_next, sampler_next. destruct (si_protocol psi && (si_steps psi u =? 0)%Z); [exact H|].
  unfold real_get_next. change (si_get psi) with (pf_get si len B N). pose proof (get_shut si len B N Npos m b u H) as R'.
  destruct (pf_get si len B N b u) as [[[fl i1 i2 mk fs]|e] u']; [|exact R']. cbn [fd_images1 fd_images2].
  destruct R' as [M R']. destruct i1; [|eapply shut_le; [exact Npos|exact R'|lia]]. destruct i2; [auto|eapply shut_le; [exact Npos|exact R'|lia]].
Qed.

Lemma rcall_ready : forall b o u, ready u -> ready (snd (do_rcall psi off b o u)).
Proof.
  intros b [[|r|]|] u R; cbn [do_rcall do_rop].
  - pose proof (rget_ready b u R) as H. destruct (real_next psi b u) as [[x|e] u']; exact H.
  - destruct r; cbn [real_reset snd]; [apply (reset_ready si len B N Npos u R)|exact R].
  - unfold real_next_episode. cbn [si_protocol prefetch_sif]. pose proof (next_ready si len B N Npos u R) as H.
    change (si_next psi) with (pf_next si len B N). destruct (pf_next si len B N u) as [[x|e] u']; exact H.
  - apply (sh_ready _ _ _ _ _ _ (shutdown_shut si len B N Npos u R)).
Qed.

Lemma rcalls_ready : forall b os u, ready u -> ready (snd (rcalls psi off b os u)).
Proof.
  intros b os. induction os as [|o os IH]; intros u R; [exact R|]. cbn [rcalls]. pose proof (rcall_ready b o u R) as R1.
  destruct (do_rcall psi off b o u) as [r u1]. specialize (IH u1 R1). destruct (rcalls psi off b os u1). exact IH.
Qed.

Lemma rcall_shut : forall m b o u, shut m u -> o <> Call (SReset true) ->
  match do_rcall psi off b o u with
  | (SBatch _, u') => 1 <= m /\ shut (m - 1) u'
  | (_, u') => shut m u'
  end.
Proof.
  intros m b [[|r|]|] u H NR; cbn [do_rcall do_rop].
  - pose proof (rget_shut m b u H) as K. destruct (real_next psi b u) as [[x|e] u']; exact K.
  - destruct r; [congruence|]. exact H.
  - unfold real_next_episode. cbn [si_protocol prefetch_sif]. pose proof (next_shut si len B N Npos m u H) as K.
    change (si_next psi) with (pf_next si len B N). destruct (pf_next si len B N u) as [[x|e] u']; exact K.
  - apply (shutdown_again si len B N Npos m u H).
Qed.

Lemma rcalls_shut : forall b os m u, shut m u -> ~ In (Call (SReset true)) os ->
  List.length (shown (fst (rcalls psi off b os u))) <= m.
Proof.
  intros b os. induction os as [|o os IH]; intros m u H NR; [cbn; lia|]. cbn [rcalls].
  assert (NO : o <> Call (SReset true)) by (intros ->; apply NR; left; reflexivity).
  assert (NR' : ~ In (Call (SReset true)) os) by (intros K; apply NR; right; exact K).
  pose proof (rcall_shut m b o u H NO) as S1. destruct (do_rcall psi off b o u) as [r u1].
  destruct r as [x| |e].
  - destruct S1 as [M S1]. specialize (IH (m - 1) u1 S1 NR'). destruct (rcalls psi off b os u1) as [rs u2].
    cbn [fst shown flat_map app List.length] in *. unfold shown in IH. lia.
  - specialize (IH m u1 S1 NR'). destruct (rcalls psi off b os u1) as [rs u2]. exact IH.
  - specialize (IH m u1 S1 NR'). destruct (rcalls psi off b os u1) as [rs u2]. exact IH.
Qed.

(** Synthetic images. *)
Context {oflow bflow img : Type}.
Variable c : scfg psi oflow bflow img.
Notation st := (sst psi oflow bflow).

(** Batches that the sampler can make without asking its scheduler. *)
Definition in_stock (s : st) : nat := match y_cur s with CurFlows _ _ => sc_bpf c - y_gen s | _ => 0 end.

Lemma generate_shut : forall s,
  y_sched (snd (syn_generate c s)) = y_sched s /\
  match fst (syn_generate c s) with
  | Ok _ => S (in_stock (snd (syn_generate c s))) <= Nat.max 1 (in_stock s)
  | Err _ => in_stock (snd (syn_generate c s)) = in_stock s
  end.
Proof.
  intros s. unfold syn_generate, in_stock. destruct (y_cur s) as [| |outs bounds] eqn:E; cbn [fst snd y_sched y_cur y_gen]; rewrite ?E; auto.
  destruct bounds as [|d bs]; [cbn [fst snd y_sched y_cur y_gen]; rewrite ?E; auto|].
  destruct (shard (sc_nd c) (d :: bs)); cbn [fst snd y_sched y_cur y_gen]; rewrite ?E; auto. split; [auto|]. lia.
Qed.

Lemma sget_ready : forall s : st, ready (y_sched s) -> ready (y_sched (snd (syn_next c s))).
Proof.
  intros s R. unfold syn_next, sampler_next.
  match goal with |- context [if ?b then _ else _] => destruct b end; [exact R|].
  assert (K : ready (y_sched (snd (syn_get_next c s)))).
  { unfold syn_get_next. assert (F : ready (y_sched (snd (syn_fetch c s)))).
    { unfold syn_fetch. match goal with |- context [if ?b then _ else _] => destruct b end; [|exact R].
      change (si_get psi) with (pf_get si len B N). pose proof (get_ready si len B N (sc_F c) (y_sched s) R) as R'.
      destruct (pf_get si len B N (sc_F c) (y_sched s)) as [[d|e] u']; [|exact R'].
      match goal with |- context [shard ?a ?b] => destruct (shard a b) end; exact R'. }
    destruct (syn_fetch c s) as [[x|e] s1]; [|exact F]. destruct (generate_shut s1) as [G _]. rewrite G. exact F. }
  destruct (syn_get_next c s) as [[b|e] s1]; exact K.
Qed.

Lemma sget_shut : forall m (s : st), shut m (y_sched s) -> 1 <= sc_bpf c ->
  match syn_next c s with
  | (Ok _, s') => exists m', shut m' (y_sched s') /\ m' * sc_bpf c + in_stock s' + 1 <= m * sc_bpf c + in_stock s
  | (Err _, s') => exists m', shut m' (y_sched s') /\ m' * sc_bpf c + in_stock s' <= m * sc_bpf c + in_stock s + sc_bpf c
  end.
Proof.
  intros m s H HB. unfold syn_next, sampler_next.
  match goal with |- context [if ?b then _ else _] => destruct b end; [exists m; split; [exact H|lia]|].
  assert (K : match syn_get_next c s with
    | (Ok _, s') => exists m', shut m' (y_sched s') /\ m' * sc_bpf c + in_stock s' + 1 <= m * sc_bpf c + in_stock s
    | (Err _, s') => exists m', shut m' (y_sched s') /\ m' * sc_bpf c + in_stock s' <= m * sc_bpf c + in_stock s + sc_bpf c
    end).
  2:{ destruct (syn_get_next c s) as [[b|e] s1]; exact K. }
  unfold syn_get_next, syn_fetch.
  destruct (match y_cur s with CurNone => true | _ => sc_bpf c <=? y_gen s end) eqn:FE.
  - change (si_get psi) with (pf_get si len B N). pose proof (get_shut si len B N Npos m (sc_F c) (y_sched s) H) as G.
    destruct (pf_get si len B N (sc_F c) (y_sched s)) as [[d|e] u'].
    + destruct G as [M G]. match goal with |- context [shard ?a ?b] => destruct (shard a b) as [shards|e] end.
      * match goal with |- context [syn_generate c ?s1] => set (s1' := s1); destruct (generate_shut s1') as [G1 G2] end.
        assert (E1 : in_stock s1' = sc_bpf c) by (unfold in_stock; cbn; lia).
        assert (MM : m * sc_bpf c = (m - 1) * sc_bpf c + sc_bpf c) by (replace m with (S (m - 1)) at 1 by lia; lia).
        destruct (syn_generate c s1') as [[b|e] s2]; cbn [fst snd] in G1, G2; exists (m - 1); rewrite G1; (split; [exact G|]); lia.
      * exists (m - 1). split; [exact G|]. unfold in_stock at 1. cbn [y_cur].
        assert ((m - 1) * sc_bpf c <= m * sc_bpf c) by (apply Nat.mul_le_mono_r; lia). lia.
    + exists m. split; [exact G|]. unfold in_stock at 1. cbn [y_cur y_gen]. destruct (y_cur s); lia.
  - destruct (generate_shut s) as [G1 G2].
    assert (E1 : match y_cur s with CurFlows _ _ => 1 <= in_stock s | _ => True end).
    { unfold in_stock. destruct (y_cur s); auto. apply Nat.leb_gt in FE. lia. }
    unfold syn_generate in *. destruct (y_cur s) as [| |outs bounds] eqn:EC; [discriminate| |].
    + exists m. cbn [fst snd] in *. split; [exact H|]. lia.
    + destruct bounds as [|d0 bs]; [exists m; cbn [fst snd] in *; split; [exact H|]; lia|].
      destruct (shard (sc_nd c) (d0 :: bs)); exists m; cbn [fst snd] in *; (split; [exact H|]); lia.
Qed.

Lemma scall_ready : forall o (s : st), ready (y_sched s) -> ready (y_sched (snd (do_scall c off o s))).
Proof.
  intros [[|r|]|] s R; cbn [do_scall do_sop].
  - pose proof (sget_ready s R) as H. destruct (syn_next c s) as [[x|e] s']; exact H.
  - destruct r; cbn [syn_reset snd]; [apply (reset_ready si len B N Npos _ R)|exact R].
  - unfold syn_next_episode. cbn [si_protocol prefetch_sif]. pose proof (next_ready si len B N Npos _ R) as H.
    change (si_next psi) with (pf_next si len B N). destruct (pf_next si len B N (y_sched s)) as [[x|e] u']; exact H.
  - apply (sh_ready _ _ _ _ _ _ (shutdown_shut si len B N Npos _ R)).
Qed.

Lemma scalls_ready : forall os (s : st), ready (y_sched s) -> ready (y_sched (snd (scalls c off os s))).
Proof.
  intros os. induction os as [|o os IH]; intros s R; [exact R|]. cbn [scalls]. pose proof (scall_ready o s R) as R1.
  destruct (do_scall c off o s) as [r s1]. specialize (IH s1 R1). destruct (scalls c off os s1). exact IH.
Qed.

Lemma scalls_shut : forall os m (s : st), 1 <= sc_bpf c -> shut m (y_sched s) -> ~ In (Call (SReset true)) os ->
  List.length (shown (fst (scalls c off os s))) <= m * sc_bpf c + in_stock s + sc_bpf c * raised (fst (scalls c off os s)).
Proof.
  intros os. induction os as [|o os IH]; intros m s HB H NR; [cbn; lia|]. cbn [scalls].
  assert (NR' : ~ In (Call (SReset true)) os) by (intros K; apply NR; right; exact K).
  assert (S1 : match do_scall c off o s with
    | (SBatch _, s') => exists m', shut m' (y_sched s') /\ m' * sc_bpf c + in_stock s' + 1 <= m * sc_bpf c + in_stock s
    | (SUnit, s') => exists m', shut m' (y_sched s') /\ m' * sc_bpf c + in_stock s' <= m * sc_bpf c + in_stock s
    | (SRaise _, s') => exists m', shut m' (y_sched s') /\ m' * sc_bpf c + in_stock s' <= m * sc_bpf c + in_stock s + sc_bpf c
    end).
  { destruct o as [[|r|]|]; cbn [do_scall do_sop].
    - pose proof (sget_shut m s H HB) as K. destruct (syn_next c s) as [[x|e] s']; exact K.
    - destruct r; [exfalso; apply NR; left; reflexivity|]. exists m. split; [exact H|]. unfold in_stock at 1. cbn [y_cur syn_reset syn_clear]. lia.
    - unfold syn_next_episode. cbn [si_protocol prefetch_sif]. pose proof (next_shut si len B N Npos m _ H) as K.
      change (si_next psi) with (pf_next si len B N). destruct (pf_next si len B N (y_sched s)) as [[x|e] u']; exists m;
        (split; [exact K|]); unfold in_stock; cbn [y_cur y_gen set_sched]; lia.
    - exists m. split; [exact (shutdown_again si len B N Npos m _ H)|]. unfold in_stock; cbn [y_cur y_gen set_sched]; lia. }
  destruct (do_scall c off o s) as [r s1]. destruct r as [x| |e]; destruct S1 as (m' & S1 & L); specialize (IH m' s1 HB S1 NR');
    destruct (scalls c off os s1) as [rs s2]; unfold shown, raised in *;
    cbn [fst flat_map filter app List.length] in *; lia.
Qed.

Lemma scalls_after : forall os m (s : st), 1 <= sc_bpf c -> shut m (y_sched s) -> ~ In (Call (SReset true)) os ->
  List.length (shown (fst (scalls c off os s))) <= sc_bpf c * (m + 1 + raised (fst (scalls c off os s))).
Proof.
  intros os m s HB S NR. pose proof (scalls_shut os m s HB S NR) as L.
  assert (K : in_stock s <= sc_bpf c) by (unfold in_stock; destruct (y_cur s); lia). nia.
Qed.
End Samplers.

(** * Runs *)
Lemma rcalls_snoc : forall si off b os o u,
  snd (rcalls si off b (os ++ [o]) u) = snd (do_rcall si off b o (snd (rcalls si off b os u))).
Proof.
  intros si off b os o. induction os as [|o1 os IH]; intros u; cbn [rcalls app].
  - cbn [snd]. destruct (do_rcall si off b o u); reflexivity.
  - destruct (do_rcall si off b o1 u) as [r u1]. specialize (IH u1). destruct (rcalls si off b (os ++ [o]) u1).
    destruct (rcalls si off b os u1). exact IH.
Qed.

Lemma scalls_snoc : forall si (oflow bflow img : Type) (c : scfg si oflow bflow img) off os o s,
  snd (scalls c off (os ++ [o]) s) = snd (do_scall c off o (snd (scalls c off os s))).
Proof.
  intros si oflow bflow img c off os o. induction os as [|o1 os IH]; intros s; cbn [scalls app].
  - cbn [snd]. destruct (do_scall c off o s); reflexivity.
  - destruct (do_scall c off o1 s) as [r s1]. specialize (IH s1). destruct (scalls c off (os ++ [o]) s1).
    destruct (scalls c off os s1). exact IH.
Qed.

Lemma rcalls_counts : forall si off b os u,
  count_next os <= List.length (shown (fst (rcalls si off b os u))) + raised (fst (rcalls si off b os u)).
Proof.
  intros si off b os. induction os as [|o os IH]; intros u; [cbn; lia|]. cbn [rcalls].
  assert (K : match o with Call SNext => fst (do_rcall si off b o u) <> SUnit | _ => True end).
  { destruct o as [[| |]|]; auto. cbn [do_rcall do_rop]. destruct (real_next si b u) as [[x|e] u']; discriminate. }
  destruct (do_rcall si off b o u) as [r u1]. specialize (IH u1). destruct (rcalls si off b os u1) as [rs u2]. cbn [fst] in *.
  unfold count_next, shown, raised in *. destruct o as [[| |]|], r as [x| |e]; cbn [filter flat_map app List.length] in *; try lia; congruence.
Qed.

Lemma scalls_counts : forall si (oflow bflow img : Type) (c : scfg si oflow bflow img) off os s,
  count_next os <= List.length (shown (fst (scalls c off os s))) + raised (fst (scalls c off os s)).
Proof.
  intros si oflow bflow img c off os. induction os as [|o os IH]; intros s; [cbn; lia|]. cbn [scalls].
  assert (K : match o with Call SNext => fst (do_scall c off o s) <> SUnit | _ => True end).
  { destruct o as [[| |]|]; auto. cbn [do_scall do_sop]. destruct (syn_next c s) as [[x|e] u']; discriminate. }
  destruct (do_scall c off o s) as [r s1]. specialize (IH s1). destruct (scalls c off os s1) as [rs s2]. cbn [fst] in *.
  unfold count_next, shown, raised in *. destruct o as [[| |]|], r as [x| |e]; cbn [filter flat_map app List.length] in *; try lia; congruence.
Qed.

(** * Starting again *)
Section Again.
Variables (si : sif) (len : option nat) (B N : nat).
Hypothesis Npos : 1 <= N.
Notation sc := (sched_of si len B).
Notation psi := (prefetch_sif si len B N).
Notation off := (pf_shutdown si len B N).
(** What every state of the wrapped scheduler satisfies. *)
Variable I : si_state si -> Prop.
Hypothesis I_get : forall n v, I v -> I (snd (si_get si n v)).
Hypothesis I_next : forall v, I v -> I (snd (si_next si v)).
Hypothesis I_reset : forall v, I v -> I (si_reset si v).
Variable u0 : si_state si.
Hypothesis I_start : I u0.
Hypothesis I_back : forall v, I (si_reset si v) -> si_reset si v = u0.

Lemma I_step : forall s l e s', stepR sc B N s l e s' -> I (p_sched s) -> I (p_sched s').
Proof.
  intros s l e s' H K. destruct (start_fields sc s) as (F1 & _).
  destruct H; cbn; rewrite ?F1; auto.
  all: pose proof (I_get B _ K) as K';
    assert (G : forall r v, sc_get sc (p_sched s) = (r, v) -> I v)
      by (intros r v E; cbn in E; destruct (si_get si B (p_sched s)) as [[d|[]] w]; injection E as E1 E2; rewrite <- E2; exact K').
  all: try (eapply G; eassumption).
  match goal with E : sc_get _ _ = (_, u), E2 : sc_next _ u = Some x |- _ => apply G in E; cbn in E2;
    pose proof (I_next u E) as K2; destruct (si_next si u) as [[y|y] w2]; [injection E2 as <-; exact K2 | discriminate] end.
Qed.

Lemma I_exec : forall s ls es s', exec sc B N s ls es s' -> I (p_sched s) -> I (p_sched s').
Proof.
  intros s ls es s' H. pattern ls, es, s'. revert ls es s' H. apply (exec_ind_inv sc B N); [auto|].
  intros ls es s1 l e s2 _ IH H K. eapply I_step; eauto.
Qed.

(** Time passes. *)
Definition after (tm tm' : timing) : Prop := exists k, forall i, tm' i = tm (k + i).

Lemma after_refl : forall tm, after tm tm. Proof. intros tm. exists 0. reflexivity. Qed.
Lemma after_later : forall tm k, after tm (later tm k). Proof. intros tm k. exists k. reflexivity. Qed.
Lemma after_trans : forall a b c, after a b -> after b c -> after a c.
Proof. intros a b c (k & H) (l & G). exists (k + l). intros i. rewrite G, H. f_equal. lia. Qed.
Lemma after_prompt : forall a b, after a b -> prompt a -> prompt b.
Proof. intros a b (k & H) P i. rewrite H. apply P. Qed.

Lemma get_after : forall n u, after (t_time u) (t_time (snd (pf_get si len B N n u))).
Proof.
  intros n u. unfold pf_get.
  repeat match goal with
    | |- context [match ?x with _ => _ end] => destruct x
  end; apply after_later.
Qed.

Lemma discard_after : forall k s tm, after tm (t_time (pf_discard si len B N k s tm)).
Proof.
  induction k as [|k IH]; intros s tm; cbn [pf_discard]; [apply after_refl|].
  destruct (p_pc s); try apply after_refl.
  match goal with |- context [match (if ?b then None else ?p) with _ => _ end] => destruct (if b then None else p) as [[? s1]|] end.
  - eapply after_trans; [apply (after_later tm 1)|apply IH].
  - apply after_later.
Qed.

Lemma next_after : forall u, after (t_time u) (t_time (snd (pf_next si len B N u))).
Proof.
  intros u. unfold pf_next. match goal with |- context [match ?x with _ => _ end] => destruct x as [[? s1]|] end; cbn [snd].
  - eapply after_trans; [apply (after_later _ 1)|apply discard_after].
  - apply after_later.
Qed.

Lemma reset_after : forall u, after (t_time u) (t_time (pf_reset si len B N u)).
Proof.
  intros u. unfold pf_reset. repeat match goal with |- context [match ?x with _ => _ end] => destruct x end; apply after_later.
Qed.

Lemma shutdown_after : forall u, after (t_time u) (t_time (pf_shutdown si len B N u)).
Proof.
  intros u. unfold pf_shutdown. repeat match goal with |- context [match ?x with _ => _ end] => destruct x end; apply after_later.
Qed.

(** Kept by every call. *)
Record kept (tm : timing) (u : tst si len B) : Prop := mkKept {
  kp_ready : ready si len B N u;
  kp_inner : I (p_sched (t_st u));
  kp_time : after tm (t_time u)
}.

Lemma get_kept : forall tm n u, kept tm u -> kept tm (snd (pf_get si len B N n u)).
Proof.
  intros tm n u [R K A]. constructor; [apply (get_ready si len B N n u R)| |eapply after_trans; [exact A|apply get_after]].
  destruct (pf_get si len B N n u) as [r u'] eqn:E.
  destruct (pf_get_exec si len B N n u r u' (rd_pc _ _ _ _ _ R) E) as (ls & pre & ev & X & _). eapply I_exec; eauto.
Qed.

Lemma next_kept : forall tm u, kept tm u -> kept tm (snd (pf_next si len B N u)).
Proof.
  intros tm u [R K A]. constructor; [apply (next_ready si len B N Npos u R)| |eapply after_trans; [exact A|apply next_after]].
  destruct (pf_next si len B N u) as [r u'] eqn:E.
  destruct (pf_next_exec si len B N Npos u r u' (ready_basic si len B N Npos u R) (rd_pc _ _ _ _ _ R) E) as (_ & ls & es & X & _).
  eapply I_exec; eauto.
Qed.

Lemma shutdown_kept : forall tm u, kept tm u -> kept tm (off u).
Proof.
  intros tm u [R K A]. constructor; [apply (sh_ready _ _ _ _ _ _ (shutdown_shut si len B N Npos u R))| |eapply after_trans; [exact A|apply shutdown_after]].
  destruct (pf_shutdown_exec si len B N u (rd_pc _ _ _ _ _ R)) as (ls & es & s & e & X & J & _).
  apply (step_R sc B N) in J. eapply I_step; [exact J|]. eapply I_exec; eauto.
Qed.

(** [reset] gives the state of a prefetcher just constructed. *)
Lemma reset_kept : forall tm u, kept tm u -> exists tm', pf_reset si len B N u = mkTst (pinit sc u0) tm' /\ after tm tm'.
Proof.
  intros tm u [R K A]. destruct (pf_reset_exec si len B N Npos u (ready_basic si len B N Npos u R) (rd_pc _ _ _ _ _ R)) as (ls & es & v & X & E & LB).
  pose proof (reset_after u) as A'. pose proof (I_exec _ _ _ _ X K) as K'. destruct (pf_reset si len B N u) as [s' tm']. cbn [t_st t_time] in *.
  subst s'. cbn in K'. exists tm'. split; [|eapply after_trans; eauto]. f_equal. f_equal. apply I_back. exact K'.
Qed.

Lemma start_kept : forall tm, kept tm (mkTst (pinit sc u0) tm).
Proof. intros tm. constructor; [apply ready_start | exact I_start | apply after_refl]. Qed.

Lemma rcalls_kept : forall tm b os u, kept tm u -> kept tm (snd (rcalls psi off b os u)).
Proof.
  intros tm b os. induction os as [|o os IH]; intros u K; [exact K|]. cbn [rcalls].
  assert (K1 : kept tm (snd (do_rcall psi off b o u))).
  { destruct o as [[|r|]|]; cbn [do_rcall do_rop].
    - unfold real_next, sampler_next. destruct (si_protocol psi && (si_steps psi u =? 0)%Z); [exact K|].
      unfold real_get_next. change (si_get psi) with (pf_get si len B N). pose proof (get_kept tm b u K) as R'.
      destruct (pf_get si len B N b u) as [[[fl i1 i2 mk fs]|e] u']; [|exact R']. cbn [fd_images1 fd_images2].
      destruct i1; [|exact R']. destruct i2; exact R'.
    - destruct r; cbn [real_reset snd]; [|exact K]. change (si_reset psi u) with (pf_reset si len B N u).
      destruct (reset_kept tm u K) as (tm' & -> & A). destruct (start_kept tm'). constructor; auto.
    - unfold real_next_episode. cbn [si_protocol prefetch_sif]. pose proof (next_kept tm u K) as H.
      change (si_next psi) with (pf_next si len B N). destruct (pf_next si len B N u) as [[x|e] u']; exact H.
    - exact (shutdown_kept tm u K). }
  destruct (do_rcall psi off b o u) as [r u1]. specialize (IH u1 K1). destruct (rcalls psi off b os u1). exact IH.
Qed.

Context {oflow bflow img : Type}.
Variable c : scfg psi oflow bflow img.

Lemma scalls_kept : forall tm os (s : sst psi oflow bflow), kept tm (y_sched s) -> kept tm (y_sched (snd (scalls c off os s))).
Proof.
  intros tm os. induction os as [|o os IH]; intros s K; [exact K|]. cbn [scalls].
  assert (K1 : kept tm (y_sched (snd (do_scall c off o s)))).
  { destruct o as [[|r|]|]; cbn [do_scall do_sop].
    - unfold syn_next, sampler_next.
      match goal with |- context [if ?b then _ else _] => destruct b end; [exact K|].
      assert (G : kept tm (y_sched (snd (syn_get_next c s)))).
      { unfold syn_get_next. assert (F : kept tm (y_sched (snd (syn_fetch c s)))).
        { unfold syn_fetch. match goal with |- context [if ?b then _ else _] => destruct b end; [|exact K].
          change (si_get psi) with (pf_get si len B N). pose proof (get_kept tm (sc_F c) (y_sched s) K) as R'.
          destruct (pf_get si len B N (sc_F c) (y_sched s)) as [[d|e] u']; [|exact R'].
          match goal with |- context [shard ?a ?b] => destruct (shard a b) end; exact R'. }
        destruct (syn_fetch c s) as [[x|e] s1]; [|exact F]. destruct (generate_shut si len B N Npos c s1) as [E _]. rewrite E. exact F. }
      destruct (syn_get_next c s) as [[b|e] s1]; exact G.
    - destruct r; cbn [syn_reset snd]; [|exact K]. cbn [set_sched y_sched syn_clear].
      change (si_reset psi) with (pf_reset si len B N).
      destruct (reset_kept tm _ K) as (tm' & -> & A). destruct (start_kept tm'). constructor; auto.
    - unfold syn_next_episode. cbn [si_protocol prefetch_sif]. pose proof (next_kept tm _ K) as H.
      change (si_next psi) with (pf_next si len B N). destruct (pf_next si len B N (y_sched s)) as [[x|e] u']; exact H.
    - exact (shutdown_kept tm _ K). }
  destruct (do_scall c off o s) as [r s1]. specialize (IH s1 K1). destruct (scalls c off os s1). exact IH.
Qed.
End Again.
