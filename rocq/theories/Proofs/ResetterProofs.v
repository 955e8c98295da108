(** Readers of a prefetching scheduler that another thread resets (C129). *)
From Coq Require Import List Arith Bool Lia.
From Verif Require Import Model.Prefetch Spec.PrefetchSpec Model.Readers Spec.ReadersSpec Model.Resetter Spec.ResetterSpec
  Proofs.PrefetchProofs Proofs.ReadersProofs Proofs.StopperProofs.
Import ListNotations.
Local Open Scope nat_scope.

Section P.
Variable sc : sched.
Variables B N : nat.
Notation exc := (gexec sc B N).

Lemma gexec_app : forall s ls1 es1 s1 ls2 es2 s2,
  exc s ls1 es1 s1 -> exc s1 ls2 es2 s2 -> exc s (ls1 ++ ls2) (es1 ++ es2) s2.
Proof.
  intros s ls1 es1 s1 ls2 es2 s2 H1 H2. induction H2.
  - rewrite !app_nil_r. exact H1.
  - rewrite !app_assoc. eapply gexec_snoc; eauto.
Qed.

Lemma reading_app : forall a b, @reading sc (a ++ b) = reading a ++ reading b.
Proof. intros. apply flat_map_app. Qed.
Lemma reading_map : forall e, @reading sc (map GEv e) = e.
Proof. induction e; cbn; [reflexivity|]. unfold reading in *. rewrite IHe. reflexivity. Qed.

(** The batches removed from the queue by anybody, in that order. *)
Definition ggone (es : list (gevent sc)) : list (sc_batch sc) :=
  flat_map (fun e => match e with
                     | GEv e => gone sc [e]
                     | GPolled (Data b) => [b]
                     | GCleared q => queued q
                     | _ => []
                     end) es.
Lemma ggone_app : forall a b, ggone (a ++ b) = ggone a ++ ggone b.
Proof. intros. apply flat_map_app. Qed.
Lemma ggone_map : forall e, ggone (map GEv e) = gone sc e.
Proof.
  induction e as [|a e IH]; [reflexivity|]. cbn [map ggone flat_map]. fold (ggone (map GEv e)). rewrite IH.
  change (a :: e) with ([a] ++ e). rewrite gone_app. reflexivity.
Qed.

Lemma subseq_nil_l : forall A (l : list A), subseq [] l.
Proof. induction l; constructor; assumption. Qed.

Lemma ggone_took : forall es, subseq (queued (took (reading es))) (ggone es).
Proof.
  induction es as [|e es IH]; [constructor|].
  change (e :: es) with ([e] ++ es). rewrite reading_app, took_app, queued_app, ggone_app.
  apply subseq_app; [|exact IH].
  destruct e as [e|[]|q|v|]; cbn [reading flat_map ggone app]; rewrite ?app_nil_r; try apply took_gone; apply subseq_nil_l.
Qed.

(** [since] and [restarted], one step at a time. *)
Definition is_was (e : gevent sc) : bool := match e with GWas _ => true | _ => false end.

Lemma since_keep : forall es e, forallb (fun x => negb (is_was x)) e = true -> since (es ++ e) = since es ++ e.
Proof.
  intros es e. unfold since. rewrite fold_left_app. generalize (fold_left
    (fun acc x => match x with GWas _ => [] | x => acc ++ [x] end) es (@nil (gevent sc))).
  induction e as [|a e IH]; intros acc H; cbn; [rewrite app_nil_r; reflexivity|].
  cbn in H. apply andb_prop in H as [H1 H2]. destruct a; try discriminate H1; rewrite IH by exact H2; rewrite <- app_assoc; reflexivity.
Qed.
Lemma restarted_keep : forall u es e, forallb (fun x => negb (is_was x)) e = true -> @restarted sc u (es ++ e) = restarted u es.
Proof.
  intros u es e. unfold restarted. rewrite fold_left_app.
  generalize (fold_left (fun v x => match x with GWas w => sc_reset sc w | _ => v end) es u).
  induction e as [|a e IH]; intros v H; cbn; [reflexivity|].
  cbn in H. apply andb_prop in H as [H1 H2]. destruct a; try discriminate H1; apply IH; exact H2.
Qed.
Lemma no_was_map : forall e, forallb (fun x => negb (is_was x)) (map GEv e) = true.
Proof. induction e; cbn; auto. Qed.
Lemma since_was : forall es v, @since sc (es ++ [GWas v]) = [].
Proof. intros. unfold since. rewrite fold_left_app. reflexivity. Qed.
Lemma restarted_was : forall u es v, @restarted sc u (es ++ [GWas v]) = sc_reset sc v.
Proof. intros. unfold restarted. rewrite fold_left_app. reflexivity. Qed.

(** Once the old thread is joined nothing is put into the queue. *)
Definition quiet (c : gpc) (p : pst sc) : Prop :=
  (joined c = true -> alive (p_worker p) = false) /\
  (joined c = true -> c <> GClear -> p_queue p = []).

Definition cons1 (u : sc_state sc) (n dr : nat) (g : list (sc_batch sc)) (p : pst sc) : Prop := conserved_k sc N u n dr g p.

Lemma greader_rstep : forall s l e r', greader sc B N s l = Some (e, r') ->
  rstep sc B N (g_r s) l = Some (e, r') \/
  (exists i, l = RExpire i /\ e = [RStopTimeout i] /\ r_sh r' = r_sh (g_r s)).
Proof.
  intros s l e r' H. destruct l as [i m|i|i|l]; cbn [greader] in H; auto.
  - left. destruct (r_pc (g_r s) i); auto.
    + destruct (p_worker (r_sh (g_r s))); auto. destruct (joined (g_pc s)); [discriminate|exact H].
    + destruct (p_worker (r_sh (g_r s))); auto; destruct (g_old s i); try discriminate; exact H.
  - destruct (now_waits (g_r s) i && g_old s i); [|auto]. injection H as <- <-. right. exists i. auto.
Qed.

Lemma quiet_reader : forall s l e r', greader sc B N s l = Some (e, r') -> quiet (g_pc s) (r_sh (g_r s)) ->
  quiet (g_pc s) (r_sh r') /\ (joined (g_pc s) = true -> p_queue (r_sh (g_r s)) = [] -> gone sc e = []).
Proof.
  intros s l e r' H [A Q]. destruct (joined (g_pc s)) eqn:J; [|split; [split|]; intros; congruence].
  specialize (A eq_refl).
  assert (X : alive (p_worker (r_sh r')) = false /\ (p_queue (r_sh (g_r s)) = [] -> p_queue (r_sh r') = [] /\ gone sc e = [])).
  { set (r := g_r s) in *. destruct l as [i m|i|i|l]; cbn [greader] in H.
    - cbn [rstep] in H. fold r in H. destruct (r_pc r i); try discriminate. destruct (m =? B); injection H as <- <-; auto.
    - fold r in H. destruct (r_pc r i) as [| | | | | |x|x t|x] eqn:PC; cbn [rstep] in H; fold r in H; rewrite ?PC in H; try discriminate.
      + injection H as <- <-. auto.
      + injection H as <- <-. auto.
      + rewrite J in H. destruct (p_worker (r_sh r)) eqn:W; try discriminate; injection H as <- <-; cbn; rewrite W; auto.
      + destruct (sc_len sc) as [L|]; [destruct (L <=? p_t (r_sh r))|]; injection H as <- <-; auto.
      + assert (H' : match p_queue (r_sh r) with
                     | [] => None
                     | x :: q => Some ([RTook i x], mkR (set_queue sc (r_sh r) q) (goes r i (RHas x))) end = Some (e, r')).
        { destruct (p_worker (r_sh r)); destruct (g_old s i); try discriminate; exact H. }
        destruct (p_queue (r_sh r)) as [|x q]; [discriminate|]. injection H' as <- <-. split; [exact A|]. discriminate.
      + injection H as <- <-. auto.
      + injection H as <- <-. auto.
      + destruct x; injection H as <- <-; auto.
    - fold r in H. destruct (now_waits r i && g_old s i).
      + injection H as <- <-. auto.
      + cbn [rstep] in H. destruct (r_pc r i); try discriminate. destruct (p_queue (r_sh r)) eqn:QQ; [|discriminate]. injection H as <- <-. auto.
    - cbn [rstep] in H. fold r in H. destruct (worker_label l) eqn:WL; [|discriminate].
      destruct (pstep sc B N (r_sh r) l) as [[e1 p']|] eqn:PS; [|discriminate]. exfalso.
      destruct l; try discriminate WL; cbn [pstep] in PS; destruct (p_worker (r_sh r)); discriminate. }
  destruct X as [X1 X2]. split; [split; intros|]; auto.
  - apply X2. auto.
  - intros _ E. apply X2, E.
Qed.

(** Between lines 211 and 216. *)
Definition renewed (c : gpc) : bool :=
  match c with GCount | GFlag | GUnset | GQueue | GThread => true | _ => false end.
(** Outside lines 196 to 211. *)
Definition outside (c : gpc) : bool :=
  match c with GIdle | GPoll => true | c => renewed c end.

Definition drops (es : list (gevent sc)) : nat := List.length (dropped (worker_events (reading es))).

Record ginv (u : sc_state sc) (es : list (gevent sc)) (s : gst sc) : Prop := mkGI {
  gi_c : exists n, cons1 (restarted u es) n (drops (since es)) (ggone (since es)) (r_sh (g_r s));
  gi_q : quiet (g_pc s) (r_sh (g_r s));
  gi_n : renewed (g_pc s) = true -> ggone (since es) = [];
  gi_l : outside (g_pc s) = true -> List.length (ggone (since es)) = List.length (queued (took (reading (since es)))) + drops (since es)
}.

Lemma drops_app : forall a b, drops (a ++ b) = drops a + drops b.
Proof. intros. unfold drops. rewrite reading_app, worker_events_app, dropped_app, app_length. reflexivity. Qed.
Lemma renewed_joined : forall c, renewed c = true -> joined c = true /\ c <> GClear.
Proof. destruct c; cbn; intros; try discriminate; split; congruence. Qed.

Lemma inflight_dead : forall p : pst sc, alive (p_worker p) = false -> inflight p = [].
Proof. intros p A. unfold inflight. destruct (p_worker p); try discriminate A; reflexivity. Qed.

Lemma ginv_exec : forall u ls es s, 1 <= N -> exc (ginit sc u) ls es s -> ginv u es s.
Proof.
  intros u ls es s HN H. induction H as [|ls l es e s1 s2 H IH K].
  - constructor; [exists 0; split; [reflexivity|]; cbn; lia | split; cbn; discriminate | cbn; discriminate | reflexivity].
  - destruct IH as [(n & C) Q NW LG].
    destruct l as [l| |]; cbn [gstep] in K.
    + destruct (greader sc B N s1 l) as [[e1 r']|] eqn:R; [|discriminate]. injection K as <- <-.
      destruct (quiet_reader _ _ _ _ R Q) as [Q' G].
      constructor; cbn [g_r g_pc]; [|exact Q'| |].
      * rewrite restarted_keep, since_keep, ggone_app, ggone_map by apply no_was_map.
        rewrite drops_app. unfold drops at 2. rewrite reading_map.
        destruct (greader_rstep _ _ _ _ R) as [R'|(i & -> & -> & E)].
        -- eexists. exact (rstep_conserved sc B N _ _ _ _ _ _ _ _ HN C R').
        -- exists n. rewrite E. cbn. rewrite app_nil_r, Nat.add_0_r. exact C.
      * intros E. destruct (renewed_joined _ E) as [J NC]. rewrite since_keep, ggone_app, ggone_map by apply no_was_map.
        rewrite (NW E), (G J (proj2 Q J NC)). reflexivity.
      * intros E. rewrite since_keep, ggone_app, ggone_map, drops_app by apply no_was_map.
        unfold drops at 2. rewrite reading_app, reading_map, took_app, queued_app, !app_length, (LG E), (gone_length sc 1 (le_n 1)). lia.
    + destruct (g_pc s1) eqn:PC; try discriminate. injection K as <- <-. rewrite app_nil_r.
      constructor; cbn [g_r g_pc r_sh]; [|split; cbn; discriminate | cbn; discriminate | intros _; apply LG; reflexivity].
      exists n. apply (ck_same _ _ _ _ _ _ _ _ C); cbn; auto.
    + destruct (g_pc s1) eqn:PC; try discriminate; destruct Q as [A Q]; cbn [joined renewed outside] in A, Q, NW, LG.
      * destruct (p_queue (r_sh (g_r s1))) as [|x q] eqn:QQ; injection K as <- <-.
        -- rewrite app_nil_r. constructor; cbn [g_r g_pc r_sh]; [|split; cbn; discriminate | cbn; discriminate | cbn; discriminate]. exists n. exact C.
        -- constructor; cbn [g_r g_pc r_sh]; [|split; cbn; discriminate | cbn; discriminate | cbn; discriminate].
           rewrite restarted_keep, since_keep, ggone_app, drops_app by reflexivity. exists n.
           change (drops [GPolled x]) with 0. rewrite Nat.add_0_r.
           destruct C as (C & L & D). rewrite QQ in *. split; [|split; [cbn in L |- *; lia | exact D]].
           rewrite C. unfold inflight. cbn [p_queue p_worker p_sched set_queue]. f_equal. rewrite <- !app_assoc. f_equal.
           destruct x; reflexivity.
      * destruct (alive (p_worker (r_sh (g_r s1)))) eqn:AL; [discriminate|]. injection K as <- <-. rewrite app_nil_r.
        constructor; cbn [g_r g_pc r_sh]; [exists n; exact C | split; cbn; intros; congruence | cbn; discriminate | cbn; discriminate].
      * injection K as <- <-. constructor; cbn [g_r g_pc r_sh]; [| | cbn; discriminate | cbn; discriminate].
        -- rewrite restarted_keep, since_keep, ggone_app, drops_app by reflexivity. exists n.
           change (drops [GCleared (p_queue (r_sh (g_r s1)))]) with 0. rewrite Nat.add_0_r.
           destruct C as (C & L & D). split; [|split; [cbn; lia | exact D]].
           rewrite C. unfold inflight. cbn [p_queue p_worker p_sched set_queue ggone flat_map]. rewrite app_nil_r, <- app_assoc. reflexivity.
        -- split; cbn; auto.
      * injection K as <- <-. constructor; cbn [g_r g_pc r_sh]; rewrite ?restarted_was, ?since_was; try reflexivity.
        -- exists 0.
           assert (QE := Q eq_refl ltac:(discriminate)). assert (IE := inflight_dead _ (A eq_refl)).
           split; [|split].
           ++ cbn [p_queue p_sched set_sched]. rewrite QE. replace (inflight (set_sched sc _ _)) with (@nil (sc_batch sc)) by (symmetry; exact IE). reflexivity.
           ++ cbn [p_queue set_sched]. rewrite QE. cbn. lia.
           ++ cbn [p_worker set_sched]. change (drops []) with 0. destruct (ended sc _); lia.
        -- split; cbn; intros; [apply A | apply Q]; congruence.
      * injection K as <- <-. rewrite app_nil_r. constructor; cbn [g_r g_pc r_sh]; auto.
        -- exists n. apply (ck_same _ _ _ _ _ _ _ _ C); cbn; auto.
        -- split; cbn; intros; [apply A | apply Q]; congruence.
      * injection K as <- <-. rewrite app_nil_r. constructor; cbn [g_r g_pc r_sh]; auto.
        -- exists n. apply (ck_same _ _ _ _ _ _ _ _ C); cbn; auto.
        -- split; cbn; intros; [apply A | apply Q]; congruence.
      * injection K as <- <-. rewrite app_nil_r. constructor; cbn [g_r g_pc r_sh]; auto.
        -- exists n. apply (ck_same _ _ _ _ _ _ _ _ C); cbn; auto.
        -- split; cbn; intros; [apply A | apply Q]; congruence.
      * injection K as <- <-. rewrite app_nil_r. constructor; cbn [g_r g_pc r_sh]; auto.
        -- exists n. apply (ck_same _ _ _ _ _ _ _ _ C); cbn; auto. symmetry. apply Q; [reflexivity|discriminate].
        -- split; cbn; intros; auto.
      * injection K as <- <-. specialize (NW eq_refl). specialize (LG eq_refl).
        constructor; cbn [g_r g_pc r_sh]; [|split; cbn; discriminate | cbn; discriminate |].
        -- rewrite restarted_keep, since_keep, ggone_app, drops_app by reflexivity. exists n.
           destruct C as (C & L & D). cbn [ggone flat_map]. rewrite app_nil_r.
           split; [|split; [exact L | ]].
           ++ rewrite C. rewrite (inflight_dead _ (A eq_refl)). reflexivity.
           ++ rewrite NW in LG. cbn in LG |- *. lia.
        -- intros _. rewrite since_keep, ggone_app, drops_app, reading_app, took_app, queued_app, !app_length, LG by reflexivity.
           cbn. lia.
Qed.

Lemma g_order : forall u ls es s, 1 <= N -> exc (ginit sc u) ls es s ->
  exists n, subseq (queued (took (reading (since es)))) (fst (calls n (restarted u es))).
Proof.
  intros u ls es s HN H. destruct (gi_c _ _ _ (ginv_exec _ _ _ _ HN H)) as (n & C & _).
  exists n. rewrite C. cbn [fst]. apply subseq_app_r, ggone_took.
Qed.

Lemma g_loss : forall u ls es s, 1 <= N -> exc (ginit sc u) ls es s -> g_pc s = GIdle ->
  exists n bs, calls n (restarted u es) = (bs, p_sched (r_sh (g_r s))) /\ subseq (queued (took (reading (since es)))) bs /\
    List.length bs <= List.length (queued (took (reading (since es)))) +
      List.length (queued (p_queue (r_sh (g_r s)))) + List.length (inflight (r_sh (g_r s))) + 1.
Proof.
  intros u ls es s HN H PC. destruct (ginv_exec _ _ _ _ HN H) as [(n & C & _ & D) _ _ LG].
  rewrite PC in LG. specialize (LG eq_refl).
  exists n. eexists. split; [exact C|]. split; [apply subseq_app_r, ggone_took|].
  rewrite !app_length, LG.
  assert (drops (since es) <= 1) by (destruct (ended sc _); lia). lia.
Qed.

(** Each reader returns what it took, possibly after a reset. *)
Lemma g_own : forall i u ls es s, exc (ginit sc u) ls es s ->
  took_by i (reading es) = got_by i (reading es) ++ holds i (g_r s).
Proof.
  intros i u ls es s H. induction H as [|ls l es e s1 s2 H IH K]; [reflexivity|].
  rewrite reading_app, took_by_app, got_by_app, IH, <- !app_assoc. f_equal.
  destruct l as [l| |]; cbn [gstep] in K.
  - destruct (greader sc B N s1 l) as [[e1 r']|] eqn:R; [|discriminate]. injection K as <- <-.
    rewrite reading_map. cbn [g_r].
    destruct (greader_rstep _ _ _ _ R) as [R'|(j & -> & -> & E)]; [exact (own_step sc B N i _ _ _ _ R')|].
    cbn [greader] in R. destruct (now_waits (g_r s1) j && g_old s1 j) eqn:W; [|exact (own_step sc B N i _ _ _ _ R)].
    injection R as <-. apply andb_prop in W as [W _]. unfold now_waits in W.
    cbn. rewrite app_nil_r. unfold holds, goes. cbn. destruct (Nat.eqb_spec i j) as [->|]; [|reflexivity].
    destruct (r_pc (g_r s1) j); try discriminate W; reflexivity.
  - destruct (g_pc s1); try discriminate. injection K as <- <-. cbn. rewrite app_nil_r. reflexivity.
  - destruct (g_pc s1); try discriminate.
    1: destruct (p_queue (r_sh (g_r s1))).
    3: destruct (alive (p_worker (r_sh (g_r s1)))); [discriminate|].
    all: injection K as <- <-; cbn; rewrite app_nil_r; reflexivity.
Qed.

(** A reader that waited when the queue was replaced gets nothing any more. *)
Lemma g_left : forall s ls es s' i, exc s ls es s' -> r_pc (g_r s) i = RWait -> g_old s i = true ->
  (r_pc (g_r s') i = RWait /\ g_old s' i = true /\ took_by i (reading es) = []) \/ In (GEv (RStopTimeout i)) es.
Proof.
  intros s ls es s' i H W O. induction H as [|ls l es e s1 s2 H IH K]; [left; auto|].
  destruct IH as [(W1 & O1 & T1)|I]; [|right; apply in_or_app; auto].
  rewrite reading_app, took_by_app, T1.
  assert (X : (r_pc (g_r s2) i = RWait /\ g_old s2 i = true /\ took_by i (reading e) = []) \/ In (GEv (RStopTimeout i)) e);
    [|destruct X as [X|X]; [left; exact X | right; apply in_or_app; auto]].
  assert (NWT : now_waits (g_r s1) i = true) by (unfold now_waits; rewrite W1; reflexivity).
  destruct l as [l| |]; cbn [gstep] in K.
  - destruct (greader sc B N s1 l) as [[e1 r']|] eqn:R; [|discriminate]. injection K as <- <-. rewrite reading_map.
    cbn [g_r g_old].
    assert (Y : (r_pc r' i = RWait /\ took_by i e1 = []) \/ In (RStopTimeout i) e1).
    { destruct l as [j m|j|j|l].
      - cbn [greader rstep] in R. destruct (Nat.eq_dec i j) as [<-|NE]; [rewrite W1 in R; discriminate|].
        destruct (r_pc (g_r s1) j); try discriminate. destruct (m =? B); injection R as <- <-; left; [|auto].
        cbn. rewrite goes_other by exact NE. auto.
      - destruct (Nat.eq_dec i j) as [<-|NE].
        + cbn [greader] in R. rewrite W1, O1 in R. destruct (p_worker (r_sh (g_r s1))); discriminate.
        + left. destruct (greader_rstep _ _ _ _ R) as [R'|(k & E & _)]; [|discriminate E].
          cbn [rstep] in R'. assert (F : i =? j = false) by (apply Nat.eqb_neq; exact NE).
          destruct (r_pc (g_r s1) j) as [| | | | | |x|x t|x]; try discriminate.
          * injection R' as <- <-. cbn. rewrite goes_other by exact NE. auto.
          * injection R' as <- <-. cbn. rewrite goes_other by exact NE. auto.
          * destruct (p_worker (r_sh (g_r s1))); injection R' as <- <-; cbn; rewrite goes_other by exact NE; auto.
          * destruct (sc_len sc) as [L|]; [destruct (L <=? p_t (r_sh (g_r s1)))|]; injection R' as <- <-; cbn; rewrite goes_other by exact NE; auto.
          * destruct (p_queue (r_sh (g_r s1))); [discriminate|]. injection R' as <- <-. cbn. rewrite F, goes_other by exact NE. auto.
          * injection R' as <- <-. cbn. rewrite goes_other by exact NE. auto.
          * injection R' as <- <-. cbn. rewrite goes_other by exact NE. auto.
          * destruct x; injection R' as <- <-; cbn; rewrite goes_other by exact NE; auto.
      - cbn [greader] in R. destruct (Nat.eq_dec i j) as [<-|NE].
        + rewrite NWT, O1 in R. injection R as <- <-. right. left. reflexivity.
        + left. destruct (now_waits (g_r s1) j && g_old s1 j).
          * injection R as <- <-. cbn. rewrite goes_other by exact NE. auto.
          * cbn [rstep] in R. destruct (r_pc (g_r s1) j); try discriminate. destruct (p_queue (r_sh (g_r s1))); [|discriminate].
            injection R as <- <-. cbn. rewrite goes_other by exact NE. auto.
      - cbn [greader rstep] in R. destruct (worker_label l); [|discriminate].
        destruct (pstep sc B N (r_sh (g_r s1)) l) as [[e2 p']|]; [|discriminate]. injection R as <- <-.
        left. split; [exact W1|]. clear. induction e2; cbn; auto. }
    destruct Y as [(Y1 & Y2)|Y]; [left | right; apply in_map; exact Y].
    split; [exact Y1|]. split; [|exact Y2]. unfold old_after. rewrite O1, NWT. unfold now_waits. rewrite Y1. reflexivity.
  - destruct (g_pc s1); try discriminate. injection K as <- <-. left. auto.
  - destruct (g_pc s1); try discriminate.
    1: destruct (p_queue (r_sh (g_r s1))).
    3: destruct (alive (p_worker (r_sh (g_r s1)))); [discriminate|].
    all: injection K as <- <-; left; auto.
Qed.

(** If the flag is set and the thread was not started, it never is. *)
Lemma goes_not : forall (r : rst sc) j c, c <> RSaw -> c <> RSet ->
  (forall i, r_pc r i <> RSaw /\ r_pc r i <> RSet) -> forall i, goes r j c i <> RSaw /\ goes r j c i <> RSet.
Proof. intros r j c C1 C2 H i. unfold goes. destruct (i =? j); auto. Qed.

Lemma g_stuck : forall s ls es s', stuck sc s -> exc s ls es s' -> ~ In GCall ls ->
  stuck sc s' /\ took (reading es) = [].
Proof.
  intros s ls es s' S H. induction H as [|ls l es e s1 s2 H IH K]; intros NC; [split; [exact S|reflexivity]|].
  destruct IH as ((PC & ST & W & Q & P) & T); [intros I; apply NC, in_or_app; auto|].
  rewrite reading_app, took_app, T. cbn [app].
  destruct l as [l| |]; cbn [gstep] in K; [|exfalso; apply NC, in_or_app; right; left; reflexivity | rewrite PC in K; discriminate].
  destruct (greader sc B N s1 l) as [[e1 r']|] eqn:R; [|discriminate]. injection K as <- <-. rewrite reading_map.
  unfold stuck. cbn [g_r g_pc].
  destruct l as [j m|j|j|l].
  - cbn [greader rstep] in R. destruct (r_pc (g_r s1) j); try discriminate.
    destruct (m =? B); injection R as <- <-; (split; [|reflexivity]); cbn; repeat (split; [assumption|]); [|exact P].
    apply goes_not; auto; discriminate.
  - destruct (greader_rstep _ _ _ _ R) as [R'|(k & E & _)]; [|discriminate E]. cbn [rstep] in R'.
    destruct (P j) as [P1 P2].
    destruct (r_pc (g_r s1) j) as [| | | | | |x|x t|x]; try discriminate; try congruence.
    + rewrite ST in R'. injection R' as <- <-. cbn. split; [|reflexivity]. repeat (split; [assumption|]). apply goes_not; auto; discriminate.
    + destruct (sc_len sc) as [L|]; [destruct (L <=? p_t (r_sh (g_r s1)))|]; injection R' as <- <-; cbn;
        (split; [|reflexivity]); repeat (split; [assumption|]); apply goes_not; auto; discriminate.
    + rewrite Q in R'. discriminate.
    + injection R' as <- <-. cbn. split; [|reflexivity]. repeat (split; [assumption|]). apply goes_not; auto; discriminate.
    + injection R' as <- <-. cbn. split; [|reflexivity]. repeat (split; [assumption|]). apply goes_not; auto; discriminate.
    + destruct x; injection R' as <- <-; cbn; (split; [|reflexivity]); repeat (split; [assumption|]); apply goes_not; auto; discriminate.
  - cbn [greader] in R. destruct (now_waits (g_r s1) j && g_old s1 j).
    + injection R as <- <-. cbn. split; [|reflexivity]. repeat (split; [assumption|]). apply goes_not; auto; discriminate.
    + cbn [rstep] in R. destruct (r_pc (g_r s1) j); try discriminate. rewrite Q in R.
      injection R as <- <-. cbn. split; [|reflexivity]. repeat (split; [assumption|]). apply goes_not; auto; discriminate.
  - exfalso. cbn [greader rstep] in R. destruct (worker_label l) eqn:WL; [|discriminate].
    destruct (pstep sc B N (r_sh (g_r s1)) l) as [[e2 p']|] eqn:PS; [|discriminate].
    destruct l; try discriminate WL; cbn [pstep] in PS; rewrite W in PS; discriminate.
Qed.

(** Readers that do nothing. *)
Definition of_reader (j : nat) (l : glabel) : bool :=
  match l with GR (RCall i _) | GR (RStep i) | GR (RExpire i) => i =? j | _ => true end.

Lemma idle_stays : forall j i s ls es s', exc s ls es s' -> forallb (of_reader j) ls = true -> i <> j ->
  r_pc (g_r s') i = r_pc (g_r s) i.
Proof.
  intros j i s ls es s' H F NE. induction H as [|ls l es e s1 s2 H IH K]; [reflexivity|].
  rewrite forallb_app in F. apply andb_prop in F as [F1 F2]. cbn [forallb] in F2. rewrite andb_true_r in F2.
  rewrite <- (IH F1). clear IH.
  destruct l as [l| |]; cbn [gstep] in K.
  - destruct (greader sc B N s1 l) as [[e1 r']|] eqn:R; [|discriminate]. injection K as <- <-. cbn [g_r].
    destruct l as [k m|k|k|l]; cbn [of_reader] in F2; try (apply Nat.eqb_eq in F2; subst k).
    + cbn [greader rstep] in R. destruct (r_pc (g_r s1) j); try discriminate.
      destruct (m =? B); injection R as <- <-; [apply goes_other; exact NE | reflexivity].
    + destruct (greader_rstep _ _ _ _ R) as [R'|(k & E & _)]; [|discriminate E]. cbn [rstep] in R'.
      destruct (r_pc (g_r s1) j) as [| | | | | |x|x t|x]; try discriminate;
        [| |destruct (p_worker (r_sh (g_r s1)))|destruct (sc_len sc) as [L|]; [destruct (L <=? p_t (r_sh (g_r s1)))|]
         |destruct (p_queue (r_sh (g_r s1))); [discriminate|]| | |destruct x];
        injection R' as <- <-; apply goes_other; exact NE.
    + cbn [greader] in R. destruct (now_waits (g_r s1) j && g_old s1 j); [injection R as <- <-; apply goes_other; exact NE|].
      cbn [rstep] in R. destruct (r_pc (g_r s1) j); try discriminate. destruct (p_queue (r_sh (g_r s1))); [|discriminate].
      injection R as <- <-. apply goes_other. exact NE.
    + cbn [greader rstep] in R. destruct (worker_label l); [|discriminate].
      destruct (pstep sc B N (r_sh (g_r s1)) l) as [[e2 p']|]; [|discriminate]. injection R as <- <-. reflexivity.
  - destruct (g_pc s1); try discriminate. injection K as <- <-. reflexivity.
  - destruct (g_pc s1); try discriminate.
    1: destruct (p_queue (r_sh (g_r s1))).
    3: destruct (alive (p_worker (r_sh (g_r s1)))); [discriminate|].
    all: injection K as <- <-; reflexivity.
Qed.

End P.
