(** Several consumers of one prefetching scheduler (C127). *)
From Coq Require Import List Arith Bool Lia.
From Verif Require Import Model.Prefetch Spec.PrefetchSpec Model.Readers Spec.ReadersSpec Proofs.PrefetchProofs.
Import ListNotations.
Local Open Scope nat_scope.

Section P.
Variable sc : sched.
Variables B N : nat.
Hypothesis HN : 1 <= N.
Notation st := (rst sc).
Notation exc := (rexec sc B N).

Lemma rexec_app : forall s ls1 es1 s1 ls2 es2 s2,
  exc s ls1 es1 s1 -> exc s1 ls2 es2 s2 -> exc s (ls1 ++ ls2) (es1 ++ es2) s2.
Proof.
  intros s ls1 es1 s1 ls2 es2 s2 H1 H2. induction H2.
  - rewrite !app_nil_r. exact H1.
  - rewrite !app_assoc. eapply rexec_snoc; eauto.
Qed.

Lemma took_app : forall a b, @took sc (a ++ b) = took a ++ took b.
Proof. intros. apply flat_map_app. Qed.
Lemma took_by_app : forall i a b, @took_by sc i (a ++ b) = took_by i a ++ took_by i b.
Proof. intros. apply flat_map_app. Qed.
Lemma got_by_app : forall i a b, @got_by sc i (a ++ b) = got_by i a ++ got_by i b.
Proof. intros. apply flat_map_app. Qed.
Lemma worker_events_app : forall a b, @worker_events sc (a ++ b) = worker_events a ++ worker_events b.
Proof. intros. apply flat_map_app. Qed.
Lemma counted_app : forall a b, @counted sc (a ++ b) = counted a + counted b.
Proof. intros. unfold counted. rewrite filter_app, app_length. reflexivity. Qed.
Lemma markers_app : forall a b, @markers sc (a ++ b) = markers a + markers b.
Proof. intros. unfold markers. rewrite filter_app, app_length. reflexivity. Qed.

(** The batches removed from the queue, by readers or for the marker. *)
Definition gone (es : list (revent sc)) : list (sc_batch sc) :=
  flat_map (fun e => match e with
                     | RTook _ (Data b) => [b]
                     | RWorker (EvDrop (Data b)) => [b]
                     | _ => []
                     end) es.
Lemma gone_app : forall a b, gone (a ++ b) = gone a ++ gone b.
Proof. intros. apply flat_map_app. Qed.

Lemma took_gone : forall es, subseq (queued (took es)) (gone es).
Proof.
  induction es as [|e es IH]; [constructor|].
  change (e :: es) with ([e] ++ es). rewrite took_app, queued_app, gone_app.
  apply subseq_app; [|exact IH].
  destruct e as [[]|? []| | | | | | |]; cbn; try apply subseq_refl;
    match goal with |- subseq _ (match ?i with Data _ => _ | EOS => _ end ++ _) => destruct i end; cbn;
    try apply subseq_refl; apply sub_skip, sub_nil.
Qed.

Lemma gone_took : forall es, dropped (worker_events es) = [] -> gone es = queued (took es).
Proof.
  induction es as [|e es IH]; [reflexivity|].
  change (e :: es) with ([e] ++ es). rewrite worker_events_app, dropped_app, took_app, queued_app, gone_app.
  intros H. apply app_eq_nil in H as [H1 H2]. rewrite IH by exact H2. f_equal.
  destruct e as [[]|? []| | | | | | |]; cbn in *; try reflexivity; destruct i; cbn in *; congruence.
Qed.

Lemma gone_length : forall es,
  List.length (gone es) = List.length (queued (took es)) + List.length (dropped (worker_events es)).
Proof.
  induction es as [|e es IH]; [reflexivity|].
  change (e :: es) with ([e] ++ es).
  rewrite worker_events_app, dropped_app, took_app, queued_app, gone_app, !app_length, IH.
  assert (A : List.length (gone [e]) =
    List.length (queued (took [e])) + List.length (dropped (worker_events [e]))).
  { destruct e as [[]|? []| | | | | | |]; cbn; try reflexivity; destruct i; reflexivity. }
  lia.
Qed.

Lemma rfetches_snoc : forall ls l, rfetches (ls ++ [l]) = rfetches ls + rfetches [l].
Proof. intros. unfold rfetches. rewrite filter_app, app_length. reflexivity. Qed.

(** What the background thread has got to. *)
Definition ended (w : wpc sc) : bool := match w with WSetStop | WDone => true | _ => false end.

Record inv (u : sc_state sc) (ls : list rlabel) (es : list (revent sc)) (s : st) : Prop := mkInv {
  i_calls : calls (rfetches ls) u =
            (gone es ++ queued (p_queue (r_sh s)) ++ inflight (r_sh s), p_sched (r_sh s));
  i_len : List.length (p_queue (r_sh s)) <= N;
  i_stop : ended (p_worker (r_sh s)) = false -> p_stop (r_sh s) = false;
  i_open : ended (p_worker (r_sh s)) = false ->
           markers (took es ++ p_queue (r_sh s)) = 0 /\ dropped (worker_events es) = [];
  i_ended : ended (p_worker (r_sh s)) = true ->
            (exists l, took es ++ p_queue (r_sh s) = l ++ [EOS] /\ markers l = 0) /\
            List.length (dropped (worker_events es)) <= 1
}.

Lemma inv_init : forall u, inv u [] [] (rinit sc u).
Proof. intros u. constructor; cbn; auto; try lia; discriminate. Qed.

(** A step of a reader that leaves the queue and the background thread alone. *)
Lemma inv_same : forall u ls es s l e s',
  inv u ls es s -> rfetches [l] = 0 -> took e = [] -> gone e = [] -> worker_events e = [] ->
  p_queue (r_sh s') = p_queue (r_sh s) -> p_sched (r_sh s') = p_sched (r_sh s) ->
  p_stop (r_sh s') = p_stop (r_sh s) ->
  (p_worker (r_sh s') = p_worker (r_sh s) \/ p_worker (r_sh s) = WIdle /\ p_worker (r_sh s') = WCheck) ->
  inv u (ls ++ [l]) (es ++ e) s'.
Proof.
  intros u ls es s l e s' [C L S O E] F T G W Q H P K.
  assert (X : ended (p_worker (r_sh s')) = ended (p_worker (r_sh s)) /\
              inflight (r_sh s') = inflight (r_sh s)).
  { unfold inflight. destruct K as [K|[K1 K2]]; [rewrite K | rewrite K1, K2]; auto. }
  destruct X as [X1 X2].
  constructor; rewrite ?rfetches_snoc, ?F, ?took_app, ?gone_app, ?worker_events_app, ?dropped_app,
    ?T, ?G, ?W, ?Q, ?H, ?P, ?X1, ?X2, ?Nat.add_0_r; cbn [dropped flat_map]; rewrite ?app_nil_r; auto.
Qed.

Lemma inv_step : forall u ls es s l e s', inv u ls es s -> rstep sc B N s l = Some (e, s') ->
  inv u (ls ++ [l]) (es ++ e) s'.
Proof.
  intros u ls es s l e s' I H. destruct l as [i n|i|i|l]; cbn [rstep] in H.
  - destruct (r_pc s i); try discriminate.
    destruct (n =? B); injection H as <- <-; apply (inv_same u ls es s); cbn; auto.
  - destruct (r_pc s i) as [| | | | | |x|x t|x] eqn:PC; try discriminate.
    + injection H as <- <-; apply (inv_same u ls es s); cbn; auto.
    + injection H as <- <-; apply (inv_same u ls es s); cbn; auto.
    + destruct (p_worker (r_sh s)) eqn:W; injection H as <- <-; apply (inv_same u ls es s); cbn; auto.
    + destruct (sc_len sc) as [L|]; [destruct (L <=? p_t (r_sh s))|]; injection H as <- <-;
        apply (inv_same u ls es s); cbn; auto.
    + destruct (p_queue (r_sh s)) as [|x q] eqn:Q; [discriminate|]. injection H as <- <-.
      destruct I as [C L S O E]. rewrite Q in *.
      constructor; rewrite ?rfetches_snoc, ?took_app, ?gone_app, ?worker_events_app, ?dropped_app;
        cbn [r_sh p_queue p_sched p_worker p_stop set_queue].
      * cbn [rfetches filter List.length]. rewrite Nat.add_0_r, C. f_equal.
        destruct x; cbn; rewrite ?app_nil_r; [rewrite <- app_assoc; reflexivity | reflexivity].
      * cbn in L. lia.
      * exact S.
      * intros H. destruct (O H) as [O1 O2]. cbn [took worker_events flat_map app dropped].
        rewrite <- app_assoc, O2. split; [exact O1 | reflexivity].
      * intros H. destruct (E H) as [E1 E2]. cbn [took worker_events flat_map app dropped].
        rewrite <- app_assoc, app_nil_r. split; [exact E1 | exact E2].
    + injection H as <- <-; apply (inv_same u ls es s); cbn; auto.
    + injection H as <- <-; apply (inv_same u ls es s); cbn; auto.
    + destruct x; injection H as <- <-; apply (inv_same u ls es s); cbn; auto.
  - destruct (r_pc s i); try discriminate. destruct (p_queue (r_sh s)) eqn:Q; [|discriminate].
    injection H as <- <-; apply (inv_same u ls es s); cbn; auto.
  - destruct (worker_label l) eqn:WL; [|discriminate].
    destruct (pstep sc B N (r_sh s) l) as [[e1 p']|] eqn:P; [|discriminate]. injection H as <- <-.
    destruct I as [C L S O E].
    destruct s as [[v q stp w sta t pc] rp]. cbn [r_sh p_queue p_sched p_worker p_stop] in *.
    destruct l; try discriminate WL; cbn [pstep p_worker] in P; destruct w; try discriminate P;
      cbn [ended] in *; cbn [inflight p_worker] in C; rewrite ?app_nil_r in C.
    + (* check *)
      specialize (S eq_refl). cbn in P. subst stp. injection P as <- <-.
      constructor; cbn [r_sh p_queue p_sched p_worker p_stop set_worker inflight map];
        rewrite ?app_nil_r; auto; try discriminate.
      rewrite rfetches_snoc. cbn [rfetches filter List.length]. rewrite Nat.add_0_r, C. reflexivity.
    + (* fetch *)
      specialize (S eq_refl). destruct (O eq_refl) as [O1 O2]. subst stp.
      unfold fetch in P. cbn [p_sched] in P.
      assert (F : rfetches (ls ++ [RWork LWFetch]) = Datatypes.S (rfetches ls)).
      { rewrite rfetches_snoc. cbn. lia. }
      destruct (sc_get sc v) as [r v'] eqn:G.
      destruct r as [b| | |].
      * injection P as <- <-. constructor; cbn [r_sh p_queue p_sched p_worker p_stop set_worker set_sched inflight map];
          rewrite ?app_nil_r; auto; try discriminate.
        rewrite F. cbn [calls]. rewrite C, G. rewrite <- app_assoc. reflexivity.
      * destruct (sc_len sc) as [Le|] eqn:LE; [destruct (sc_next sc v') as [x|] eqn:NX|]; injection P as <- <-;
          (constructor; cbn [r_sh p_queue p_sched p_worker p_stop set_worker set_sched inflight map];
           rewrite ?app_nil_r; auto; try discriminate;
           rewrite F; cbn [calls]; rewrite C, G, LE, ?NX; reflexivity).
      * injection P as <- <-. constructor; cbn [r_sh p_queue p_sched p_worker p_stop set_worker set_sched inflight map];
          rewrite ?app_nil_r; auto; try discriminate.
        rewrite F. cbn [calls]. rewrite C, G. reflexivity.
      * injection P as <- <-. constructor; cbn [r_sh p_queue p_sched p_worker p_stop set_worker set_sched inflight map];
          rewrite ?app_nil_r; auto; try discriminate.
        rewrite F. cbn [calls]. rewrite C, G. reflexivity.
    + (* put *)
      destruct (O eq_refl) as [O1 O2]. cbn [p_queue] in P.
      destruct (Nat.ltb_spec (List.length q) N); [|discriminate]. injection P as <- <-.
      constructor; cbn [r_sh p_queue p_sched p_worker p_stop set_worker set_queue inflight map];
        rewrite ?app_nil_r; auto; try discriminate.
      * rewrite rfetches_snoc. cbn [rfetches filter List.length]. rewrite Nat.add_0_r, C, queued_app.
        cbn. reflexivity.
      * rewrite app_length. cbn. lia.
      * intros _. rewrite app_assoc, markers_app, O1. auto.
    + (* marker put *)
      destruct (O eq_refl) as [O1 O2]. cbn [p_queue] in P.
      destruct (Nat.ltb_spec (List.length q) N); [|discriminate]. injection P as <- <-.
      constructor; cbn [r_sh p_queue p_sched p_worker p_stop set_worker set_queue inflight map];
        rewrite ?app_nil_r; auto; try discriminate.
      * rewrite rfetches_snoc. cbn [rfetches filter List.length]. rewrite Nat.add_0_r, C, queued_app.
        cbn. rewrite !app_nil_r. reflexivity.
      * rewrite app_length. cbn. lia.
      * intros _. rewrite app_assoc, O2. split; [eexists; split; [reflexivity | exact O1] | cbn; lia].
    + (* full *)
      cbn [p_queue] in P. destruct (List.length q <? N); [discriminate|]. injection P as <- <-.
      constructor; cbn [r_sh p_queue p_sched p_worker p_stop set_worker inflight map];
        rewrite ?app_nil_r; auto; try discriminate.
      rewrite rfetches_snoc. cbn [rfetches filter List.length]. rewrite Nat.add_0_r, C. reflexivity.
    + (* force *)
      destruct (O eq_refl) as [O1 O2]. unfold force in P. cbn [p_queue] in P.
      destruct q as [|x q]; injection P as <- <-.
      * constructor; cbn [r_sh p_queue p_sched p_worker p_stop set_worker set_queue inflight map];
          rewrite ?app_nil_r; auto; try discriminate.
        -- rewrite rfetches_snoc. cbn [rfetches filter List.length]. rewrite Nat.add_0_r, C. cbn. rewrite app_nil_r. reflexivity.
        -- intros _. rewrite O2. rewrite app_nil_r in O1. split; [eexists; split; [reflexivity | exact O1] | cbn; lia].
      * rewrite markers_app in O1. change (x :: q) with ([x] ++ q) in O1. rewrite markers_app in O1.
        constructor; cbn [r_sh p_queue p_sched p_worker p_stop set_worker set_queue inflight map];
          rewrite ?app_nil_r; auto; try discriminate.
        -- rewrite rfetches_snoc. cbn [rfetches filter List.length]. rewrite Nat.add_0_r, C, gone_app, queued_app.
           destruct x; cbn; rewrite ?app_nil_r, <- ?app_assoc; reflexivity.
        -- rewrite app_length. cbn in L |- *. lia.
        -- intros _. rewrite took_app, worker_events_app, dropped_app, O2. cbn [took flat_map].
           rewrite app_nil_r, app_assoc. split.
           ++ eexists. split; [reflexivity|]. rewrite markers_app. lia.
           ++ destruct x; cbn; lia.
    + (* set stop *)
      injection P as <- <-.
      constructor; cbn [r_sh p_queue p_sched p_worker p_stop set_worker set_stop inflight map];
        rewrite ?app_nil_r; auto; try discriminate.
      rewrite rfetches_snoc. cbn [rfetches filter List.length]. rewrite Nat.add_0_r, C. reflexivity.
Qed.

Lemma inv_exec : forall u ls es s, exc (rinit sc u) ls es s -> inv u ls es s.
Proof.
  intros u ls es s H. induction H.
  - apply inv_init.
  - eapply inv_step; eauto.
Qed.

Lemma order : forall u ls es s, exc (rinit sc u) ls es s ->
  subseq (queued (took es)) (fst (calls (rfetches ls) u)).
Proof.
  intros u ls es s H. apply inv_exec in H. rewrite (i_calls _ _ _ _ H). cbn [fst].
  apply subseq_app_r, took_gone.
Qed.

Lemma none_lost : forall u ls es s, exc (rinit sc u) ls es s -> dropped (worker_events es) = [] ->
  fst (calls (rfetches ls) u) = queued (took es) ++ queued (p_queue (r_sh s)) ++ inflight (r_sh s).
Proof.
  intros u ls es s H D. apply inv_exec in H. rewrite (i_calls _ _ _ _ H). cbn [fst].
  rewrite gone_took by exact D. reflexivity.
Qed.

Lemma one_lost : forall u ls es s, exc (rinit sc u) ls es s ->
  List.length (fst (calls (rfetches ls) u)) <=
  List.length (queued (took es)) + List.length (queued (p_queue (r_sh s))) + List.length (inflight (r_sh s)) + 1 /\
  List.length (p_queue (r_sh s)) <= N.
Proof.
  intros u ls es s H. apply inv_exec in H. split; [|exact (i_len _ _ _ _ H)].
  rewrite (i_calls _ _ _ _ H). cbn [fst]. rewrite !app_length, gone_length.
  assert (List.length (dropped (worker_events es)) <= 1).
  { destruct (ended (p_worker (r_sh s))) eqn:E.
    - apply (i_ended _ _ _ _ H E).
    - destruct (i_open _ _ _ _ H E) as [_ ->]. cbn. lia. }
  lia.
Qed.

Lemma markers_in : forall l, In (@EOS sc) l -> 1 <= markers l.
Proof.
  induction l as [|x l IH]; [intros []|]. intros [->|K]; unfold markers in *; cbn; [lia|].
  destruct x; cbn; [|specialize (IH K)]; auto; lia.
Qed.

Lemma marker_empties : forall u ls es s, exc (rinit sc u) ls es s -> In EOS (took es) ->
  p_queue (r_sh s) = [] /\ exists d, took es = d ++ [EOS] /\ markers d = 0.
Proof.
  intros u ls es s H K. apply inv_exec in H.
  destruct (ended (p_worker (r_sh s))) eqn:E.
  - destruct (i_ended _ _ _ _ H E) as [(l & A & M) _].
    destruct (p_queue (r_sh s)) as [|x q] eqn:Q using rev_ind.
    + rewrite app_nil_r in A. eauto.
    + rewrite app_assoc in A. apply app_inj_tail in A as [A _]. subst l.
      rewrite markers_app in M. apply markers_in in K. lia.
  - destruct (i_open _ _ _ _ H E) as [M _]. rewrite markers_app in M. apply markers_in in K. lia.
Qed.

Lemma marker_last : forall u ls1 es1 s1 ls2 es2 s2,
  exc (rinit sc u) ls1 es1 s1 -> exc s1 ls2 es2 s2 -> In EOS (took es1) -> took es2 = [].
Proof.
  intros u ls1 es1 s1 ls2 es2 s2 H1 H2 K.
  destruct (marker_empties u ls1 es1 s1 H1 K) as (_ & d & A & M).
  destruct (marker_empties u _ _ _ (rexec_app _ _ _ _ _ _ _ H1 H2)) as (_ & d' & A' & M').
  { rewrite took_app. apply in_app_iff. auto. }
  rewrite took_app in A'.
  destruct (took es2) as [|x r] eqn:T using rev_ind; [reflexivity|exfalso].
  rewrite app_assoc in A'. apply app_inj_tail in A' as [A' _]. subst d'.
  rewrite markers_app in M'. apply markers_in in K. lia.
Qed.

(** Each reader on its own. *)
Lemma own_step : forall i s l e s', rstep sc B N s l = Some (e, s') ->
  holds i s ++ took_by i e = got_by i e ++ holds i s'.
Proof.
  intros i s l e s' H. destruct l as [j n|j|j|l]; cbn [rstep] in H.
  - destruct (r_pc s j) eqn:PC; try discriminate.
    destruct (n =? B); injection H as <- <-; cbn; rewrite ?app_nil_r; unfold holds, goes; cbn; auto.
    destruct (Nat.eqb_spec i j) as [->|]; [rewrite PC|]; reflexivity.
  - destruct (r_pc s j) as [| | | | | |x|x t|x] eqn:PC; try discriminate.
    + injection H as <- <-. unfold holds, goes. cbn. destruct (Nat.eqb_spec i j) as [->|];
        [rewrite PC; destruct (p_started (r_sh s))|]; rewrite ?app_nil_r; reflexivity.
    + injection H as <- <-. unfold holds, goes. cbn. destruct (Nat.eqb_spec i j) as [->|];
        [rewrite PC|]; rewrite ?app_nil_r; reflexivity.
    + destruct (p_worker (r_sh s)); injection H as <- <-; unfold holds, goes; cbn;
        (destruct (Nat.eqb_spec i j) as [->|]; [rewrite PC|]; rewrite ?app_nil_r; reflexivity).
    + destruct (sc_len sc) as [L|]; [destruct (L <=? p_t (r_sh s))|]; injection H as <- <-; unfold holds, goes; cbn;
        (destruct (Nat.eqb_spec i j) as [->|]; [rewrite PC|]; rewrite ?app_nil_r; reflexivity).
    + destruct (p_queue (r_sh s)) as [|x q]; [discriminate|]. injection H as <- <-. unfold holds, goes. cbn.
      destruct (Nat.eqb_spec i j) as [->|]; [rewrite PC|]; cbn; rewrite ?app_nil_r; reflexivity.
    + injection H as <- <-. unfold holds, goes. cbn. destruct (Nat.eqb_spec i j) as [->|];
        [rewrite PC|]; rewrite ?app_nil_r; reflexivity.
    + injection H as <- <-. unfold holds, goes. cbn. destruct (Nat.eqb_spec i j) as [->|];
        [rewrite PC|]; rewrite ?app_nil_r; reflexivity.
    + destruct x; injection H as <- <-; unfold holds, goes; cbn;
        (destruct (Nat.eqb_spec i j) as [->|]; [rewrite PC|]; cbn; rewrite ?app_nil_r; reflexivity).
  - destruct (r_pc s j) eqn:PC; try discriminate. destruct (p_queue (r_sh s)); [|discriminate].
    injection H as <- <-. unfold holds, goes. cbn.
    destruct (Nat.eqb_spec i j) as [->|]; [rewrite PC|]; rewrite ?app_nil_r; reflexivity.
  - destruct (worker_label l); [|discriminate]. destruct (pstep sc B N (r_sh s) l) as [[e1 p']|]; [|discriminate].
    injection H as <- <-.
    assert (X : took_by i (map RWorker e1) = [] /\ @got_by sc i (map RWorker e1) = []).
    { induction e1; cbn; auto. }
    destruct X as [-> ->]. rewrite app_nil_r. reflexivity.
Qed.

Lemma own : forall i u ls es s, exc (rinit sc u) ls es s -> took_by i es = got_by i es ++ holds i s.
Proof.
  intros i u ls es s H. induction H as [|ls l es e s1 s2 H IH K]; [reflexivity|].
  rewrite took_by_app, got_by_app, IH, <- !app_assoc. f_equal. exact (own_step i s1 l e s2 K).
Qed.

(** The counter. *)
Definition adding (c : rpc sc) : bool := match c with RHas _ | RAdd _ _ => true | _ => false end.

Lemma worker_keeps : forall s l e s', worker_label l = true -> pstep sc B N s l = Some (e, s') ->
  p_t s' = p_t s.
Proof.
  intros s l e s' W H. destruct l; try discriminate W; cbn [pstep] in H; destruct (p_worker s); try discriminate H;
    try (injection H as <- <-; reflexivity).
  - injection H as <- <-. unfold fetch. destruct (sc_get sc (p_sched s)) as [[] v]; try reflexivity.
    destruct (sc_len sc); [destruct (sc_next sc v)|]; reflexivity.
  - destruct (_ <? _); [injection H as <- <-; reflexivity | discriminate].
  - destruct (_ <? _); [injection H as <- <-; reflexivity | discriminate].
  - destruct (_ <? _); [discriminate | injection H as <- <-; reflexivity].
  - unfold force in H. destruct (p_queue s); injection H as <- <-; reflexivity.
Qed.

Lemma workers_nothing : forall e, @took sc (map RWorker e) = [] /\ @counted sc (map RWorker e) = 0.
Proof. induction e; cbn; auto. Qed.

(** The readers that hold an item not yet counted. *)
Record cinv (es : list (revent sc)) (s : st) : Prop := mkC {
  c_t : p_t (r_sh s) <= counted es;
  c_add : forall i x t, r_pc s i = RAdd x t -> t <= counted es;
  c_holders : exists H, NoDup H /\ (forall i, In i H <-> adding (r_pc s i) = true) /\
                counted es + List.length H = List.length (took es)
}.

Lemma cinv_same : forall es e s s' i,
  cinv es s -> took e = [] -> counted e = 0 -> p_t (r_sh s') = p_t (r_sh s) ->
  (forall j, j <> i -> r_pc s' j = r_pc s j) -> adding (r_pc s' i) = adding (r_pc s i) ->
  (forall x t, r_pc s' i = RAdd x t -> t = p_t (r_sh s) \/ r_pc s i = RAdd x t) ->
  cinv (es ++ e) s'.
Proof.
  intros es e s s' i [A C (H & ND & IF & L)] T K P O D R.
  constructor; rewrite ?counted_app, ?took_app, ?T, ?K, ?Nat.add_0_r, ?app_nil_r.
  - rewrite P. exact A.
  - intros j x t Q. destruct (Nat.eq_dec j i) as [->|N0].
    + destruct (R x t Q) as [->|Y]; [exact A | exact (C i x t Y)].
    + rewrite O in Q by exact N0. exact (C j x t Q).
  - exists H. split; [exact ND|]. split; [|exact L].
    intros j. rewrite IF. destruct (Nat.eq_dec j i) as [->|N0]; [rewrite D | rewrite O by exact N0]; tauto.
Qed.

Lemma goes_other : forall (s : st) i c j, j <> i -> goes s i c j = r_pc s j.
Proof. intros. unfold goes. destruct (Nat.eqb_spec j i); [contradiction|reflexivity]. Qed.
Lemma goes_self : forall (s : st) i c, goes s i c i = c.
Proof. intros. unfold goes. rewrite Nat.eqb_refl. reflexivity. Qed.

Lemma cinv_step : forall es s l e s', cinv es s -> rstep sc B N s l = Some (e, s') -> cinv (es ++ e) s'.
Proof.
  intros es s l e s' I H.
  destruct l as [i n|i|i|l]; cbn [rstep] in H.
  - destruct (r_pc s i) eqn:PC; try discriminate.
    destruct (n =? B); injection H as <- <-; apply (cinv_same es _ s _ i); cbn [r_sh r_pc]; auto;
      intros; rewrite ?goes_self, ?PC in *; try reflexivity; try discriminate; apply goes_other; auto.
  - destruct (r_pc s i) as [| | | | | |x|x t|x] eqn:PC; try discriminate.
    + injection H as <- <-; apply (cinv_same es _ s _ i); cbn [r_sh r_pc]; auto;
        intros; rewrite ?goes_self, ?PC in *; try (destruct (p_started (r_sh s)); (reflexivity || discriminate));
        apply goes_other; auto.
    + injection H as <- <-; apply (cinv_same es _ s _ i); cbn [r_sh r_pc]; auto;
        intros; rewrite ?goes_self, ?PC in *; try reflexivity; try discriminate; apply goes_other; auto.
    + destruct (p_worker (r_sh s)); injection H as <- <-; apply (cinv_same es _ s _ i); cbn [r_sh r_pc]; auto;
        intros; rewrite ?goes_self, ?PC in *; try reflexivity; try discriminate; apply goes_other; auto.
    + destruct (sc_len sc) as [L|]; [destruct (L <=? p_t (r_sh s))|]; injection H as <- <-;
        apply (cinv_same es _ s _ i); cbn [r_sh r_pc]; auto;
        intros; rewrite ?goes_self, ?PC in *; try reflexivity; try discriminate; apply goes_other; auto.
    + destruct (p_queue (r_sh s)) as [|x q]; [discriminate|]. injection H as <- <-.
      destruct I as [A C (Hs & ND & IF & L)].
      constructor; rewrite ?counted_app, ?took_app; cbn [counted took flat_map filter List.length r_sh r_pc]; rewrite ?Nat.add_0_r.
      * exact A.
      * intros j y t Q. destruct (Nat.eq_dec j i) as [->|N0];
          [rewrite goes_self in Q; discriminate | rewrite goes_other in Q by exact N0; exact (C j y t Q)].
      * exists (i :: Hs). split; [|split].
        -- constructor; [|exact ND]. intros K. apply IF in K. rewrite PC in K. discriminate.
        -- intros j. cbn [In]. destruct (Nat.eq_dec j i) as [->|N0].
           ++ rewrite goes_self. cbn. tauto.
           ++ rewrite goes_other by exact N0. rewrite <- IF. split; [intros [K|K]; [congruence|exact K] | auto].
        -- rewrite app_length. cbn. lia.
    + injection H as <- <-; apply (cinv_same es _ s _ i); cbn [r_sh r_pc]; auto.
      * intros; apply goes_other; auto.
      * rewrite goes_self, PC. reflexivity.
      * intros y t Q. rewrite goes_self in Q. injection Q as _ <-. auto.
    + injection H as <- <-. destruct I as [A C (Hs & ND & IF & L)].
      assert (J : In i Hs) by (apply IF; rewrite PC; reflexivity).
      apply in_split in J as (a & b & ->).
      pose proof (NoDup_remove _ _ _ ND) as [ND1 ND2].
      constructor; rewrite ?counted_app, ?took_app; cbn [counted took flat_map filter List.length r_sh r_pc p_t set_t];
        rewrite ?app_nil_r.
      * specialize (C i x t PC). unfold counted in *. lia.
      * intros j y t' Q. destruct (Nat.eq_dec j i) as [->|N0];
          [rewrite goes_self in Q; discriminate | rewrite goes_other in Q by exact N0].
        specialize (C j y t' Q). unfold counted in *. lia.
      * exists (a ++ b). split; [exact ND1|]. split.
        -- intros j. destruct (Nat.eq_dec j i) as [->|N0].
           ++ rewrite goes_self. cbn. split; [contradiction | discriminate].
           ++ rewrite goes_other by exact N0. rewrite <- IF, !in_app_iff. cbn. intuition congruence.
        -- unfold counted in *. rewrite app_length in *. cbn in *. lia.
    + destruct x; injection H as <- <-; apply (cinv_same es _ s _ i); cbn [r_sh r_pc]; auto;
        intros; rewrite ?goes_self, ?PC in *; try reflexivity; try discriminate; apply goes_other; auto.
  - destruct (r_pc s i) eqn:PC; try discriminate. destruct (p_queue (r_sh s)); [|discriminate].
    injection H as <- <-; apply (cinv_same es _ s _ i); cbn [r_sh r_pc]; auto;
      intros; rewrite ?goes_self, ?PC in *; try reflexivity; try discriminate; apply goes_other; auto.
  - destruct (worker_label l) eqn:WL; [|discriminate].
    destruct (pstep sc B N (r_sh s) l) as [[e1 p']|] eqn:P; [|discriminate]. injection H as <- <-.
    destruct (workers_nothing e1) as [X Y].
    apply (cinv_same es _ s _ 0); cbn [r_sh r_pc]; auto. eapply worker_keeps; eauto.
Qed.

Lemma cinv_exec : forall u ls es s, exc (rinit sc u) ls es s -> cinv es s.
Proof.
  intros u ls es s H. induction H.
  - constructor; cbn; auto; try discriminate. exists []. repeat split; cbn; auto; try constructor; try tauto; discriminate.
  - eapply cinv_step; eauto.
Qed.

Lemma counter : forall u ls es s, exc (rinit sc u) ls es s ->
  p_t (r_sh s) <= counted es /\ counted es <= List.length (took es).
Proof.
  intros u ls es s H. apply cinv_exec in H. split; [exact (c_t _ _ H)|].
  destruct (c_holders _ _ H) as (Hs & _ & _ & L). lia.
Qed.

Lemma not_early : forall u ls es s i L, exc (rinit sc u) ls es s -> sc_len sc = Some L ->
  In (REpisodeEnd i) es -> L <= List.length (took es).
Proof.
  intros u ls es s i L H SL. induction H as [|ls l es e s1 s2 H IH K]; [intros []|].
  rewrite in_app_iff, took_app, app_length. intros [X|X]; [specialize (IH X); lia|].
  destruct (counter _ _ _ _ H) as [C1 C2].
  destruct l as [j n|j|j|l]; cbn [rstep] in K.
  - destruct (r_pc s1 j); try discriminate. destruct (n =? B); injection K as <- <-; cbn in X; intuition discriminate.
  - destruct (r_pc s1 j) as [| | | | | |x|x t|x]; try discriminate; try (injection K as <- <-; cbn in X; intuition discriminate);
      try (injection K as <- <-; destruct X).
    + destruct (p_worker (r_sh s1)); injection K as <- <-; cbn in X; intuition discriminate.
    + rewrite SL in K. destruct (Nat.leb_spec L (p_t (r_sh s1))); injection K as <- <-; [lia | destruct X].
    + destruct (p_queue (r_sh s1)); [discriminate|]. injection K as <- <-; cbn in X; intuition discriminate.
    + destruct x; injection K as <- <-; cbn in X; intuition discriminate.
  - destruct (r_pc s1 j); try discriminate. destruct (p_queue (r_sh s1)); [|discriminate].
    injection K as <- <-; cbn in X; intuition discriminate.
  - destruct (worker_label l); [|discriminate]. destruct (pstep sc B N (r_sh s1) l) as [[e1 p']|]; [|discriminate].
    injection K as <- <-. apply in_map_iff in X as (? & X & _). discriminate.
Qed.

(** No two readers are ever between reading and writing the counter. *)
Definition alone (s : st) : Prop :=
  forall i j x y t t', r_pc s i = RAdd x t -> r_pc s j = RAdd y t' -> i = j.

Lemma exact_same : forall (es e : list (revent sc)) (s s' : st) i,
  (p_t (r_sh s) = counted es /\ forall j x t, r_pc s j = RAdd x t -> t = p_t (r_sh s)) ->
  counted e = 0 -> p_t (r_sh s') = p_t (r_sh s) ->
  (forall j, j <> i -> r_pc s' j = r_pc s j) ->
  (forall x t, r_pc s' i = RAdd x t -> t = p_t (r_sh s) \/ r_pc s i = RAdd x t) ->
  p_t (r_sh s') = counted (es ++ e) /\ forall j x t, r_pc s' j = RAdd x t -> t = p_t (r_sh s').
Proof.
  intros es e s s' i [A C] K P O R. rewrite counted_app, K, Nat.add_0_r, P. split; [exact A|].
  intros j x t Q. destruct (Nat.eq_dec j i) as [->|N0].
  - destruct (R x t Q) as [->|Y]; [reflexivity | exact (C i x t Y)].
  - rewrite O in Q by exact N0. exact (C j x t Q).
Qed.

Lemma exact_step : forall (es : list (revent sc)) (s : st) l e s',
  (p_t (r_sh s) = counted es /\ forall j x t, r_pc s j = RAdd x t -> t = p_t (r_sh s)) ->
  alone s -> rstep sc B N s l = Some (e, s') ->
  p_t (r_sh s') = counted (es ++ e) /\ forall j x t, r_pc s' j = RAdd x t -> t = p_t (r_sh s').
Proof.
  intros es s l e s' I AL H.
  destruct l as [i n|i|i|l]; cbn [rstep] in H.
  - destruct (r_pc s i) eqn:PC; try discriminate.
    destruct (n =? B); injection H as <- <-; apply (exact_same es _ s _ i); cbn [r_sh r_pc]; auto;
      intros; rewrite ?goes_self, ?PC in *; try discriminate; apply goes_other; auto.
  - destruct (r_pc s i) as [| | | | | |x|x t|x] eqn:PC; try discriminate.
    + injection H as <- <-; apply (exact_same es _ s _ i); cbn [r_sh r_pc]; auto;
        intros; rewrite ?goes_self, ?PC in *; try (destruct (p_started (r_sh s)); discriminate); apply goes_other; auto.
    + injection H as <- <-; apply (exact_same es _ s _ i); cbn [r_sh r_pc]; auto;
        intros; rewrite ?goes_self, ?PC in *; try discriminate; apply goes_other; auto.
    + destruct (p_worker (r_sh s)); injection H as <- <-; apply (exact_same es _ s _ i); cbn [r_sh r_pc]; auto;
        intros; rewrite ?goes_self, ?PC in *; try discriminate; apply goes_other; auto.
    + destruct (sc_len sc) as [L|]; [destruct (L <=? p_t (r_sh s))|]; injection H as <- <-;
        apply (exact_same es _ s _ i); cbn [r_sh r_pc]; auto;
        intros; rewrite ?goes_self, ?PC in *; try discriminate; apply goes_other; auto.
    + destruct (p_queue (r_sh s)) as [|x q]; [discriminate|]. injection H as <- <-.
      apply (exact_same es _ s _ i); cbn [r_sh r_pc]; auto;
        intros; rewrite ?goes_self, ?PC in *; try discriminate; apply goes_other; auto.
    + injection H as <- <-; apply (exact_same es _ s _ i); cbn [r_sh r_pc]; auto.
      * intros; apply goes_other; auto.
      * intros y t Q. rewrite goes_self in Q. injection Q as _ <-. auto.
    + injection H as <- <-. destruct I as [A C]. pose proof (C i x t PC) as ->.
      cbn [r_sh r_pc p_t set_t]. rewrite counted_app. cbn [counted filter List.length]. split; [unfold counted in *; cbn; lia|].
      intros j y t Q. destruct (Nat.eq_dec j i) as [->|N0];
        [rewrite goes_self in Q; discriminate | rewrite goes_other in Q by exact N0].
      elim N0. exact (AL j i _ _ _ _ Q PC).
    + destruct x; injection H as <- <-; apply (exact_same es _ s _ i); cbn [r_sh r_pc]; auto;
        intros; rewrite ?goes_self, ?PC in *; try discriminate; apply goes_other; auto.
  - destruct (r_pc s i) eqn:PC; try discriminate. destruct (p_queue (r_sh s)); [|discriminate].
    injection H as <- <-; apply (exact_same es _ s _ i); cbn [r_sh r_pc]; auto;
      intros; rewrite ?goes_self, ?PC in *; try discriminate; apply goes_other; auto.
  - destruct (worker_label l) eqn:WL; [|discriminate].
    destruct (pstep sc B N (r_sh s) l) as [[e1 p']|] eqn:P; [|discriminate]. injection H as <- <-.
    destruct (workers_nothing e1) as [X Y].
    apply (exact_same es _ s _ 0); cbn [r_sh r_pc]; auto. eapply worker_keeps; eauto.
Qed.

Lemma counter_exact : forall u ls es s, exc (rinit sc u) ls es s ->
  (forall ls1 ls2 es1 s1, ls = ls1 ++ ls2 -> exc (rinit sc u) ls1 es1 s1 -> alone s1) ->
  p_t (r_sh s) = counted es.
Proof.
  intros u ls es s H AL.
  enough (X : p_t (r_sh s) = counted es /\ forall j x t, r_pc s j = RAdd x t -> t = p_t (r_sh s)) by apply X.
  induction H as [|ls l es e s1 s2 H IH K].
  - split; [reflexivity | discriminate].
  - eapply exact_step; [apply IH | eapply AL; [reflexivity | exact H] | exact K].
    intros ls1 ls2 es1 s0 E X. apply (AL ls1 (ls2 ++ [l]) es1 s0); [subst ls; rewrite app_assoc; reflexivity | exact X].
Qed.

End P.
Arguments alone {sc}.
