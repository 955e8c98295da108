(** Readers of a prefetching scheduler that another thread shuts down (C128). *)
From Coq Require Import List Arith Bool Lia.
From Verif Require Import Model.Prefetch Spec.PrefetchSpec Model.Readers Spec.ReadersSpec Model.Stopper Spec.StopperSpec
  Proofs.PrefetchProofs Proofs.ReadersProofs.
Import ListNotations.
Local Open Scope nat_scope.

Section P.
Variable sc : sched.
Variables B N : nat.
Notation exc := (kexec sc B N).

Lemma kexec_app : forall s ls1 es1 s1 ls2 es2 s2,
  exc s ls1 es1 s1 -> exc s1 ls2 es2 s2 -> exc s (ls1 ++ ls2) (es1 ++ es2) s2.
Proof.
  intros s ls1 es1 s1 ls2 es2 s2 H1 H2. induction H2.
  - rewrite !app_nil_r. exact H1.
  - rewrite !app_assoc. eapply kexec_snoc; eauto.
Qed.

Lemma revents_app : forall a b, @readers_events sc (a ++ b) = readers_events a ++ readers_events b.
Proof. intros. apply flat_map_app. Qed.
Lemma revents_map : forall e, @readers_events sc (map KEv e) = e.
Proof. induction e; cbn; [reflexivity|]. unfold readers_events in *. rewrite IHe. reflexivity. Qed.
Lemma rlabels_app : forall a b, readers_labels (a ++ b) = readers_labels a ++ readers_labels b.
Proof. intros. apply flat_map_app. Qed.

(** The batches removed from the queue by anybody, in that order. *)
Definition kgone (es : list (kevent sc)) : list (sc_batch sc) :=
  flat_map (fun e => match e with
                     | KEv e => gone sc [e]
                     | KPolled (Data b) => [b]
                     | _ => []
                     end) es.
Lemma kgone_app : forall a b, kgone (a ++ b) = kgone a ++ kgone b.
Proof. intros. apply flat_map_app. Qed.
Lemma kgone_map : forall e, kgone (map KEv e) = gone sc e.
Proof.
  induction e as [|a e IH]; [reflexivity|]. cbn [map kgone flat_map]. fold (kgone (map KEv e)). rewrite IH.
  change (a :: e) with ([a] ++ e). rewrite gone_app. reflexivity.
Qed.
Definition kpolled (es : list (kevent sc)) : list (sc_batch sc) :=
  flat_map (fun e => match e with KPolled (Data b) => [b] | _ => [] end) es.
Lemma kpolled_app : forall a b, kpolled (a ++ b) = kpolled a ++ kpolled b.
Proof. intros. apply flat_map_app. Qed.
Lemma kpolled_map : forall e, kpolled (map KEv e) = [].
Proof. induction e; cbn; auto. Qed.

Lemma kgone_took : forall es, subseq (queued (took (readers_events es))) (kgone es).
Proof.
  induction es as [|e es IH]; [constructor|].
  change (e :: es) with ([e] ++ es). rewrite revents_app, took_app, queued_app, kgone_app.
  apply subseq_app; [|exact IH].
  destruct e as [e|[]|]; cbn [readers_events flat_map kgone app]; rewrite ?app_nil_r.
  - apply took_gone.
  - cbn. apply sub_skip, sub_nil.
  - constructor.
  - constructor.
Qed.

Lemma kgone_length : forall es,
  List.length (kgone es) = List.length (queued (took (readers_events es))) +
    List.length (dropped (worker_events (readers_events es))) + List.length (kpolled es).
Proof.
  induction es as [|e es IH]; [reflexivity|].
  change (e :: es) with ([e] ++ es).
  rewrite revents_app, worker_events_app, dropped_app, took_app, queued_app, kgone_app, kpolled_app, !app_length, IH.
  assert (A : List.length (kgone [e]) = List.length (queued (took (readers_events [e]))) +
    List.length (dropped (worker_events (readers_events [e]))) + List.length (kpolled [e])).
  { destruct e as [e|[]|]; cbn [readers_events flat_map kgone kpolled app]; rewrite ?app_nil_r.
    - rewrite (gone_length sc 1 (le_n 1)). cbn. lia.
    - reflexivity.
    - reflexivity.
    - reflexivity. }
  lia.
Qed.

(** One step of the readers or the background thread: what is conserved. *)
Definition conserved_k (u : sc_state sc) (n dr : nat) (g : list (sc_batch sc)) (p : pst sc) : Prop :=
  calls n u = (g ++ queued (p_queue p) ++ inflight p, p_sched p) /\
  List.length (p_queue p) <= N /\
  (if ended sc (p_worker p) then dr <= 1 else dr = 0).

Lemma ck_same : forall u n dr g p p',
  conserved_k u n dr g p -> p_queue p' = p_queue p -> p_sched p' = p_sched p ->
  (p_worker p' = p_worker p \/ p_worker p = WIdle /\ p_worker p' = WCheck) -> conserved_k u n dr g p'.
Proof.
  intros u n dr g p p' (C & L & D) Q S W. unfold conserved_k. rewrite Q, S.
  destruct W as [W|[W1 W2]]; unfold inflight in *; [rewrite W | rewrite W1 in *; rewrite W2]; auto.
Qed.

Lemma rstep_conserved : forall u n dr g s l e s', 1 <= N ->
  conserved_k u n dr g (r_sh s) -> rstep sc B N s l = Some (e, s') ->
  conserved_k u (n + rfetches [l]) (dr + List.length (dropped (worker_events e))) (g ++ gone sc e) (r_sh s').
Proof.
  intros u n dr g s l e s' HN C H.
  assert (Z : forall d (p : pst sc) k, d = 0 -> conserved_k u n dr g p -> k = @nil (sc_batch sc) ->
              conserved_k u (n + 0) (dr + d) (g ++ k) p).
  { intros d p k -> K ->. rewrite !Nat.add_0_r, app_nil_r. exact K. }
  destruct l as [i m|i|i|l]; cbn [rstep] in H.
  - destruct (r_pc s i); try discriminate.
    destruct (m =? B); injection H as <- <-; apply Z; try reflexivity; exact C.
  - destruct (r_pc s i) as [| | | | | |x|x t|x] eqn:PC; try discriminate.
    + injection H as <- <-. apply Z; try reflexivity; exact C.
    + injection H as <- <-. apply Z; try reflexivity. apply (ck_same _ _ _ _ _ _ C); cbn; auto.
    + destruct (p_worker (r_sh s)) eqn:W; injection H as <- <-; apply Z; try reflexivity; try exact C.
      apply (ck_same _ _ _ _ _ _ C); cbn; auto.
    + destruct (sc_len sc) as [L|]; [destruct (L <=? p_t (r_sh s))|]; injection H as <- <-; apply Z; try reflexivity; exact C.
    + destruct (p_queue (r_sh s)) as [|x q] eqn:Q; [discriminate|]. injection H as <- <-.
      destruct C as (C & L & D). rewrite Q in *. unfold conserved_k.
      cbn [r_sh p_queue p_sched p_worker set_queue worker_events flat_map dropped List.length].
      change (rfetches [RStep i]) with 0. rewrite !Nat.add_0_r. split; [|split; [cbn in L; lia | exact D]].
      rewrite C. unfold inflight. cbn [p_worker set_queue]. f_equal. rewrite <- !app_assoc. f_equal.
      destruct x; reflexivity.
    + injection H as <- <-. apply Z; try reflexivity; exact C.
    + injection H as <- <-. apply Z; try reflexivity. apply (ck_same _ _ _ _ _ _ C); cbn; auto.
    + destruct x; injection H as <- <-; apply Z; try reflexivity; exact C.
  - destruct (r_pc s i); try discriminate. destruct (p_queue (r_sh s)); [|discriminate].
    injection H as <- <-. apply Z; try reflexivity; exact C.
  - destruct (worker_label l) eqn:WL; [|discriminate].
    destruct (pstep sc B N (r_sh s) l) as [[e1 p']|] eqn:P; [|discriminate]. injection H as <- <-.
    cbn [r_sh]. destruct C as (C & L & D).
    destruct s as [[v q stp w sta t pc] rp]. cbn [r_sh p_queue p_sched p_worker p_stop] in *.
    destruct l; try discriminate WL; cbn [pstep p_worker] in P; destruct w; try discriminate P;
      cbn [ended] in *; cbn [inflight p_worker] in C; rewrite ?app_nil_r in C.
    + cbn [p_stop] in P. destruct stp; injection P as <- <-; change (rfetches [RWork LWCheck]) with 0; apply Z; try reflexivity;
        (split; [unfold inflight; cbn; rewrite app_nil_r; exact C | split; [exact L | cbn; lia]]).
    + change (rfetches [RWork LWFetch]) with 1. unfold fetch in P. cbn [p_sched] in P.
      destruct (sc_get sc v) as [r v'] eqn:G.
      assert (S1 : forall d (k : list (sc_batch sc)) p, d = 0 -> k = [] -> p_queue p = q ->
        (calls (S n) u = (g ++ queued q ++ inflight p, p_sched p)) -> ended sc (p_worker p) = false ->
        conserved_k u (n + 1) (dr + d) (g ++ k) p).
      { intros d k p -> -> Q1 K E. unfold conserved_k. rewrite Nat.add_0_r, app_nil_r, Nat.add_1_r, Q1, E. auto. }
      destruct r as [b| | |].
      * injection P as <- <-. apply S1; try reflexivity. cbn [calls]. rewrite C, G. unfold inflight. cbn. rewrite <- app_assoc. reflexivity.
      * destruct (sc_len sc) as [Le|] eqn:LE; [destruct (sc_next sc v') as [x|] eqn:NX|]; injection P as <- <-;
          (apply S1; try reflexivity; cbn [calls]; rewrite C, G, LE, ?NX; unfold inflight; cbn; rewrite app_nil_r; reflexivity).
      * injection P as <- <-. apply S1; try reflexivity. cbn [calls]. rewrite C, G. unfold inflight. cbn. rewrite app_nil_r. reflexivity.
      * injection P as <- <-. apply S1; try reflexivity. cbn [calls]. rewrite C, G. unfold inflight. cbn. rewrite app_nil_r. reflexivity.
    + cbn [p_queue] in P. destruct (Nat.ltb_spec (List.length q) N); [|discriminate]. injection P as <- <-.
      change (rfetches [RWork LWPut]) with 0. apply Z; try reflexivity.
      split; [|split; [cbn; rewrite app_length; cbn; lia | cbn; exact D]].
      rewrite C. unfold inflight. cbn [p_queue p_sched p_worker set_worker set_queue with_queue r_sh k_r p_stop]. rewrite queued_app. cbn. rewrite app_nil_r. reflexivity.
    + cbn [p_queue] in P. destruct (Nat.ltb_spec (List.length q) N); [|discriminate]. injection P as <- <-.
      change (rfetches [RWork LWEosPut]) with 0. apply Z; try reflexivity.
      split; [|split; [cbn; rewrite app_length; cbn; lia | cbn; lia]].
      rewrite C. unfold inflight. cbn [p_queue p_sched p_worker set_worker set_queue with_queue r_sh k_r p_stop]. rewrite queued_app. cbn. rewrite !app_nil_r. reflexivity.
    + cbn [p_queue] in P. destruct (List.length q <? N); [discriminate|]. injection P as <- <-.
      change (rfetches [RWork LWEosFull]) with 0. apply Z; try reflexivity.
      split; [unfold inflight; cbn; rewrite app_nil_r; exact C | split; [exact L | exact D]].
    + unfold force in P. cbn [p_queue] in P. change (rfetches [RWork LWForce]) with 0.
      destruct q as [|x q]; injection P as <- <-.
      * apply Z; try reflexivity. split; [|split; [cbn; lia | cbn; lia]].
        rewrite C. unfold inflight. cbn. reflexivity.
      * unfold conserved_k. rewrite Nat.add_0_r.
        split; [|split; [cbn in L |- *; rewrite app_length; cbn; lia | destruct x; cbn; lia]].
        rewrite C. unfold inflight. cbn [map gone flat_map p_queue set_worker set_queue p_sched p_worker].
        rewrite queued_app. destruct x; cbn; rewrite ?app_nil_r, <- ?app_assoc; reflexivity.
    + injection P as <- <-. change (rfetches [RWork LWSetStop]) with 0. apply Z; try reflexivity.
      split; [unfold inflight; cbn; rewrite app_nil_r; exact C | split; [exact L | exact D]].
Qed.

Record kinv (u : sc_state sc) (ls : list klabel) (es : list (kevent sc)) (s : kst sc) : Prop := mkKI {
  ki_c : conserved_k u (rfetches (readers_labels ls)) (List.length (dropped (worker_events (readers_events es)))) (kgone es) (r_sh (k_r s));
  ki_p : List.length (kpolled es) <= shutdowns ls;
  ki_q : k_pc s = KPoll -> List.length (kpolled es) < shutdowns ls
}.

Lemma shutdowns_app : forall a b, shutdowns (a ++ b) = shutdowns a + shutdowns b.
Proof. intros. unfold shutdowns. rewrite filter_app, app_length. reflexivity. Qed.
Lemma rfetches_app : forall a b, rfetches (a ++ b) = rfetches a + rfetches b.
Proof. intros. unfold rfetches. rewrite filter_app, app_length. reflexivity. Qed.

Lemma kinv_exec : forall u ls es s, 1 <= N -> exc (kinit sc u) ls es s -> kinv u ls es s.
Proof.
  intros u ls es s HN H. induction H as [|ls l es e s1 s2 H IH K].
  - constructor; cbn; auto; [|discriminate]. split; [reflexivity|]. cbn. lia.
  - destruct IH as [C P Q].
    destruct l as [l| |]; cbn [kstep] in K.
    + destruct (rstep sc B N (k_r s1) l) as [[e1 r']|] eqn:R; [|discriminate]. injection K as <- <-.
      constructor; cbn [k_r k_pc].
      * rewrite rlabels_app, revents_app, worker_events_app, dropped_app, app_length, kgone_app, kgone_map, revents_map, rfetches_app.
        cbn [readers_labels flat_map app]. exact (rstep_conserved u _ _ _ _ _ _ _ HN C R).
      * rewrite kpolled_app, kpolled_map, app_nil_r, shutdowns_app. destruct (k_pc s1); cbn; lia.
      * intros E. rewrite kpolled_app, kpolled_map, app_nil_r, shutdowns_app. specialize (Q E). cbn. lia.
    + destruct (k_pc s1) eqn:PC; try discriminate. injection K as <- <-.
      constructor; cbn [k_r k_pc r_sh]; rewrite ?app_nil_r.
      * rewrite rlabels_app. cbn [readers_labels flat_map]. rewrite app_nil_r. apply (ck_same _ _ _ _ _ _ C); cbn; auto.
      * rewrite shutdowns_app. cbn. lia.
      * intros _. rewrite shutdowns_app. cbn. lia.
    + destruct (k_pc s1) eqn:PC; try discriminate.
      * destruct (p_queue (r_sh (k_r s1))) as [|x q] eqn:QQ; injection K as <- <-.
        -- constructor; cbn [k_r k_pc]; rewrite ?app_nil_r; [|rewrite shutdowns_app; cbn; lia|discriminate].
           rewrite rlabels_app. cbn [readers_labels flat_map]. rewrite app_nil_r. exact C.
        -- constructor; cbn [k_r k_pc with_queue r_sh]; [| |discriminate].
           ++ rewrite rlabels_app, revents_app. cbn [readers_labels readers_events flat_map]. rewrite !app_nil_r, kgone_app.
              destruct C as (C & L & D). rewrite QQ in *.
              split; [|split; [cbn in L |- *; lia | exact D]].
              rewrite C. unfold inflight. cbn [p_queue p_worker p_sched set_queue].
              f_equal. rewrite <- !app_assoc. f_equal. destruct x; reflexivity.
           ++ rewrite kpolled_app, app_length, shutdowns_app. specialize (Q eq_refl). destruct x; cbn; lia.
      * injection K as <- <-. constructor; cbn [k_r k_pc]; rewrite ?app_nil_r; [|rewrite shutdowns_app; cbn; lia|discriminate].
        rewrite rlabels_app. cbn [readers_labels flat_map]. rewrite app_nil_r.
        destruct (Nat.ltb_spec (List.length (p_queue (r_sh (k_r s1)))) N); [|exact C].
        destruct C as (C & L & D). split; [|split; [cbn; rewrite app_length; cbn; lia | exact D]].
        rewrite C. unfold inflight. cbn [p_queue p_sched p_worker set_worker set_queue with_queue r_sh k_r p_stop]. rewrite queued_app. cbn. rewrite app_nil_r. reflexivity.
      * injection K as <- <-. constructor; cbn [k_r k_pc]; [| |discriminate].
        -- rewrite rlabels_app, revents_app, kgone_app. cbn [readers_labels readers_events kgone flat_map]. rewrite !app_nil_r. exact C.
        -- rewrite kpolled_app, shutdowns_app. cbn. rewrite app_nil_r. lia.
Qed.

Lemma k_order : forall u ls es s, 1 <= N -> exc (kinit sc u) ls es s ->
  subseq (queued (took (readers_events es))) (fst (calls (rfetches (readers_labels ls)) u)).
Proof.
  intros u ls es s HN H. destruct (ki_c _ _ _ _ (kinv_exec _ _ _ _ HN H)) as (C & _). rewrite C. cbn [fst].
  apply subseq_app_r, kgone_took.
Qed.

Lemma k_loss : forall u ls es s, 1 <= N -> exc (kinit sc u) ls es s ->
  List.length (fst (calls (rfetches (readers_labels ls)) u)) <=
  List.length (queued (took (readers_events es))) + List.length (queued (p_queue (r_sh (k_r s)))) +
  List.length (inflight (r_sh (k_r s))) + 1 + shutdowns ls.
Proof.
  intros u ls es s HN H. destruct (kinv_exec _ _ _ _ HN H) as [(C & _ & D) P _]. rewrite C. cbn [fst].
  rewrite !app_length, kgone_length.
  assert (List.length (dropped (worker_events (readers_events es))) <= 1) by (destruct (ended sc _); lia).
  lia.
Qed.

Lemma k_own : forall i u ls es s, exc (kinit sc u) ls es s ->
  took_by i (readers_events es) = got_by i (readers_events es) ++ holds i (k_r s).
Proof.
  intros i u ls es s H. induction H as [|ls l es e s1 s2 H IH K]; [reflexivity|].
  rewrite revents_app, took_by_app, got_by_app, IH, <- !app_assoc. f_equal.
  destruct l as [l| |]; cbn [kstep] in K.
  - destruct (rstep sc B N (k_r s1) l) as [[e1 r']|] eqn:R; [|discriminate]. injection K as <- <-.
    rewrite revents_map. cbn [k_r]. exact (own_step sc B N i _ _ _ _ R).
  - destruct (k_pc s1); try discriminate. injection K as <- <-. cbn. rewrite app_nil_r. reflexivity.
  - destruct (k_pc s1); try discriminate.
    + destruct (p_queue (r_sh (k_r s1))); injection K as <- <-; cbn; rewrite app_nil_r; reflexivity.
    + destruct (List.length (p_queue (r_sh (k_r s1))) <? N); injection K as <- <-; cbn; rewrite app_nil_r; reflexivity.
    + injection K as <- <-. cbn. rewrite app_nil_r. reflexivity.
Qed.

(** After [shutdown] has put its marker the queue is not empty. *)
Lemma k_wakes : forall s e s', 1 <= N -> k_pc s = KPut -> kstep sc B N s (KStep) = Some (e, s') ->
  p_queue (r_sh (k_r s')) <> [].
Proof.
  intros s e s' HN PC K. cbn [kstep] in K. rewrite PC in K. injection K as <- <-. cbn [k_r].
  destruct (Nat.ltb_spec (List.length (p_queue (r_sh (k_r s)))) N) as [L|L]; cbn.
  - intros E. apply app_eq_nil in E as [_ E]. discriminate.
  - intros E. rewrite E in L. cbn in L. lia.
Qed.

(** What can still come once the stop event is set. *)
Definition pend (w : wpc sc) : nat := match w with WFetch | WPut _ => 1 | _ => 0 end.
Definition coming (p : pst sc) : nat := List.length (queued (p_queue p)) + pend (p_worker p).

Definition fetching (w : wpc sc) : nat := match w with WFetch => 1 | _ => 0 end.

Lemma worker_stopped : forall p l e p', worker_label l = true -> p_stop p = true -> pstep sc B N p l = Some (e, p') ->
  p_stop p' = true /\ coming p' <= coming p /\ rfetches [RWork l] + fetching (p_worker p') <= fetching (p_worker p).
Proof.
  intros [v q stp w sta t pc] l e p' WL S H. cbn [p_stop] in S. subst stp. unfold coming.
  destruct l; try discriminate WL; cbn [pstep p_worker p_stop p_queue] in H; destruct w; try discriminate H.
  - injection H as <- <-. cbn. auto.
  - injection H as <- <-. unfold fetch. cbn [p_sched]. destruct (sc_get sc v) as [[b| | |] v']; cbn; try (repeat split; lia).
    destruct (sc_len sc); [destruct (sc_next sc v')|]; cbn; repeat split; lia.
  - destruct (_ <? _); [|discriminate]. injection H as <- <-. cbn [p_queue p_sched p_worker set_worker set_queue with_queue r_sh k_r p_stop]. rewrite queued_app, app_length. cbn. repeat split; lia.
  - destruct (_ <? _); [|discriminate]. injection H as <- <-. cbn [p_queue p_sched p_worker set_worker set_queue with_queue r_sh k_r p_stop]. rewrite queued_app, app_length. cbn. repeat split; lia.
  - destruct (_ <? _); [discriminate|]. injection H as <- <-. cbn. repeat split; lia.
  - unfold force in H. cbn [p_queue] in H. destruct q as [|x q]; injection H as <- <-; [cbn; repeat split; lia|].
    cbn [p_queue p_sched p_worker set_worker set_queue with_queue r_sh k_r p_stop]. rewrite queued_app, app_length. destruct x; cbn; fold (queued q); repeat split; lia.
  - injection H as <- <-. cbn. repeat split; lia.
Qed.

Lemma rstep_stopped : forall s l e s', p_stop (r_sh s) = true -> rstep sc B N s l = Some (e, s') ->
  p_stop (r_sh s') = true /\ List.length (queued (took e)) + coming (r_sh s') <= coming (r_sh s) /\
  rfetches [l] + fetching (p_worker (r_sh s')) <= fetching (p_worker (r_sh s)).
Proof.
  intros s l e s' S H. destruct l as [i m|i|i|l]; cbn [rstep] in H.
  - destruct (r_pc s i); try discriminate. destruct (m =? B); injection H as <- <-; cbn; repeat split; auto.
  - destruct (r_pc s i) as [| | | | | |x|x t|x] eqn:PC; try discriminate.
    + injection H as <- <-. cbn. auto.
    + injection H as <- <-. cbn. auto.
    + destruct (p_worker (r_sh s)) eqn:W; injection H as <- <-; unfold coming; cbn; rewrite ?W; cbn; auto.
    + destruct (sc_len sc) as [L|]; [destruct (L <=? p_t (r_sh s))|]; injection H as <- <-; cbn; auto.
    + destruct (p_queue (r_sh s)) as [|x q] eqn:Q; [discriminate|]. injection H as <- <-.
      unfold coming. rewrite Q. destruct x; cbn; repeat split; auto; lia.
    + injection H as <- <-. cbn. auto.
    + injection H as <- <-. cbn. auto.
    + destruct x; injection H as <- <-; cbn; auto.
  - destruct (r_pc s i); try discriminate. destruct (p_queue (r_sh s)); [|discriminate]. injection H as <- <-. cbn; auto.
  - destruct (worker_label l) eqn:WL; [|discriminate].
    destruct (pstep sc B N (r_sh s) l) as [[e1 p']|] eqn:P; [|discriminate]. injection H as <- <-.
    destruct (worker_stopped _ _ _ _ WL S P) as (A & C & D). cbn [r_sh].
    replace (took (map RWorker e1)) with (@nil (item sc)) by (clear; induction e1; cbn; auto).
    cbn [queued flat_map List.length]. auto.
Qed.

Lemma kstep_stopped : forall s l e s', p_stop (r_sh (k_r s)) = true -> kstep sc B N s l = Some (e, s') ->
  p_stop (r_sh (k_r s')) = true /\
  List.length (queued (took (readers_events e))) + coming (r_sh (k_r s')) <= coming (r_sh (k_r s)) /\
  rfetches (readers_labels [l]) + fetching (p_worker (r_sh (k_r s'))) <= fetching (p_worker (r_sh (k_r s))).
Proof.
  intros s l e s' S K. destruct l as [l| |]; cbn [kstep] in K.
  - destruct (rstep sc B N (k_r s) l) as [[e1 r']|] eqn:R; [|discriminate]. injection K as <- <-.
    rewrite revents_map. cbn [k_r readers_labels flat_map app]. exact (rstep_stopped _ _ _ _ S R).
  - destruct (k_pc s); try discriminate. injection K as <- <-. cbn. auto.
  - destruct (k_pc s); try discriminate.
    + destruct (p_queue (r_sh (k_r s))) as [|x q] eqn:Q; injection K as <- <-; [cbn; auto|].
      unfold coming. rewrite Q. destruct x; cbn; repeat split; auto; lia.
    + injection K as <- <-. cbn [k_r]. destruct (_ <? _); [|cbn; auto].
      unfold coming. cbn [p_queue p_sched p_worker set_worker set_queue with_queue r_sh k_r p_stop]. rewrite queued_app, app_length. cbn. repeat split; auto; lia.
    + injection K as <- <-. cbn. auto.
Qed.

Lemma kexec_stopped : forall s ls es s', p_stop (r_sh (k_r s)) = true -> exc s ls es s' ->
  p_stop (r_sh (k_r s')) = true /\
  List.length (queued (took (readers_events es))) + coming (r_sh (k_r s')) <= coming (r_sh (k_r s)) /\
  rfetches (readers_labels ls) + fetching (p_worker (r_sh (k_r s'))) <= fetching (p_worker (r_sh (k_r s))).
Proof.
  intros s ls es s' S H. induction H as [|ls l es e s1 s2 H IH K]; [cbn; auto|].
  destruct IH as (A & C & D). destruct (kstep_stopped _ _ _ _ A K) as (A' & C' & D').
  rewrite revents_app, took_app, queued_app, app_length, rlabels_app, rfetches_app. repeat split; auto; lia.
Qed.

Lemma queued_le : forall q : list (item sc), List.length (queued q) <= List.length q.
Proof.
  induction q as [|[b|] q IH]; [apply le_n | change (queued (Data b :: q)) with (b :: queued q) | change (queued (EOS :: q)) with (queued q)];
    cbn [List.length]; lia.
Qed.
Lemma pend_le : forall w : wpc sc, pend w <= 1.
Proof. destruct w; cbn; lia. Qed.

(** Once shutdown is called the wrapped scheduler is called at most once more. *)
Lemma k_fetches : forall s e s1 ls es s2,
  kstep sc B N s KCall = Some (e, s1) -> exc s1 ls es s2 -> rfetches (readers_labels ls) <= 1.
Proof.
  intros s e s1 ls es s2 K H. cbn [kstep] in K. destruct (k_pc s); try discriminate. injection K as <- <-.
  pose proof (fun E => kexec_stopped _ _ _ _ E H) as X. specialize (X eq_refl). destruct X as (_ & _ & D).
  assert (forall w, fetching w <= 1) as F by (destruct w; cbn; lia). specialize (F (p_worker (r_sh (k_r s)))). cbn in *. lia.
Qed.

Lemma stop_while_polling : forall u ls es s, exc (kinit sc u) ls es s -> k_pc s <> KIdle -> p_stop (r_sh (k_r s)) = true.
Proof.
  intros u ls es s H. induction H as [|ls l es e s1 s2 H IH K]; [cbn; congruence|]. intros PC.
  destruct l as [l| |].
  - assert (k_pc s2 = k_pc s1) as E by (cbn [kstep] in K; destruct (rstep sc B N (k_r s1) l) as [[? ?]|]; [|discriminate];
      injection K as <- <-; reflexivity).
    rewrite E in PC. exact (proj1 (kstep_stopped _ _ _ _ (IH PC) K)).
  - cbn [kstep] in K. destruct (k_pc s1); try discriminate. injection K as <- <-. reflexivity.
  - assert (k_pc s1 <> KIdle) as Q by (intros E; cbn [kstep] in K; rewrite E in K; discriminate).
    exact (proj1 (kstep_stopped _ _ _ _ (IH Q) K)).
Qed.

(** After shutdown's first look at the queue, at most [N] batches come out of it. *)
Lemma k_bound : forall u ls1 es1 s1 e s2 ls2 es2 s3, 1 <= N ->
  exc (kinit sc u) ls1 es1 s1 -> k_pc s1 = KPoll -> kstep sc B N s1 KStep = Some (e, s2) -> exc s2 ls2 es2 s3 ->
  List.length (queued (took (readers_events es2))) <= N.
Proof.
  intros u ls1 es1 s1 e s2 ls2 es2 s3 HN H1 PC K H2.
  assert (S : p_stop (r_sh (k_r s1)) = true) by (apply (stop_while_polling _ _ _ _ H1); congruence).
  destruct (kstep_stopped _ _ _ _ S K) as (S2 & _).
  destruct (kexec_stopped _ _ _ _ S2 H2) as (_ & C & _).
  destruct (ki_c _ _ _ _ (kinv_exec _ _ _ _ HN H1)) as (_ & L & _).
  assert (coming (r_sh (k_r s2)) <= N); [|lia].
  cbn [kstep] in K. rewrite PC in K. unfold coming in *.
  pose proof (pend_le (p_worker (r_sh (k_r s1)))) as P.
  destruct (p_queue (r_sh (k_r s1))) as [|x q] eqn:Q; injection K as <- <-; cbn [k_r with_queue r_sh p_queue p_worker set_queue].
  - rewrite Q. cbn. lia.
  - pose proof (queued_le q). cbn in L. lia.
Qed.

(** As long as nobody removes anything the queue stays non-empty. *)
Lemma kstep_nonempty : forall s l e s', kstep sc B N s l = Some (e, s') -> p_queue (r_sh (k_r s)) <> [] ->
  took (readers_events e) = [] -> (forall x, ~ In (KPolled x) e) -> p_queue (r_sh (k_r s')) <> [].
Proof.
  intros s l e s' K Q T P. destruct l as [l| |]; cbn [kstep] in K.
  - destruct (rstep sc B N (k_r s) l) as [[e1 r']|] eqn:R; [|discriminate]. injection K as <- <-.
    rewrite revents_map in T. cbn [k_r]. clear P. set (r := k_r s) in *. clearbody r.
    destruct l as [i m|i|i|l]; cbn [rstep] in R.
    + destruct (r_pc r i); try discriminate. destruct (m =? B); injection R as <- <-; exact Q.
    + destruct (r_pc r i) as [| | | | | |x|x t|x] eqn:PC; try discriminate.
      * injection R as <- <-. exact Q.
      * injection R as <- <-. exact Q.
      * destruct (p_worker (r_sh r)); injection R as <- <-; exact Q.
      * destruct (sc_len sc) as [L|]; [destruct (L <=? p_t (r_sh r))|]; injection R as <- <-; exact Q.
      * destruct (p_queue (r_sh r)) as [|x q]; [discriminate|]. injection R as <- <-. discriminate T.
      * injection R as <- <-. exact Q.
      * injection R as <- <-. exact Q.
      * destruct x; injection R as <- <-; exact Q.
    + destruct (r_pc r i); try discriminate. destruct (p_queue (r_sh r)); [congruence|discriminate].
    + destruct (worker_label l) eqn:WL; [|discriminate].
      destruct (pstep sc B N (r_sh r) l) as [[e2 p']|] eqn:PS; [|discriminate]. injection R as <- <-. cbn [r_sh].
      destruct l; try discriminate WL; cbn [pstep] in PS; destruct (p_worker (r_sh r)); try discriminate PS.
      * injection PS as <- <-. exact Q.
      * injection PS as <- <-. unfold fetch. destruct (sc_get sc (p_sched (r_sh r))) as [[b| | |] v']; try exact Q.
        destruct (sc_len sc); [destruct (sc_next sc v')|]; exact Q.
      * destruct (List.length (p_queue (r_sh r)) <? N); [|discriminate]. injection PS as <- <-. cbn.
        intros E. apply app_eq_nil in E as [_ E]. discriminate.
      * destruct (List.length (p_queue (r_sh r)) <? N); [|discriminate]. injection PS as <- <-. cbn.
        intros E. apply app_eq_nil in E as [_ E]. discriminate.
      * destruct (List.length (p_queue (r_sh r)) <? N); [discriminate|]. injection PS as <- <-. exact Q.
      * unfold force in PS. destruct (p_queue (r_sh r)) as [|x q]; [congruence|]. injection PS as <- <-. cbn.
        intros E. apply app_eq_nil in E as [_ E]. discriminate.
      * injection PS as <- <-. exact Q.
  - destruct (k_pc s); try discriminate. injection K as <- <-. exact Q.
  - destruct (k_pc s); try discriminate.
    + destruct (p_queue (r_sh (k_r s))) as [|x q]; [congruence|]. injection K as <- <-. exfalso. apply (P x). left. reflexivity.
    + destruct (List.length (p_queue (r_sh (k_r s))) <? N); injection K as <- <-; [|exact Q]. cbn.
      intros E. apply app_eq_nil in E as [_ E]. discriminate.
    + injection K as <- <-. exact Q.
Qed.

Lemma kexec_nonempty : forall s ls es s', exc s ls es s' -> p_queue (r_sh (k_r s)) <> [] ->
  took (readers_events es) = [] -> (forall x, ~ In (KPolled x) es) -> p_queue (r_sh (k_r s')) <> [].
Proof.
  intros s ls es s' H Q. induction H as [|ls l es e s1 s2 H IH K]; intros T P; [exact Q|].
  rewrite revents_app, took_app in T. apply app_eq_nil in T as [T1 T2].
  apply (kstep_nonempty _ _ _ _ K); [|exact T2|].
  - apply IH; [exact T1|]. intros x I. apply (P x), in_or_app. left. exact I.
  - intros x I. apply (P x), in_or_app. right. exact I.
Qed.

Lemma k_takes : forall s i, r_pc (k_r s) i = RWait -> p_queue (r_sh (k_r s)) <> [] ->
  (exists x s', kstep sc B N s (KR (RStep i)) = Some ([KEv (RTook i x)], s')) /\ kstep sc B N s (KR (RExpire i)) = None.
Proof.
  intros s i W Q. cbn [kstep rstep]. rewrite W. destruct (p_queue (r_sh (k_r s))) as [|x q]; [congruence|].
  split; [|reflexivity]. eexists. eexists. reflexivity.
Qed.

End P.
