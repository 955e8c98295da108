(** Readers of a prefetching scheduler beside a thread that calls [next_episode]
    (C130). *)
From Coq Require Import List Arith Bool Lia.
From Verif Require Import Model.Prefetch Spec.PrefetchSpec Model.Readers Spec.ReadersSpec Model.Skipper Spec.SkipperSpec
  Proofs.PrefetchProofs Proofs.ReadersProofs Proofs.StopperProofs.
Import ListNotations.
Local Open Scope nat_scope.

Section P.
Variable sc : sched.
Variables B N : nat.
Notation exc := (hexec sc B N).

Lemma hexec_app : forall s ls1 es1 s1 ls2 es2 s2,
  exc s ls1 es1 s1 -> exc s1 ls2 es2 s2 -> exc s (ls1 ++ ls2) (es1 ++ es2) s2.
Proof.
  intros s ls1 es1 s1 ls2 es2 s2 H1 H2. induction H2.
  - rewrite !app_nil_r. exact H1.
  - rewrite !app_assoc. eapply hexec_snoc; eauto.
Qed.

Lemma hread_app : forall a b, @read_events sc (a ++ b) = read_events a ++ read_events b.
Proof. intros. apply flat_map_app. Qed.
Lemma hread_map : forall e, @read_events sc (map HEv e) = e.
Proof. induction e; cbn; [reflexivity|]. unfold read_events in *. rewrite IHe. reflexivity. Qed.
Lemma hlabels_app : forall a b, read_labels (a ++ b) = read_labels a ++ read_labels b.
Proof. intros. apply flat_map_app. Qed.
Lemma discards_app : forall a b, @discards sc (a ++ b) = discards a ++ discards b.
Proof. intros. apply flat_map_app. Qed.
Lemma discards_map : forall e, @discards sc (map HEv e) = [].
Proof. induction e; cbn; auto. Qed.
Lemma skips_app : forall a b, skips (a ++ b) = skips a + skips b.
Proof. intros. unfold skips. rewrite filter_app, app_length. reflexivity. Qed.

(** The batches removed from the queue by anybody, in that order. *)
Definition hgone (es : list (hevent sc)) : list (sc_batch sc) :=
  flat_map (fun e => match e with
                     | HEv e => gone sc [e]
                     | HFlushed (Data b) => [b]
                     | _ => []
                     end) es.
Lemma hgone_app : forall a b, hgone (a ++ b) = hgone a ++ hgone b.
Proof. intros. apply flat_map_app. Qed.
Lemma hgone_map : forall e, hgone (map HEv e) = gone sc e.
Proof.
  induction e as [|a e IH]; [reflexivity|]. cbn [map hgone flat_map]. fold (hgone (map HEv e)). rewrite IH.
  change (a :: e) with ([a] ++ e). rewrite gone_app. reflexivity.
Qed.

Lemma subseq_nil : forall A (l : list A), subseq [] l.
Proof. induction l; constructor; assumption. Qed.

Lemma hgone_took : forall es, subseq (queued (took (read_events es))) (hgone es).
Proof.
  induction es as [|e es IH]; [constructor|].
  change (e :: es) with ([e] ++ es). rewrite hread_app, took_app, queued_app, hgone_app.
  apply subseq_app; [|exact IH].
  destruct e as [e|[]| | |]; cbn [read_events flat_map hgone app]; rewrite ?app_nil_r; try apply took_gone; apply subseq_nil.
Qed.

Lemma hgone_length : forall es,
  List.length (hgone es) = List.length (queued (took (read_events es))) +
    List.length (dropped (worker_events (read_events es))) + List.length (discards es).
Proof.
  induction es as [|e es IH]; [reflexivity|].
  change (e :: es) with ([e] ++ es).
  rewrite hread_app, worker_events_app, dropped_app, took_app, queued_app, hgone_app, discards_app, !app_length, IH.
  assert (A : List.length (hgone [e]) = List.length (queued (took (read_events [e]))) +
    List.length (dropped (worker_events (read_events [e]))) + List.length (discards [e])).
  { destruct e as [e|[]| | |]; cbn [read_events flat_map hgone discards app]; rewrite ?app_nil_r; try reflexivity.
    rewrite (gone_length sc 1 (le_n 1)). cbn. lia. }
  lia.
Qed.

Definition hcons (u : sc_state sc) (ls : list hlabel) (es : list (hevent sc)) (p : pst sc) : Prop :=
  conserved_k sc N u (rfetches (read_labels ls)) (List.length (dropped (worker_events (read_events es)))) (hgone es) p.

Lemma hinv_exec : forall u ls es s, 1 <= N -> exc (hinit sc u) ls es s -> hcons u ls es (r_sh (h_r s)).
Proof.
  intros u ls es s HN H. induction H as [|ls l es e s1 s2 H IH K].
  - split; [reflexivity|]. cbn. lia.
  - assert (Z : forall p', e = [] \/ e = [HReturned] \/ e = [HGaveUp] \/ e = [HRuntimeError] -> read_labels [l] = [] ->
      conserved_k sc N u (rfetches (read_labels ls)) (List.length (dropped (worker_events (read_events es)))) (hgone es) p' ->
      hcons u (ls ++ [l]) (es ++ e) p').
    { intros p' E RL C. unfold hcons. rewrite hlabels_app, RL, app_nil_r, hread_app, hgone_app.
      destruct E as [->|[->|[->| ->]]]; cbn [read_events hgone flat_map]; rewrite !app_nil_r; exact C. }
    unfold hcons in IH.
    destruct l as [l| | |]; cbn [hstep] in K.
    + destruct (rstep sc B N (h_r s1) l) as [[e1 r']|] eqn:R; [|discriminate]. injection K as <- <-.
      unfold hcons. rewrite hlabels_app, hread_app, hread_map, hgone_app, hgone_map, worker_events_app, dropped_app, app_length, rfetches_app.
      cbn [read_labels flat_map app h_r]. exact (rstep_conserved sc B N u _ _ _ _ _ _ _ HN IH R).
    + destruct (h_pc s1); try discriminate. destruct (sc_len sc); injection K as <- <-; apply Z; auto.
    + destruct (h_pc s1) as [| | |n| | | |] eqn:PC; try discriminate.
      * destruct (sc_len sc); [|discriminate]. injection K as <- <-. apply Z; auto.
      * destruct (sc_len sc); [|discriminate]. injection K as <- <-. apply Z; auto.
      * destruct n as [|n]; [injection K as <- <-; apply Z; auto|].
        destruct (p_queue (r_sh (h_r s1))) as [|x q] eqn:Q; [discriminate|].
        assert (E : e = [HFlushed x] /\ r_sh (h_r s2) = set_queue sc (r_sh (h_r s1)) q) by (destruct x; injection K as <- <-; auto).
        destruct E as [-> ->]. unfold hcons. rewrite hlabels_app, hread_app, hgone_app. cbn [read_labels read_events flat_map].
        rewrite !app_nil_r. destruct IH as (C & L & D). rewrite Q in *. split; [|split; [cbn in L |- *; lia | exact D]].
        rewrite C. unfold inflight. cbn [p_queue p_worker p_sched set_queue]. f_equal. rewrite <- !app_assoc. f_equal.
        destruct x; reflexivity.
      * injection K as <- <-. apply Z; auto.
      * injection K as <- <-. apply Z; auto.
      * destruct (p_worker (r_sh (h_r s1))) eqn:W; injection K as <- <-; apply Z; auto.
        apply (ck_same _ _ _ _ _ _ _ _ IH); cbn; auto.
      * injection K as <- <-. apply Z; auto.
    + destruct (h_pc s1) as [| | |[|n]| | | |]; try discriminate. injection K as <- <-. apply Z; auto.
Qed.

Lemma h_order : forall u ls es s, 1 <= N -> exc (hinit sc u) ls es s ->
  subseq (queued (took (read_events es))) (fst (calls (rfetches (read_labels ls)) u)).
Proof.
  intros u ls es s HN H. destruct (hinv_exec _ _ _ _ HN H) as (C & _). rewrite C. cbn [fst].
  apply subseq_app_r, hgone_took.
Qed.

Lemma h_loss : forall u ls es s, 1 <= N -> exc (hinit sc u) ls es s ->
  List.length (fst (calls (rfetches (read_labels ls)) u)) <=
  List.length (queued (took (read_events es))) + List.length (discards es) +
  List.length (queued (p_queue (r_sh (h_r s)))) + List.length (inflight (r_sh (h_r s))) + 1.
Proof.
  intros u ls es s HN H. destruct (hinv_exec _ _ _ _ HN H) as (C & _ & D). rewrite C. cbn [fst].
  rewrite !app_length, hgone_length.
  assert (List.length (dropped (worker_events (read_events es))) <= 1) by (destruct (ended sc _); lia). lia.
Qed.

Lemma h_own : forall i u ls es s, exc (hinit sc u) ls es s ->
  took_by i (read_events es) = got_by i (read_events es) ++ holds i (h_r s).
Proof.
  intros i u ls es s H. induction H as [|ls l es e s1 s2 H IH K]; [reflexivity|].
  rewrite hread_app, took_by_app, got_by_app, IH, <- !app_assoc. f_equal.
  destruct l as [l| | |]; cbn [hstep] in K.
  - destruct (rstep sc B N (h_r s1) l) as [[e1 r']|] eqn:R; [|discriminate]. injection K as <- <-.
    rewrite hread_map. cbn [h_r]. exact (own_step sc B N i _ _ _ _ R).
  - destruct (h_pc s1); try discriminate. destruct (sc_len sc); injection K as <- <-; cbn; rewrite app_nil_r; reflexivity.
  - destruct (h_pc s1) as [| | |[|n]| | | |]; try discriminate;
      [destruct (sc_len sc); [|discriminate] | destruct (sc_len sc); [|discriminate] | | destruct (p_queue (r_sh (h_r s1))) as [|[] q]; [discriminate| |] | | | destruct (p_worker (r_sh (h_r s1))) |];
      injection K as <- <-; cbn; rewrite app_nil_r; reflexivity.
  - destruct (h_pc s1) as [| | |[|n]| | | |]; try discriminate. injection K as <- <-. cbn. rewrite app_nil_r. reflexivity.
Qed.

(** A call discards at most as many batches as an episode has. *)
Definition todo (L : nat) (c : hpc) : nat := match c with HCheck | HRead => L | HLoop n => n | _ => 0 end.

Lemma h_few : forall L u ls es s, sc_len sc = Some L -> exc (hinit sc u) ls es s ->
  List.length (discards es) + todo L (h_pc s) <= L * skips ls.
Proof.
  intros L u ls es s LE H. induction H as [|ls l es e s1 s2 H IH K]; [cbn; lia|].
  rewrite discards_app, app_length, skips_app.
  destruct l as [l| | |]; cbn [hstep] in K; rewrite ?LE in K.
  - destruct (rstep sc B N (h_r s1) l) as [[e1 r']|]; [|discriminate]. injection K as <- <-. rewrite discards_map. cbn. lia.
  - destruct (h_pc s1); try discriminate. injection K as <- <-. cbn in *. destruct (p_started (r_sh (h_r s1))); cbn; lia.
  - destruct (h_pc s1) as [| | |[|n]| | | |]; try discriminate; cbn in IH.
    + destruct (p_t (r_sh (h_r s1)) <? L); injection K as <- <-; cbn; lia.
    + injection K as <- <-. cbn. lia.
    + injection K as <- <-. cbn. lia.
    + destruct (p_queue (r_sh (h_r s1))) as [|[] q]; [discriminate| |]; injection K as <- <-; cbn; lia.
    + injection K as <- <-. cbn. destruct (p_started (r_sh (h_r s1))); cbn; lia.
    + injection K as <- <-. cbn. lia.
    + destruct (p_worker (r_sh (h_r s1))); injection K as <- <-; cbn; lia.
    + injection K as <- <-. cbn. lia.
  - destruct (h_pc s1) as [| | |[|n]| | | |]; try discriminate. injection K as <- <-. cbn in *. lia.
Qed.

(** A call beside which nothing is read discards the rest of the episode. *)
Definition counts (L T : nat) (es : list (hevent sc)) (s : hst sc) : Prop :=
  match h_pc s with
  | HCheck | HRead => discards es = [] /\ p_t (r_sh (h_r s)) = T
  | HLoop n => List.length (discards es) + n = L - T /\ p_t (r_sh (h_r s)) = T
  | HZero => List.length (discards es) = L - T /\ p_t (r_sh (h_r s)) = T
  | HIdle => List.length (discards es) = L - T /\ p_t (r_sh (h_r s)) = 0
  | _ => False
  end.

Lemma h_alone : forall L s e s1 ls es s2, sc_len sc = Some L ->
  h_pc s = HIdle -> p_started (r_sh (h_r s)) = true -> p_t (r_sh (h_r s)) < L ->
  hstep sc B N s HCall = Some (e, s1) -> exc s1 ls es s2 -> Forall unread ls -> ~ In (HFlushed EOS) es ->
  counts L (p_t (r_sh (h_r s))) es s2.
Proof.
  intros L s e s1 ls es s2 LE PC ST TL K H U NE. cbn [hstep] in K. rewrite PC, LE, ST in K. injection K as <- <-.
  set (T := p_t (r_sh (h_r s))) in *.
  remember (mkH (h_r s) HCheck) as s0 eqn:E0. assert (C0 : counts L T [] s0) by (subst s0; split; reflexivity). clear E0.
  induction H as [|ls l es e s1 s2 H IH K]; [exact C0|].
  apply Forall_app in U as [U1 U2]. inversion U2 as [|? ? U _]. subst.
  specialize (IH U1 ltac:(intros I; apply NE, in_or_app; auto)). clear C0. unfold counts in *. rewrite discards_app.
  destruct l as [l| | |]; try destruct U; cbn [hstep] in K; rewrite ?LE in K.
  - destruct (rstep sc B N (h_r s1) l) as [[e1 r']|] eqn:R; [|discriminate]. injection K as <- <-. rewrite discards_map, app_nil_r.
    cbn [h_pc h_r]. replace (p_t (r_sh r')) with (p_t (r_sh (h_r s1))); [exact IH|]. symmetry.
    destruct l as [i m|i|i|l]; try destruct U; cbn [rstep] in R.
    + destruct (r_pc (h_r s1) i); try discriminate. destruct (p_queue (r_sh (h_r s1))); [|discriminate]. injection R as <- <-. reflexivity.
    + destruct (worker_label l) eqn:WL; [|discriminate].
      destruct (pstep sc B N (r_sh (h_r s1)) l) as [[e2 p']|] eqn:PS; [|discriminate]. injection R as <- <-.
      exact (worker_keeps sc B N _ _ _ _ WL PS).
  - destruct (h_pc s1) as [| | |[|n]| | | |]; try discriminate; try contradiction; destruct IH as [D T1].
    + injection K as <- <-. rewrite T1, D. replace (T <? L) with true by (symmetry; apply Nat.ltb_lt; exact TL). cbn. auto.
    + injection K as <- <-. rewrite T1, D. cbn. auto.
    + injection K as <- <-. rewrite app_nil_r. cbn. split; [lia|exact T1].
    + destruct (p_queue (r_sh (h_r s1))) as [|[b|] q]; [discriminate| |]; injection K as <- <-.
      * cbn. rewrite app_length. cbn. split; [lia|exact T1].
      * exfalso. apply NE, in_or_app. right. left. reflexivity.
    + injection K as <- <-. cbn. rewrite app_nil_r. auto.
Qed.

(** The end marker and the deadline end a call. *)
Lemma h_ends : forall s l e s1 ls es s2, hstep sc B N s l = Some (e, s1) -> In (HFlushed EOS) e \/ In HGaveUp e ->
  exc s1 ls es s2 -> ~ In HReturned es -> h_pc s2 = HZero /\ forall x, ~ In (HFlushed x) es.
Proof.
  intros s l e s1 ls es s2 K0 I0 H. assert (Z : h_pc s1 = HZero).
  { assert (A : forall e1 : list (revent sc), ~ (In (HFlushed EOS) (map HEv e1) \/ In HGaveUp (map HEv e1))).
    { intros e1 [I|I]; apply in_map_iff in I as (? & X & _); discriminate X. }
    destruct l as [l| | |]; cbn [hstep] in K0.
    - destruct (rstep sc B N (h_r s) l) as [[e1 r']|]; [|discriminate]. injection K0 as <- <-. destruct (A _ I0).
    - destruct (h_pc s); try discriminate. destruct (sc_len sc); injection K0 as <- <-; cbn in I0; intuition discriminate.
    - destruct (h_pc s) as [| | |[|n]| | | |]; try discriminate;
        [destruct (sc_len sc); [|discriminate] | destruct (sc_len sc); [|discriminate] | | destruct (p_queue (r_sh (h_r s))) as [|[] q]; [discriminate| |] | | | destruct (p_worker (r_sh (h_r s))) |];
        injection K0 as <- <-; cbn in I0; try (intuition discriminate); reflexivity.
    - destruct (h_pc s) as [| | |[|n]| | | |]; try discriminate. injection K0 as <- <-. reflexivity. }
  clear K0 I0 s l e. induction H as [|ls l es e' s3 s4 H IH K]; intros NR; [split; [exact Z | intros x []]|].
  destruct (IH ltac:(intros I; apply NR, in_or_app; auto)) as (P & F).
  destruct l as [l| | |]; cbn [hstep] in K; rewrite ?P in K; try discriminate.
  - destruct (rstep sc B N (h_r s3) l) as [[e1 r']|]; [|discriminate]. injection K as <- <-. split; [reflexivity|].
    intros x I. apply in_app_or in I as [I|I]; [exact (F x I)|]. apply in_map_iff in I as (? & X & _). discriminate X.
  - injection K as <- <-. exfalso. apply NR, in_or_app. right. left. reflexivity.
Qed.

(** A call that returns has seen to it that the thread is started. *)
Definition starting (s : hst sc) : Prop :=
  (p_started (r_sh (h_r s)) = true ->
     p_worker (r_sh (h_r s)) <> WIdle \/ h_pc s = HSet \/ exists i, r_pc (h_r s) i = RSet) /\
  match h_pc s with HIdle | HFlag | HSaw => True | _ => p_started (r_sh (h_r s)) = true end.

Lemma worker_starts : forall s l e s', worker_label l = true -> pstep sc B N s l = Some (e, s') ->
  p_started s' = p_started s /\ p_worker s' <> WIdle.
Proof.
  intros s l e s' W H. destruct l; try discriminate W; cbn [pstep] in H; destruct (p_worker s); try discriminate H;
    try (injection H as <- <-; cbn; destruct (p_stop s); split; solve [reflexivity | discriminate]).
  - injection H as <- <-. unfold fetch. destruct (sc_get sc (p_sched s)) as [[] v]; try (split; [reflexivity | discriminate]).
    destruct (sc_len sc); [destruct (sc_next sc v)|]; split; try reflexivity; discriminate.
  - destruct (_ <? _); [injection H as <- <-; split; [reflexivity | discriminate] | discriminate].
  - destruct (_ <? _); [injection H as <- <-; split; [reflexivity | discriminate] | discriminate].
  - destruct (_ <? _); [discriminate | injection H as <- <-; split; [reflexivity | discriminate]].
  - unfold force in H. destruct (p_queue s); injection H as <- <-; split; try reflexivity; discriminate.
Qed.

Lemma reader_starts : forall r l e r', rstep sc B N r l = Some (e, r') ->
  (p_started (r_sh r) = true -> p_started (r_sh r') = true) /\
  (p_worker (r_sh r) <> WIdle -> p_worker (r_sh r') <> WIdle) /\
  (p_started (r_sh r') = true -> p_started (r_sh r) = true \/ exists i, r_pc r' i = RSet) /\
  (forall i, r_pc r i = RSet -> p_worker (r_sh r') <> WIdle \/ r_pc r' i = RSet).
Proof.
  intros r l e r' H.
  assert (G : forall i c (p' : pst sc), (r_pc r i = RSet -> p_worker p' <> WIdle) ->
    forall j, r_pc r j = RSet -> p_worker p' <> WIdle \/ goes r i c j = RSet).
  { intros i c p' A j J. unfold goes. destruct (j =? i) eqn:E; [apply Nat.eqb_eq in E; subst; auto | auto]. }
  destruct l as [i m|i|i|l]; cbn [rstep] in H.
  - destruct (r_pc r i) eqn:PC; try discriminate. destruct (m =? B); injection H as <- <-; cbn; repeat split; auto.
    apply (G i RFlag (r_sh r)). rewrite PC. discriminate.
  - destruct (r_pc r i) as [| | | | | |x|x t|[b|]] eqn:PC; try discriminate.
    + injection H as <- <-. cbn. repeat split; auto. apply (G i _ (r_sh r)). rewrite PC. discriminate.
    + injection H as <- <-. cbn. repeat split; auto.
      * intros _. right. exists i. unfold goes. rewrite Nat.eqb_refl. reflexivity.
      * apply (G i _ (r_sh r)). rewrite PC. discriminate.
    + destruct (p_worker (r_sh r)) eqn:W; injection H as <- <-; cbn [r_sh p_worker p_started set_worker];
        (split; [auto|]; split; [rewrite ?W; intros X Y; first [discriminate Y | exact (X Y) | exact (X eq_refl)]|]; split; [auto|]; intros j J; left; rewrite ?W; discriminate).
    + destruct (sc_len sc) as [L|]; [destruct (L <=? p_t (r_sh r))|]; injection H as <- <-; cbn; repeat split; auto;
        apply (G i _ (r_sh r)); rewrite PC; discriminate.
    + destruct (p_queue (r_sh r)) as [|x q]; [discriminate|]. injection H as <- <-. cbn. repeat split; auto.
      apply (G i _ (r_sh r)). rewrite PC. discriminate.
    + injection H as <- <-. cbn. repeat split; auto. apply (G i _ (r_sh r)). rewrite PC. discriminate.
    + injection H as <- <-. cbn. repeat split; auto. apply (G i _ (r_sh r)). rewrite PC. discriminate.
    + injection H as <- <-. cbn. repeat split; auto. apply (G i _ (r_sh r)). rewrite PC. discriminate.
    + injection H as <- <-. cbn. repeat split; auto. apply (G i _ (r_sh r)). rewrite PC. discriminate.
  - destruct (r_pc r i) eqn:PC; try discriminate. destruct (p_queue (r_sh r)); [|discriminate]. injection H as <- <-.
    cbn. repeat split; auto. apply (G i _ (r_sh r)). rewrite PC. discriminate.
  - destruct (worker_label l) eqn:WL; [|discriminate].
    destruct (pstep sc B N (r_sh r) l) as [[e2 p']|] eqn:PS; [|discriminate]. injection H as <- <-.
    destruct (worker_starts _ _ _ _ WL PS) as (S1 & W1). cbn. rewrite S1. repeat split; auto.
Qed.

Lemma starting_exec : forall u ls es s, exc (hinit sc u) ls es s -> starting s.
Proof.
  intros u ls es s H. induction H as [|ls l es e s1 s2 H IH K]; [split; [discriminate | exact I]|].
  destruct IH as (A & P). destruct l as [l| | |]; cbn [hstep] in K.
  - destruct (rstep sc B N (h_r s1) l) as [[e1 r']|] eqn:R; [|discriminate]. injection K as <- <-.
    destruct (reader_starts _ _ _ _ R) as (S1 & W1 & S2 & J). split; cbn [h_r h_pc].
    + intros S'. destruct (S2 S') as [S0|X]; [|auto]. destruct (A S0) as [W|[X|(i & X)]]; auto.
      destruct (J i X); eauto.
    + destruct (h_pc s1); auto.
  - destruct (h_pc s1) eqn:PC; try discriminate. destruct (sc_len sc); injection K as <- <-.
    + split; cbn [h_r h_pc].
      * intros S0. destruct (A S0) as [?|[?|?]]; auto; discriminate.
      * destruct (p_started (r_sh (h_r s1))) eqn:S0; auto.
    + split; [rewrite PC; exact A | rewrite PC; exact I].
  - assert (A' : h_pc s1 <> HSet -> p_started (r_sh (h_r s1)) = true ->
        forall c, p_worker (r_sh (h_r s1)) <> WIdle \/ c = HSet \/ exists i, r_pc (h_r s1) i = RSet).
    { intros X S0 c. destruct (A S0) as [?|[?|?]]; auto; contradiction. }
    destruct (h_pc s1) as [| | |[|n]| | | |] eqn:PC; try discriminate.
    + destruct (sc_len sc) as [L|]; [|discriminate]. injection K as <- <-. split; cbn [h_r h_pc].
      * intros S0. apply A'; [discriminate | exact S0].
      * destruct (p_t (r_sh (h_r s1)) <? L); auto.
    + destruct (sc_len sc) as [L|]; [|discriminate]. injection K as <- <-. split; cbn [h_r h_pc]; auto.
      intros S0. apply A'; [discriminate | exact S0].
    + injection K as <- <-. split; cbn [h_r h_pc]; auto. intros S0. apply A'; [discriminate | exact S0].
    + destruct (p_queue (r_sh (h_r s1))) as [|[] q]; [discriminate| |]; injection K as <- <-; split; cbn; auto;
        intros S0; apply A'; [discriminate | exact S0 | discriminate | exact S0].
    + injection K as <- <-. split; cbn [h_r h_pc].
      * intros S0. apply A'; [discriminate | exact S0].
      * destruct (p_started (r_sh (h_r s1))) eqn:S0; auto.
    + injection K as <- <-. split; cbn; auto.
    + destruct (p_worker (r_sh (h_r s1))) eqn:W; injection K as <- <-; split; cbn; auto; try (intros _; left; rewrite ?W; discriminate).
    + injection K as <- <-. split; cbn; auto. intros S0. apply A'; [discriminate | exact S0].
  - destruct (h_pc s1) as [| | |[|n]| | | |] eqn:PC; try discriminate. injection K as <- <-. split; cbn [h_r h_pc]; auto.
    intros S0. destruct (A S0) as [?|[?|?]]; auto; discriminate.
Qed.

Lemma h_starts : forall L u ls es s1 l e s2, sc_len sc = Some L -> exc (hinit sc u) ls es s1 ->
  hstep sc B N s1 l = Some (e, s2) -> In HReturned e ->
  p_started (r_sh (h_r s2)) = true /\ (p_worker (r_sh (h_r s2)) <> WIdle \/ exists i, r_pc (h_r s2) i = RSet).
Proof.
  intros L u ls es s1 l e s2 LE H K I0. destruct (starting_exec _ _ _ _ H) as (A & P).
  destruct l as [l| | |]; cbn [hstep] in K; rewrite ?LE in K.
  - destruct (rstep sc B N (h_r s1) l) as [[e1 r']|]; [|discriminate]. injection K as <- <-.
    apply in_map_iff in I0 as (? & X & _). discriminate X.
  - destruct (h_pc s1); try discriminate. injection K as <- <-. destruct I0.
  - destruct (h_pc s1) as [| | |[|n]| | | |] eqn:PC; try discriminate;
      [| | | destruct (p_queue (r_sh (h_r s1))) as [|[] q]; [discriminate| |] | | | destruct (p_worker (r_sh (h_r s1))) |];
      injection K as <- <-; cbn in I0; try (exfalso; intuition discriminate).
    cbn. split; [exact P|]. destruct (A P) as [?|[?|?]]; auto; discriminate.
  - destruct (h_pc s1) as [| | |[|n]| | | |]; try discriminate. injection K as <- <-. cbn in I0. exfalso; intuition discriminate.
Qed.

End P.
