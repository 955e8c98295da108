(** Proofs for C123: what becomes of a dropped prefetcher. *)
From Coq Require Import List Arith Bool Lia.
From Verif Require Import Model.Prefetch Model.Abandon Spec.PrefetchSpec Spec.AbandonSpec Proofs.PrefetchProofs.
Import ListNotations.
Local Open Scope nat_scope.

Section A.

Variable sc : sched.
Variables B N : nat.
Notation st := (pst sc).
Notation step := (pstep sc B N).

(** A worker step, by the place of the thread. *)
Lemma work_cases : forall s l e s', worker_label l = true -> step s l = Some (e, s') ->
  (p_worker s = WCheck /\ s' = set_worker sc s (if p_stop s then WDone else WFetch)) \/
  (p_worker s = WFetch /\ s' = fetch sc s) \/
  (exists b, p_worker s = WPut b /\ List.length (p_queue s) < N /\
     s' = set_worker sc (set_queue sc s (p_queue s ++ [Data b])) WCheck) \/
  (p_worker s = WEosPut /\ (p_worker s' = WSetStop \/ p_worker s' = WForce)) \/
  (p_worker s = WForce /\ p_worker s' = WSetStop) \/
  (p_worker s = WSetStop /\ p_worker s' = WDone).
Proof.
  intros s l e s' W H. destruct l; try discriminate W; cbn [pstep] in H;
    destruct (p_worker s) eqn:E; try discriminate H.
  - inversion H; subst. left. auto.
  - inversion H; subst. right; left. auto.
  - destruct (List.length (p_queue s) <? N) eqn:L; [|discriminate]. apply Nat.ltb_lt in L. inversion H; subst.
    right; right; left. exists b. auto.
  - destruct (List.length (p_queue s) <? N); [|discriminate]. inversion H; subst.
    right; right; right; left. cbn. auto.
  - destruct (List.length (p_queue s) <? N); [discriminate|]. inversion H; subst.
    right; right; right; left. cbn. auto.
  - inversion H as [F]. right; right; right; right; left. split; [reflexivity|]. unfold force in F.
    destruct (p_queue s); inversion F; subst; reflexivity.
  - inversion H; subst. right; right; right; right; right. cbn. auto.
Qed.

Definition late (s : st) : Prop :=
  p_worker s = WEosPut \/ p_worker s = WForce \/ p_worker s = WSetStop \/ p_worker s = WDone \/ p_worker s = WCrashed.

Lemma late_step : forall (s : st) y, late s -> dstep B N (s, false) y ->
  (exists s', y = (s', false) /\ late s') \/ (y = (del N s, true)).
Proof.
  intros s y L D. inversion D as [s0 l e s' W P|s0 A]; subst; [left|right; reflexivity].
  exists s'. split; [reflexivity|].
  destruct (work_cases s l e s' W P) as [[E _]|[[E _]|[[b [E _]]|[[E [F|F]]|[[E F]|[E F]]]]]];
    unfold late in *; try (rewrite E in L; intuition discriminate); auto 6.
Qed.

Lemma over_acc : forall s : st, ends B N (s, true).
Proof. intro s. constructor. intros y D. inversion D. Qed.

Lemma dead_acc : forall s : st, p_worker s = WDone \/ p_worker s = WCrashed -> ends B N (s, false).
Proof.
  intros s W. constructor. intros y D. inversion D as [s0 l e s' WL P|s0 A]; subst; [|apply over_acc].
  destruct (work_cases s l e s' WL P) as [[E _]|[[E _]|[[b [E _]]|[[E _]|[[E _]|[E _]]]]]];
    destruct W; congruence.
Qed.

Lemma setstop_acc : forall s : st, p_worker s = WSetStop -> ends B N (s, false).
Proof.
  intros s W. constructor. intros y D. inversion D as [s0 l e s' WL P|s0 A]; subst; [|apply over_acc].
  destruct (work_cases s l e s' WL P) as [[E _]|[[E _]|[[b [E _]]|[[E _]|[[E _]|[E F]]]]]]; try congruence.
  apply dead_acc. auto.
Qed.

Lemma force_acc : forall s : st, p_worker s = WForce -> ends B N (s, false).
Proof.
  intros s W. constructor. intros y D. inversion D as [s0 l e s' WL P|s0 A]; subst; [|apply over_acc].
  destruct (work_cases s l e s' WL P) as [[E _]|[[E _]|[[b [E _]]|[[E _]|[[E F]|[E F]]]]]]; try congruence.
  apply setstop_acc. exact F.
Qed.

Lemma late_acc : forall s : st, late s -> ends B N (s, false).
Proof.
  intros s [L|[L|[L|[L|L]]]]; [|apply force_acc|apply setstop_acc|apply dead_acc|apply dead_acc]; auto.
  constructor. intros y D. inversion D as [s0 l e s' WL P|s0 A]; subst; [|apply over_acc].
  destruct (work_cases s l e s' WL P) as [[E _]|[[E _]|[[b [E _]]|[[E [F|F]]|[[E F]|[E F]]]]]]; try congruence;
    [apply setstop_acc|apply force_acc]; exact F.
Qed.

(** Before the end of the data the thread is at one of three places. *)
Definition early (s : st) : Prop :=
  p_stop s = false /\ reading s.

Lemma early_alive : forall s : st, early s -> alive (p_worker s) = true.
Proof. intros s [_ [E|[E|[b E]]]]; rewrite E; reflexivity. Qed.

Lemma early_step : forall (s : st) y, early s -> dstep B N (s, false) y -> exists s', y = (s', false) /\
  ((p_worker s = WCheck /\ s' = set_worker sc s WFetch) \/
   (p_worker s = WFetch /\ s' = fetch sc s) \/
   (exists b, p_worker s = WPut b /\ List.length (p_queue s) < N /\
     s' = set_worker sc (set_queue sc s (p_queue s ++ [Data b])) WCheck)).
Proof.
  intros s y E D. pose proof (early_alive s E) as A. destruct E as [S E].
  inversion D as [s0 l e s' WL P|s0 A']; subst; [|congruence].
  exists s'. split; [reflexivity|].
  destruct (work_cases s l e s' WL P) as [[W F]|[[W F]|[[b [W F]]|[[W _]|[[W _]|[W _]]]]]].
  - left. rewrite S in F. auto.
  - right; left; auto.
  - right; right. exists b. auto.
  - destruct E as [E|[E|[b E]]]; congruence.
  - destruct E as [E|[E|[b E]]]; congruence.
  - destruct E as [E|[E|[b E]]]; congruence.
Qed.

(** One fetch. *)
Lemma fetch_batch : forall (s : st) b w, sc_get sc (p_sched s) = (GBatch b, w) -> fetch sc s = set_worker sc (set_sched sc s w) (WPut b).
Proof. intros s b w H. unfold fetch. rewrite H. reflexivity. Qed.
Lemma fetch_next : forall (s : st) w x L, sc_get sc (p_sched s) = (GEpisodeEnd, w) -> sc_len sc = Some L -> sc_next sc w = Some x ->
  fetch sc s = set_worker sc (set_sched sc s x) WCheck.
Proof. intros s w x L H HL HX. unfold fetch. rewrite H, HL, HX. reflexivity. Qed.

Lemma put_acc : forall s : st, early s -> (forall b, p_worker s = WPut b -> List.length (p_queue s) < N ->
    ends B N (set_worker sc (set_queue sc s (p_queue s ++ [Data b])) WCheck, false)) ->
  (exists b, p_worker s = WPut b) -> ends B N (s, false).
Proof.
  intros s E H [b W]. constructor. intros y D. destruct (early_step s y E D) as [s' [-> [[W' _]|[[W' _]|[b' [W' [R F]]]]]]]; try congruence.
  subst s'. apply H; assumption.
Qed.
Lemma check_acc : forall s : st, early s -> p_worker s = WCheck -> ends B N (set_worker sc s WFetch, false) -> ends B N (s, false).
Proof.
  intros s E W H. constructor. intros y D. destruct (early_step s y E D) as [s' [-> [[W' F]|[[W' _]|[b' [W' _]]]]]]; try congruence.
  subst s'. exact H.
Qed.
Lemma fetch_acc : forall s : st, early s -> p_worker s = WFetch -> ends B N (fetch sc s, false) -> ends B N (s, false).
Proof.
  intros s E W H. constructor. intros y D. destruct (early_step s y E D) as [s' [-> [[W' _]|[[W' F]|[b' [W' _]]]]]]; try congruence.
  subst s'. exact H.
Qed.

(** If both other places are fine, so is each place. *)
Lemma drains_acc : forall k v, drains sc k v -> forall s : st, p_sched s = v -> early s -> ends B N (s, false).
Proof.
  intros k v D.
  assert (F : forall s : st, p_sched s = v -> p_stop s = false -> p_worker s = WFetch -> ends B N (s, false)).
  { induction D as [v w G|v w G|k v b w G D IH|k v w x L G HL HX D IH]; intros s E S W.
    - apply fetch_acc; [split; unfold reading; auto|exact W|]. unfold fetch. rewrite E, G. apply late_acc. left; reflexivity.
    - apply fetch_acc; [split; unfold reading; auto|exact W|]. unfold fetch. rewrite E, G. apply late_acc. right; right; right; right; reflexivity.
    - apply fetch_acc; [split; unfold reading; auto|exact W|]. rewrite <- E in G. rewrite (fetch_batch s b w G).
      apply put_acc.
      + split; [exact S|]. right; right. exists b; reflexivity.
      + intros b' _ _. apply check_acc; [split; [exact S|left; reflexivity]|reflexivity|].
        apply IH; [reflexivity|exact S|reflexivity].
      + exists b; reflexivity.
    - apply fetch_acc; [split; unfold reading; auto|exact W|]. rewrite <- E in G. rewrite (fetch_next s w x L G HL HX).
      apply check_acc; [split; [exact S|left; reflexivity]|reflexivity|].
      apply IH; [reflexivity|exact S|reflexivity]. }
  intros s E [S W]. destruct W as [W|[W|[b W]]].
  - apply check_acc; [split; unfold reading; auto|exact W|]. apply F; [exact E|exact S|reflexivity].
  - apply F; assumption.
  - apply put_acc.
    + split; [exact S|]. right; right. exists b; exact W.
    + intros b' _ _. apply check_acc; [split; [exact S|left; reflexivity]|reflexivity|]. apply F; [exact E|exact S|reflexivity].
    + exists b; exact W.
Qed.

Lemma endless_acc : forall I, endless sc I -> forall m (s : st), N - List.length (p_queue s) <= m -> I (p_sched s) -> early s -> ends B N (s, false).
Proof.
  intros I [H _] m. induction m as [m IH] using lt_wf_ind. intros s Q V [S W].
  assert (P : forall s : st, N - List.length (p_queue s) <= m -> I (p_sched s) -> p_stop s = false -> (exists b, p_worker s = WPut b) -> ends B N (s, false)).
  { clear s Q S W V. intros s Q V S W. apply put_acc.
    - split; [exact S|right; right; exact W].
    - intros b Wb R. apply IH with (m := N - List.length (p_queue s ++ [Data b])).
      + rewrite app_length. cbn [List.length]. lia.
      + reflexivity.
      + exact V.
      + split; [exact S|left; reflexivity].
    - exact W. }
  assert (F1 : forall (s : st) b w, N - List.length (p_queue s) <= m -> p_stop s = false -> p_worker s = WFetch ->
     sc_get sc (p_sched s) = (GBatch b, w) -> I w -> ends B N (s, false)).
  { intros s1 b w Q1 S1 W1 G V1. apply fetch_acc; [split; [auto|right; left; auto]|exact W1|]. rewrite (fetch_batch s1 b w G).
    apply P; [exact Q1|exact V1|exact S1|exists b; reflexivity]. }
  assert (F : forall s : st, N - List.length (p_queue s) <= m -> I (p_sched s) -> p_stop s = false -> p_worker s = WFetch -> ends B N (s, false)).
  { intros s1 Q1 V1 S1 W1. destruct (H (p_sched s1) V1) as [[b [w [G V2]]]|[w [x [L [b [y [G [HL [HX [V2 G2]]]]]]]]]].
    - exact (F1 s1 b w Q1 S1 W1 G V2).
    - apply fetch_acc; [split; [auto|right; left; auto]|exact W1|]. rewrite (fetch_next s1 w x L G HL HX).
      apply check_acc; [split; [exact S1|left; reflexivity]|reflexivity|].
      apply (F1 _ b y); [exact Q1|exact S1|reflexivity|exact G2|].
      destruct (H x V2) as [[b' [w' [G' V3]]]|[w' [x' [L' [b' [y' [G' _]]]]]]]; congruence. }
  destruct W as [W|[W|W]].
  - apply check_acc; [split; [exact S|left; exact W]|exact W|]. apply F; [exact Q|exact V|exact S|reflexivity].
  - apply F; assumption.
  - apply P; assumption.
Qed.

(** ** Where runs end *)
Lemma final_late : forall s : st, late s -> ~ final B N (s, false).
Proof.
  intros s L F. destruct L as [W|[W|[W|[W|W]]]].
  - destruct (List.length (p_queue s) <? N) eqn:R.
    + eapply F. eapply d_work with (l := LWEosPut); [reflexivity|]. cbn [pstep]. rewrite W, R. reflexivity.
    + eapply F. eapply d_work with (l := LWEosFull); [reflexivity|]. cbn [pstep]. rewrite W, R. reflexivity.
  - destruct (force sc s) as [e s'] eqn:E. apply (F (s', false)). apply d_work with (l := LWForce) (e := e); [reflexivity|].
    cbn [pstep]. rewrite W, E. reflexivity.
  - eapply F. eapply d_work with (l := LWSetStop); [reflexivity|]. cbn [pstep]. rewrite W. reflexivity.
  - apply (F (del N s, true)). apply d_del. rewrite W. reflexivity.
  - apply (F (del N s, true)). apply d_del. rewrite W. reflexivity.
Qed.

Lemma final_early : forall s : st, early s -> final B N (s, false) -> (exists b, p_worker s = WPut b) /\ N <= List.length (p_queue s).
Proof.
  intros s [S [W|[W|[b W]]]] F.
  - exfalso. eapply F. eapply d_work with (l := LWCheck); [reflexivity|]. cbn [pstep]. rewrite W. reflexivity.
  - exfalso. eapply F. eapply d_work with (l := LWFetch); [reflexivity|]. cbn [pstep]. rewrite W. reflexivity.
  - split; [exists b; exact W|]. destruct (le_lt_dec N (List.length (p_queue s))) as [L|L]; [exact L|].
    exfalso. eapply F. eapply d_work with (l := LWPut); [reflexivity|]. cbn [pstep]. rewrite W.
    rewrite (proj2 (Nat.ltb_lt _ _) L). reflexivity.
Qed.

(** What is stored, in hand and still to come stays the same until the end. *)
Definition holds (T : nat) (s : st) : Prop :=
  early s /\ List.length (p_queue s) <= N /\ exists k, drains sc k (p_sched s) /\ List.length (p_queue s) + in_hand s + k = T.

Lemma holds_step : forall T (s : st) y, holds T s -> dstep B N (s, false) y -> exists s', y = (s', false) /\
  (holds T s' \/ (late s' /\ T <= N)).
Proof.
  intros T s y [E [Q [k [D K]]]] ST. destruct (early_step s y E ST) as [s' [-> C]]. exists s'. split; [reflexivity|].
  destruct E as [S _]. destruct C as [[W ->]|[[W ->]|[b [W [R ->]]]]].
  - left. split; [split; [exact S|right; left; reflexivity]|]. split; [exact Q|]. exists k. split; [exact D|].
    unfold in_hand in *. rewrite W in K. cbn in *. lia.
  - unfold in_hand in K. rewrite W in K. inversion D as [v w G|v w G|k' v b w G D'|k' v w x L G HL HX D']; subst.
    + right. unfold fetch. rewrite G. split; [left; reflexivity|lia].
    + right. unfold fetch. rewrite G. split; [right; right; right; right; reflexivity|lia].
    + left. rewrite (fetch_batch s b w G). split; [split; [exact S|right; right; exists b; reflexivity]|].
      split; [exact Q|]. exists k'. split; [exact D'|]. unfold in_hand. cbn. lia.
    + left. rewrite (fetch_next s w x L G HL HX). split; [split; [exact S|left; reflexivity]|].
      split; [exact Q|]. exists k. split; [exact D'|]. unfold in_hand. cbn. lia.
  - left. split; [split; [exact S|left; reflexivity]|]. split; [cbn; rewrite app_length; cbn; lia|].
    exists k. split; [exact D|]. unfold in_hand in *. rewrite W in K. cbn. rewrite app_length. cbn. lia.
Qed.

Lemma late_steps : forall (x y : st * bool), dsteps B N x y -> forall s : st, x = (s, false) -> late s -> final B N y -> snd y = true.
Proof.
  intros x y H. induction H as [x|x y z D H IH]; intros s -> L F.
  - exfalso. exact (final_late s L F).
  - destruct (late_step s y L D) as [[s' [-> L']]| ->].
    + exact (IH s' eq_refl L' F).
    + inversion H; subst; [reflexivity|]. inversion H0.
Qed.

Lemma holds_steps : forall T (x y : st * bool), dsteps B N x y -> forall s : st, x = (s, false) -> holds T s -> final B N y ->
  (T <= N /\ snd y = true) \/ (N < T /\ snd y = false /\ blocked N (fst y)).
Proof.
  intros T x y H. induction H as [x|x y z D H IH]; intros s -> HO F.
  - destruct HO as [E [Q [k [DR K]]]]. destruct (final_early s E F) as [[b W] L]. right.
    unfold in_hand in K. rewrite W in K. split; [lia|]. split; [reflexivity|]. split; [exists b; exact W|cbn; lia].
  - destruct (holds_step T s y HO D) as [s' [-> [HO'|[L TN]]]].
    + exact (IH s' eq_refl HO' F).
    + left. split; [exact TN|]. exact (late_steps _ _ H s' eq_refl L F).
Qed.

Lemma endless_step : forall I, endless sc I -> forall (s : st) y, early s -> I (p_sched s) -> List.length (p_queue s) <= N -> dstep B N (s, false) y ->
  exists s', y = (s', false) /\ early s' /\ I (p_sched s') /\ List.length (p_queue s') <= N.
Proof.
  intros I [H _] s y E V Q D. destruct (early_step s y E D) as [s' [-> C]]. exists s'. split; [reflexivity|].
  destruct E as [S _]. destruct C as [[W ->]|[[W ->]|[b [W [R ->]]]]].
  - split; [split; [exact S|right; left; reflexivity]|split; [exact V|exact Q]].
  - destruct (H (p_sched s) V) as [[b [w [G V2]]]|[w [x [L [b [y' [G [HL [HX [V2 _]]]]]]]]]].
    + rewrite (fetch_batch s b w G). split; [split; [exact S|right; right; exists b; reflexivity]|split; [exact V2|exact Q]].
    + rewrite (fetch_next s w x L G HL HX). split; [split; [exact S|left; reflexivity]|split; [exact V2|exact Q]].
  - split; [split; [exact S|left; reflexivity]|]. split; [exact V|]. cbn. rewrite app_length. cbn. lia.
Qed.

Lemma endless_steps : forall I, endless sc I -> forall (x y : st * bool), dsteps B N x y -> forall s : st, x = (s, false) -> early s -> I (p_sched s) -> List.length (p_queue s) <= N ->
  exists s', y = (s', false) /\ early s' /\ List.length (p_queue s') <= N.
Proof.
  intros I H x y D. induction D as [x|x y z D1 D IH]; intros s -> E V Q; [exists s; auto|].
  destruct (endless_step I H s y E V Q D1) as [s' [-> [E' [V' Q']]]]. exact (IH s' eq_refl E' V' Q').
Qed.

(** Over an endless scheduler the thread never comes to the end of the data. *)
Lemma endless_early : forall I, endless sc I -> forall u ls es s, I u -> exec sc B N (pinit sc u) ls es s ->
  I (p_sched s) /\ match p_worker s with WEosPut | WForce | WSetStop | WCrashed => False | _ => True end.
Proof.
  intros I [H HR] u ls es s U X. remember (pinit sc u) as s0 eqn:E0. induction X as [|ls l es e s1 s2 X [V IH] P]; [subst; split; [exact U|exact Logic.I]|].
  apply step_R in P.
  destruct (start_fields sc s1) as (F1 & F2 & F3 & F4 & F5 & F6).
  assert (HG : forall u, (sc_get sc (p_sched s1) = (GStop, u) -> False) /\ (sc_get sc (p_sched s1) = (GFail, u) -> False) /\
     (sc_get sc (p_sched s1) = (GEpisodeEnd, u) -> sc_len sc = None \/ sc_next sc u = None -> False)).
  { intro v. destruct (H (p_sched s1) V) as [[b [w [G _]]]|[w [x [L [b [y [G [HL [HX _]]]]]]]]]; rewrite G.
    - repeat split; intros; discriminate.
    - repeat split; try (intros; discriminate). intros K [K1|K1]; [congruence|]. inversion K; subst. congruence. }
  split.
  - destruct P; cbn; try exact V; try (rewrite ?F1, ?F2, ?F3, ?F4, ?F5; exact V); try (exact (HR _ V));
      try (exfalso; destruct (HG u0) as [G1 [G2 G3]]; eauto; fail).
    + destruct (H (p_sched s1) V) as [[b' [w [G V2]]]|[w [x [L [b' [y [G _]]]]]]]; congruence.
    + destruct (H (p_sched s1) V) as [[b' [w [G V2]]]|[w [x' [L' [b' [y [G [HL [HX [V2 _]]]]]]]]]]; congruence.
  - destruct P; cbn; rewrite ?F6; try exact Logic.I; try exact IH;
    try (destruct (p_started s1); [exact IH|exact Logic.I]);
    try (destruct (HG u0) as [G1 [G2 G3]]; eauto; fail);
    try (rewrite H0 in IH; contradiction).
Qed.

(** ** Told to stop, with room in the queue *)
Lemma stopped_check : forall s : st, p_stop s = true -> p_worker s = WCheck -> forall y, dstep B N (s, false) y ->
  exists s', y = (s', false) /\ p_worker s' = WDone.
Proof.
  intros s S W y D. inversion D as [s0 l e s' WL P|s0 A]; subst; [|rewrite W in A; discriminate].
  exists s'. split; [reflexivity|].
  destruct (work_cases s l e s' WL P) as [[_ ->]|[[E _]|[[b [E _]]|[[E _]|[[E _]|[E _]]]]]]; try congruence.
  rewrite S. reflexivity.
Qed.

Definition stopping (s : st) : Prop :=
  p_stop s = true /\ (p_worker s = WCheck \/ List.length (p_queue s) < N /\ (p_worker s = WFetch \/ exists b, p_worker s = WPut b)).

Lemma stopping_step : forall (s : st) y, stopping s -> dstep B N (s, false) y -> exists s', y = (s', false) /\ (stopping s' \/ late s').
Proof.
  intros s y [S C] D. destruct C as [W|[Q W]].
  - destruct (stopped_check s S W y D) as [s' [-> F]]. exists s'. split; [reflexivity|]. right. unfold late. auto.
  - inversion D as [s0 l e s' WL P|s0 A]; subst; [|destruct W as [W|[b W]]; rewrite W in A; discriminate].
    exists s'. split; [reflexivity|].
    destruct (work_cases s l e s' WL P) as [[E _]|[[E F]|[[b [E [R F]]]|[[E _]|[[E _]|[E _]]]]]];
      try (destruct W as [W|[b' W]]; congruence).
    + subst s'. unfold fetch. destruct (sc_get sc (p_sched s)) as [r w]. destruct r as [b| | |].
      * left. split; [exact S|]. right. split; [exact Q|]. right. exists b. reflexivity.
      * destruct (sc_len sc); [destruct (sc_next sc w)|].
        -- left. split; [exact S|]. left. reflexivity.
        -- right. unfold late. auto 6.
        -- right. unfold late. auto 6.
      * right. left. reflexivity.
      * right. unfold late. auto 6.
    + subst s'. left. split; [exact S|]. left. reflexivity.
Qed.

Lemma stopping_acc : forall s : st, stopping s -> ends B N (s, false).
Proof.
  assert (C : forall s : st, p_stop s = true -> p_worker s = WCheck -> ends B N (s, false)).
  { intros s S W. constructor. intros y D. destruct (stopped_check s S W y D) as [s' [-> F]]. apply dead_acc. auto. }
  assert (P : forall (s : st) b, p_stop s = true -> p_worker s = WPut b -> ends B N (s, false)).
  { intros s b S W. constructor. intros y D. inversion D as [s0 l e s' WL P|s0 A]; subst; [|apply over_acc].
    destruct (work_cases s l e s' WL P) as [[E _]|[[E F]|[[b' [E [R F]]]|[[E _]|[[E _]|[E _]]]]]]; try congruence.
    subst s'. apply C; [exact S|reflexivity]. }
  intros s [S [W|[Q [W|[b W]]]]]; [auto| |eauto].
  constructor. intros y D. inversion D as [s0 l e s' WL PS|s0 A]; subst; [|apply over_acc].
  destruct (work_cases s l e s' WL PS) as [[E _]|[[E F]|[[b' [E [R F]]]|[[E _]|[[E _]|[E _]]]]]]; try congruence.
  subst s'. unfold fetch. destruct (sc_get sc (p_sched s)) as [r w]. destruct r as [b| | |].
  - apply (P _ b); [exact S|reflexivity].
  - destruct (sc_len sc); [destruct (sc_next sc w)|].
    + apply C; [exact S|reflexivity].
    + apply dead_acc. auto.
    + apply dead_acc. auto.
  - apply late_acc. left. reflexivity.
  - apply dead_acc. auto.
Qed.

Lemma stopping_final : forall s : st, stopping s -> ~ final B N (s, false).
Proof.
  intros s [S [W|[Q [W|[b W]]]]] F.
  - eapply F. eapply d_work with (l := LWCheck); [reflexivity|]. cbn [pstep]. rewrite W. reflexivity.
  - eapply F. eapply d_work with (l := LWFetch); [reflexivity|]. cbn [pstep]. rewrite W. reflexivity.
  - eapply F. eapply d_work with (l := LWPut); [reflexivity|]. cbn [pstep]. rewrite W.
    rewrite (proj2 (Nat.ltb_lt _ _) Q). reflexivity.
Qed.

Lemma stopping_steps : forall (x y : st * bool), dsteps B N x y -> forall s : st, x = (s, false) -> stopping s -> final B N y -> snd y = true.
Proof.
  intros x y H. induction H as [x|x y z D H IH]; intros s -> L F.
  - exfalso. exact (stopping_final s L F).
  - destruct (stopping_step s y L D) as [s' [-> [L'|L']]].
    + exact (IH s' eq_refl L' F).
    + exact (late_steps _ _ H s' eq_refl L' F).
Qed.

(** ** What a collected scheduler is like *)
Lemma work_dead : forall s l e s', alive (p_worker s) = false -> worker_label l = true -> step s l = Some (e, s') -> False.
Proof.
  intros s l e s' A W P.
  destruct (work_cases s l e s' W P) as [[E _]|[[E F]|[[b' [E [R F]]]|[[E _]|[[E _]|[E _]]]]]]; rewrite E in A; discriminate.
Qed.

Lemma del_fields : forall s : st, p_stop (del N s) = true /\ p_worker (del N s) = p_worker s /\ p_sched (del N s) = p_sched s.
Proof.
  intro s. unfold del, poll. destruct (p_queue (set_stop sc s)); cbn [snd];
    match goal with |- context [if ?c then _ else _] => destruct c end; repeat split; reflexivity.
Qed.

Lemma collected_fields : forall (x y : st * bool), dsteps B N x y -> snd x = false -> snd y = true ->
  p_stop (fst y) = true /\ alive (p_worker (fst y)) = false.
Proof.
  intros x y H. induction H as [x|x y z D H IH]; intros F T; [congruence|].
  inversion D; subst.
  - exact (IH eq_refl T).
  - inversion H; subst; [|match goal with K : dstep _ _ (_, true) _ |- _ => inversion K end].
    cbn. destruct (del_fields s) as [A1 [A2 _]]. rewrite A2. auto.
Qed.

End A.
