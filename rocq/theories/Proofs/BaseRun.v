(** Histories of calls on the base scheduler. *)
From Coq Require Import List Arith Lia String Bool QArith Permutation.
From Verif Require Import Prelude Model.Base Spec.BaseSpec.
From Verif Require Import Proofs.BaseProofs Proofs.BaseBatch.
Import ListNotations.
Local Open Scope nat_scope.

(** * Pulling from an event list *)

Fixpoint pull (n : nat) (evs : list ev) : list SchedData * option exn * list ev :=
  match n with
  | 0 => ([], None, evs)
  | S n =>
      match evs with
      | [] => ([], None, [])
      | Good x :: r => let '(l, o, r') := pull n r in (x :: l, o, r')
      | Bad e :: _ => ([], Some e, evs)
      end
  end.

Lemma pull_good : forall n xs,
  pull n (map Good xs) = (firstn n xs, None, map Good (skipn n xs)).
Proof.
  induction n; intros xs; simpl; auto. destruct xs as [|x xs]; simpl; auto.
  rewrite IHn. reflexivity.
Qed.

Lemma pull_bad_short : forall n xs e r,
  n <= List.length xs ->
  pull n (map Good xs ++ Bad e :: r) =
  (firstn n xs, None, map Good (skipn n xs) ++ Bad e :: r).
Proof.
  induction n; intros xs e r H; simpl; auto. destruct xs as [|x xs]; simpl in *; [lia|].
  rewrite IHn by lia. reflexivity.
Qed.

Lemma pull_bad_long : forall n xs e r,
  List.length xs < n ->
  pull n (map Good xs ++ Bad e :: r) = (xs, Some e, Bad e :: r).
Proof.
  induction n; intros xs e r H; [lia|]. destruct xs as [|x xs]; simpl in *; auto.
  rewrite IHn by lia. reflexivity.
Qed.

Section WithDisk.
Variable c : cfg.
Variable C : string -> content.
Hypothesis HD : disk (c_loader c) C.

Lemma pending_no_stop : slice_never_stops (c_loader c) ->
  forall p, ~ In (Bad StopIteration) (events C p).
Proof.
  intros HN p. pose proof (HD p) as H. unfold events.
  destruct (C p) as [|l|l e]; simpl; auto.
  - intro Hin. apply in_map_iff in Hin. destruct Hin as [x [Hx _]]. discriminate.
  - intro Hin. apply in_app_iff in Hin. destruct Hin as [Hin|[Hin|[]]].
    + apply in_map_iff in Hin. destruct Hin as [x [Hx _]]. discriminate.
    + inversion Hin; subst e. destruct H as [d [_ [_ H]]]. eapply HN; eauto.
Qed.

(** * Non-looping collection *)

Lemma collect_noloop : forall fuel n acc s,
  c_loop c = false -> Inv c C s -> List.length (s_files s) < fuel ->
  (forall r, pull n (pending C s) <> (r, Some StopIteration, snd (pull n (pending C s)))) ->
  exists s', Inv c C s' /\ s_files s' = s_files s /\ s_key s' = s_key s /\
    let '(l, o, r) := pull n (pending C s) in
    pending C s' = r /\
    collect c fuel n acc s =
      (match o with None => Collected (acc ++ l) | Some e => CollectRaise e end, s').
Proof.
  intros fuel n; induction n as [|n IH]; intros acc s Hl HI Hf Hns.
  - exists s. simpl. rewrite app_nil_r. auto.
  - simpl pull in *. simpl collect.
    destruct (pending C s) as [|[x|e] r] eqn:Ep.
    + destruct (get_next_stop c C HD fuel s Hl HI Ep) as [s' [H1 [H2 [H3 [H4 H5]]]]]; [lia|].
      exists s'. rewrite H1, app_nil_r. auto.
    + destruct (get_next_pending c C HD fuel s HI) as [s' [H1 [H2 [H3 H4]]]].
      { rewrite Ep; discriminate. }
      { lia. }
      rewrite Ep in H4. destruct H4 as [H4 H5]. rewrite H4.
      destruct (IH (acc ++ [x]) s' Hl H1) as [s'' [K1 [K2 [K3 K4]]]].
      { rewrite H2; exact Hf. }
      { rewrite H5. intros l0 Hc. destruct (pull n r) as [[l o] r'].
        simpl in *. apply (Hns (x :: l)). congruence. }
      rewrite H5 in K4. destruct (pull n r) as [[l o] r']. destruct K4 as [K4 K5].
      exists s''. rewrite K5. rewrite <- app_assoc. simpl.
      repeat split; auto; congruence.
    + destruct (get_next_pending c C HD fuel s HI) as [s' [H1 [H2 [H3 H4]]]].
      { rewrite Ep; discriminate. }
      { lia. }
      rewrite Ep in H4. destruct H4 as [H4 H5]. rewrite H4.
      exists s'. repeat split; auto.
      simpl in Hns. destruct e; auto. exfalso. apply (Hns []). reflexivity.
Qed.

(** The tail of [get_batch] applied to what was pulled. *)
Definition finish (n : nat) (l : list SchedData) (o : option exn) : call_res :=
  match o with
  | Some e => CRaise e
  | None =>
      match l with
      | [] => CRaise StopIteration
      | _ => match assemble false n l with Ok d => CReturn d | Err e => CRaise e end
      end
  end.

Lemma get_batch_noloop : forall fuel n s,
  c_loop c = false -> Inv c C s -> List.length (s_files s) < fuel ->
  (forall l r, pull n (pending C s) <> (l, Some StopIteration, r)) ->
  exists s', Inv c C s' /\ s_files s' = s_files s /\ s_key s' = s_key s /\
    pending C s' = snd (pull n (pending C s)) /\
    get_batch c fuel n s =
      (finish n (fst (fst (pull n (pending C s)))) (snd (fst (pull n (pending C s)))), s').
Proof.
  intros fuel n s Hl HI Hf Hns.
  destruct (collect_noloop fuel n [] s Hl HI Hf) as [s' [H1 [H2 [H3 H4]]]].
  { intros r H. eapply Hns; eauto. }
  exists s'. destruct (pull n (pending C s)) as [[l o] r] eqn:E.
  destruct H4 as [H4 H5]. simpl in *. repeat split; auto.
  unfold get_batch. rewrite H5, Hl. unfold finish. destruct o as [e|]; auto.
  destruct l as [|x l]; auto. simpl.
  destruct (assemble false n (x :: l)); reflexivity.
Qed.

(** * Initial states and the epoch *)

Lemma init_inv : forall fl k, Inv c C (init c fl k).
Proof. intros. unfold init, Inv. destruct (c_randomize c); simpl; auto. Qed.

Lemma pending_fresh : forall s,
  s_index s = 0 -> s_cfile s = None ->
  pending C s = tail_events C None (s_files s).
Proof.
  intros s Hi Hc. unfold pending. rewrite Hi, Hc. simpl.
  destruct (s_files s); reflexivity.
Qed.

Lemma tail_events_distinct : forall fl prev,
  no_adjacent_equal fl ->
  (forall p q, prev = Some p -> nth_error fl 0 = Some q -> p <> q) ->
  tail_events C prev fl = flat_map (events C) fl.
Proof.
  induction fl as [|p fl IH]; intros prev Hn Hp; simpl; auto.
  destruct (opt_str_eqb prev p) eqn:E.
  - apply opt_str_eqb_true in E. exfalso. apply (Hp p p E); reflexivity.
  - f_equal. apply IH.
    + intros i a b Ha Hb. apply (Hn (S i) a b); auto.
    + intros a b Ha Hb. unfold prev_of in Ha.
      assert (a = p) by (destruct (C p); congruence). subst a.
      apply (Hn 0 p b); auto.
Qed.

Lemma events_no_faults : forall fl,
  no_faults C fl -> flat_map (events C) fl = map Good (epoch C fl).
Proof.
  induction fl as [|p fl IH]; intros H; simpl; auto.
  unfold epoch in *. simpl. rewrite map_app, IH.
  - f_equal. unfold events, slices_of. destruct (C p) eqn:E; auto.
    exfalso. eapply (H p); eauto. left; reflexivity.
  - intros q l e Hq. apply H; right; exact Hq.
Qed.

Lemma tail_events_epoch : forall fl,
  no_adjacent_equal fl -> no_faults C fl ->
  tail_events C None fl = map Good (epoch C fl).
Proof.
  intros. rewrite tail_events_distinct; auto.
  - apply events_no_faults; auto.
  - intros; discriminate.
Qed.

(** Collapsing equal neighbours does not change the events. *)
Lemma tail_events_collapse : forall fl prev,
  tail_events C prev (collapse fl) = tail_events C prev fl.
Proof.
  induction fl as [|p fl IH]; intros prev; auto.
  change (collapse (p :: fl)) with
    (match fl with [] => [p] | q :: _ => if String.eqb p q then collapse fl else p :: collapse fl end).
  destruct fl as [|q fl]; auto. destruct (String.eqb p q) eqn:E.
  - apply String.eqb_eq in E; subst q. rewrite IH. cbn [tail_events].
    destruct (C p) eqn:EC.
    + assert (Hp : prev_of C p = None) by (unfold prev_of; rewrite EC; reflexivity).
      assert (He : events C p = []) by (unfold events; rewrite EC; reflexivity).
      rewrite Hp, He. simpl. destruct (opt_str_eqb prev p); reflexivity.
    + assert (Hp : prev_of C p = Some p) by (unfold prev_of; rewrite EC; reflexivity).
      rewrite Hp. simpl. rewrite String.eqb_refl. reflexivity.
    + assert (Hp : prev_of C p = Some p) by (unfold prev_of; rewrite EC; reflexivity).
      rewrite Hp. simpl. rewrite String.eqb_refl. reflexivity.
  - cbn [tail_events] in *. rewrite IH. reflexivity.
Qed.

(** An unreadable file contributes no event. *)
Lemma tail_events_unreadable : forall bad l1 l2 prev,
  C bad = Unreadable -> no_adjacent_equal (l1 ++ l2) ->
  (forall p q, prev = Some p -> nth_error (l1 ++ l2) 0 = Some q -> p <> q) ->
  tail_events C prev (l1 ++ bad :: l2) = tail_events C prev (l1 ++ l2).
Proof.
  intros bad l1 l2; induction l1 as [|p l1 IH]; intros prev HC Hn Hp.
  - cbn [app tail_events]. unfold events at 1. unfold prev_of. rewrite HC.
    rewrite (tail_events_distinct l2 prev); auto.
    rewrite (tail_events_distinct l2 None); auto; [|intros; discriminate].
    destruct (opt_str_eqb prev bad); reflexivity.
  - cbn [app tail_events]. f_equal. apply IH; auto.
    + intros i a b Ha Hb. apply (Hn (S i) a b); auto.
    + intros a b Ha Hb. unfold prev_of in Ha.
      assert (a = p) by (destruct (C p); congruence). subst a.
      apply (Hn 0 p b); auto.
Qed.

(** * Finite streams *)

Lemma uniform_assemble : forall n l fl,
  uniform C fl -> l <> [] -> List.length l <= n ->
  (forall x, In x l -> In x (epoch C fl)) ->
  exists b, assemble false n l = Ok b /\ batch_of n l b.
Proof.
  intros n l fl [F [I1 [I2 [H1 [H2 [H3 HS]]]]]] Hne Hle Hin.
  apply (assemble_ok F I1 I2); auto; [|intros; discriminate].
  intros _. unfold paddable. auto.
Qed.

Lemma in_skipn : forall A (x : A) n l, In x (skipn n l) -> In x l.
Proof.
  intros A x n; induction n; intros l H; simpl in *; auto.
  destruct l; auto. right; apply IHn; auto.
Qed.

Lemma in_firstn : forall A (x : A) n l, In x (firstn n l) -> In x l.
Proof.
  intros A x n; induction n; intros l H; simpl in *; [contradiction|].
  destruct l; simpl in *; auto. destruct H; auto.
Qed.

Lemma skipn_skipn' : forall A n m (l : list A), skipn n (skipn m l) = skipn (m + n) l.
Proof.
  intros A n m; induction m; intros l; simpl; auto. destruct l; auto.
  destruct n; reflexivity.
Qed.

Lemma run_finite : forall fuel fl ns s xs,
  c_loop c = false -> uniform C fl -> (forall x, In x xs -> In x (epoch C fl)) ->
  Inv c C s -> List.length (s_files s) < fuel ->
  pending C s = map Good xs ->
  exists rs s', run c fuel (gets ns) s = (rs, s') /\ List.length rs = List.length ns /\
    Inv c C s' /\ pending C s' = map Good (skipn (sum ns) xs) /\
    forall j n, nth_error ns j = Some n ->
      let seg := firstn n (skipn (sum (firstn j ns)) xs) in
      (seg = [] -> nth_error rs j = Some (ORes (CRaise StopIteration))) /\
      (seg <> [] -> exists b, nth_error rs j = Some (ORes (CReturn b)) /\ batch_of n seg b).
Proof.
  intros fuel fl ns; induction ns as [|n ns IH]; intros s xs Hl HU Hxs HI Hf Hp.
  - exists [], s. simpl. split; [auto|]. split; [auto|]. split; [auto|]. split; [auto|].
    intros [|j] n H; discriminate.
  - destruct (get_batch_noloop fuel n s Hl HI Hf) as [s1 [H1 [H2 [H3 [H4 H5]]]]].
    { intros l r. rewrite Hp, pull_good. congruence. }
    rewrite Hp, pull_good in H4, H5. simpl fst in H5; simpl snd in H4, H5.
    destruct (IH s1 (skipn n xs) Hl HU) as [rs [s' [K1 [K2 [K3 [K4 K5]]]]]]; auto.
    { intros x Hx. apply Hxs. eapply in_skipn; eauto. }
    { rewrite H2; exact Hf. }
    exists (ORes (finish n (firstn n xs) None) :: rs), s'.
    simpl. rewrite H5, K1. split; [reflexivity|]. split; [lia|]. split; [exact K3|].
    split. { rewrite K4, skipn_skipn'. reflexivity. }
    intros [|j] m Hj; simpl in Hj.
    + inversion Hj; subst m. simpl. unfold finish.
      destruct (firstn n xs) as [|x l] eqn:E; split; intro Hs; try congruence.
      destruct (uniform_assemble n (x :: l) fl HU) as [b [Hb1 Hb2]]; auto.
      { rewrite <- E. rewrite firstn_length; lia. }
      { intros y Hy. apply Hxs. rewrite <- E in Hy. eapply in_firstn; eauto. }
      exists b. rewrite Hb1. auto.
    + simpl. rewrite <- skipn_skipn'. apply K5; auto.
Qed.

Lemma run_length : forall fuel ops s, List.length (fst (run c fuel ops s)) = List.length ops.
Proof.
  intros fuel ops; induction ops as [|o ops IH]; intros s; simpl; auto.
  destruct (do_op c fuel o s) as [r s1]. specialize (IH s1).
  destruct (run c fuel ops s1). simpl in *. lia.
Qed.

(** * Faulty file *)
Lemma run_faulty : forall fuel fl ns s xs e r,
  c_loop c = false -> uniform C fl -> (forall x, In x xs -> In x (epoch C fl)) ->
  e <> StopIteration ->
  Inv c C s -> List.length (s_files s) < fuel ->
  pending C s = map Good xs ++ Bad e :: r ->
  (forall n, In n ns -> 0 < n) ->
  exists rs s', run c fuel (gets ns) s = (rs, s') /\
    forall j n, nth_error ns j = Some n ->
      let off := sum (firstn j ns) in
      (off + n <= List.length xs -> exists b,
         nth_error rs j = Some (ORes (CReturn b)) /\ batch_of n (firstn n (skipn off xs)) b) /\
      (List.length xs < off + n -> nth_error rs j = Some (ORes (CRaise e))).
Proof.
  intros fuel fl ns; induction ns as [|n ns IH]; intros s xs e r Hl HU Hxs He HI Hf Hp Hpos.
  - exists [], s. split; auto. intros [|j] n H; discriminate.
  - destruct (get_batch_noloop fuel n s Hl HI Hf) as [s1 [H1 [H2 [H3 [H4 H5]]]]].
    { intros l0 r0. rewrite Hp. destruct (Nat.le_gt_cases n (List.length xs)).
      - rewrite pull_bad_short by lia; congruence.
      - rewrite pull_bad_long by lia; congruence. }
    assert (Hn : 0 < n) by (apply Hpos; left; auto).
    destruct (Nat.le_gt_cases n (List.length xs)) as [Hc|Hc].
    + rewrite Hp, pull_bad_short in H4, H5 by lia. simpl fst in H5; simpl snd in H4, H5.
      destruct (IH s1 (skipn n xs) e r Hl HU) as [rs [s' [K1 K2]]]; auto.
      { intros x Hx. apply Hxs. eapply in_skipn; eauto. }
      { rewrite H2; exact Hf. }
      { intros m Hm; apply Hpos; right; exact Hm. }
      exists (ORes (finish n (firstn n xs) None) :: rs), s'.
      simpl. rewrite H5, K1. split; [reflexivity|].
      intros [|j] m Hj; simpl in Hj.
      * inversion Hj; subst m. simpl. split; [intros _|lia].
        destruct (uniform_assemble n (firstn n xs) fl HU) as [b [Hb1 Hb2]].
        { intro E. apply (f_equal (@List.length _)) in E. rewrite firstn_length in E. simpl in E. lia. }
        { rewrite firstn_length; lia. }
        { intros y Hy. apply Hxs. eapply in_firstn; eauto. }
        exists b. unfold finish. rewrite Hb1. destruct (firstn n xs) eqn:E; auto.
        apply (f_equal (@List.length _)) in E. rewrite firstn_length in E. simpl in E. lia.
      * simpl. rewrite <- skipn_skipn'. specialize (K2 j m Hj). simpl in K2.
        rewrite skipn_length in K2. destruct K2 as [Ka Kb].
        split; intro; [apply Ka|apply Kb]; lia.
    + rewrite Hp, pull_bad_long in H4, H5 by lia. simpl fst in H5; simpl snd in H4, H5.
      destruct (IH s1 [] e r Hl HU) as [rs [s' [K1 K2]]]; auto.
      { simpl; contradiction. }
      { rewrite H2; exact Hf. }
      { intros m Hm; apply Hpos; right; exact Hm. }
      exists (ORes (CRaise e) :: rs), s'.
      simpl. rewrite H5, K1. split; [reflexivity|].
      intros [|j] m Hj; simpl in Hj.
      * inversion Hj; subst m. simpl. split; [lia|auto].
      * simpl. specialize (K2 j m Hj). simpl in K2. destruct K2 as [_ Kb].
        assert (0 < m) by (apply Hpos; right; eapply nth_error_In; eauto).
        split; intro; [lia|apply Kb; lia].
Qed.

(** * Reachable states: permutations and membership *)

Lemma map_nth_seq : forall A (d : A) l, map (fun i => nth i l d) (seq 0 (List.length l)) = l.
Proof.
  intros A d l. induction l as [|a l IH]; simpl; auto. f_equal.
  rewrite <- seq_shift, map_map. exact IH.
Qed.

Lemma shuffle_perm : forall g k fl, perm_ok g -> Permutation (shuffle g k fl) fl.
Proof.
  intros g k fl H. unfold shuffle.
  transitivity (map (fun i => nth i fl EmptyString) (seq 0 (List.length fl))).
  - apply Permutation_map. apply H.
  - rewrite map_nth_seq. reflexivity.
Qed.

Lemma reset_perm : forall s, (c_randomize c = true -> perm_ok (c_rng c)) ->
  Permutation (s_files (reset c s)) (s_files s).
Proof.
  intros s H. unfold reset. destruct (c_randomize c); simpl.
  - apply shuffle_perm; auto.
  - reflexivity.
Qed.

Lemma init_perm : forall fl k, (c_randomize c = true -> perm_ok (c_rng c)) ->
  Permutation (s_files (init c fl k)) fl.
Proof.
  intros fl k H. unfold init. destruct (c_randomize c); simpl.
  - apply shuffle_perm; auto.
  - reflexivity.
Qed.

Lemma pending_in : forall s x, In (Good x) (pending C s) -> In x (epoch C (s_files s)).
Proof.
  assert (HE : forall p x, In (Good x) (events C p) -> In x (slices_of C p)).
  { intros p x. unfold events, slices_of. destruct (C p); simpl; auto; intro H.
    - apply in_map_iff in H. destruct H as [y [Hy Hin]]. congruence.
    - apply in_app_iff in H. destruct H as [H|[H|[]]]; [|discriminate].
      apply in_map_iff in H. destruct H as [y [Hy Hin]]. congruence. }
  assert (HT : forall l prev x, In (Good x) (tail_events C prev l) -> In x (epoch C l)).
  { induction l as [|p l IH]; intros prev x H; simpl in *; auto.
    apply in_app_iff in H. unfold epoch. simpl. apply in_app_iff. destruct H as [H|H].
    - left. destruct (opt_str_eqb prev p); [contradiction|]. auto.
    - right. eapply IH; eauto. }
  intros s x H. unfold pending in H.
  destruct (skipn (s_index s) (s_files s)) as [|p l] eqn:E; [contradiction|].
  assert (Hincl : forall q, In q (p :: l) -> In q (s_files s)).
  { intros q Hq. rewrite <- E in Hq. eapply in_skipn; eauto. }
  apply in_flat_map. apply in_app_iff in H. destruct H as [H|H].
  - exists p. split; [apply Hincl; left; auto|]. apply HE.
    destruct (opt_str_eqb (s_cfile s) p); auto. eapply in_skipn; eauto.
  - apply HT in H. apply in_flat_map in H. destruct H as [q [Hq Hx]].
    exists q. split; auto. apply Hincl; right; auto.
Qed.

Lemma epoch_perm_in : forall fl fl' x,
  Permutation fl fl' -> In x (epoch C fl) -> In x (epoch C fl').
Proof.
  intros fl fl' x HP H. apply in_flat_map in H. destruct H as [p [Hp Hx]].
  apply in_flat_map. exists p. split; auto. eapply Permutation_in; eauto.
Qed.

Lemma get_next_reach : forall fuel s,
  (c_randomize c = true -> perm_ok (c_rng c)) -> Inv c C s ->
  let (r, s') := get_next c fuel s in
  Inv c C s' /\ Permutation (s_files s') (s_files s) /\
  (forall x, r = NItem x -> In x (epoch C (s_files s))) /\
  (c_loop c = true -> slice_never_stops (c_loader c) -> r <> NRaise StopIteration).
Proof.
  induction fuel as [|fuel IH]; intros s HP HI; simpl.
  - repeat split; auto; intros; discriminate.
  - destruct ((s_index s <? List.length (s_files s)) || c_loop c) eqn:El.
    2: { apply orb_false_iff in El. repeat split; auto; intros; try discriminate; destruct El; congruence. }
    set (s1 := if List.length (s_files s) <=? s_index s then reset c s else s).
    assert (HI1 : Inv c C s1).
    { unfold s1. destruct (_ <=? _); auto. apply reset_inv. }
    assert (HP1 : Permutation (s_files s1) (s_files s)).
    { unfold s1. destruct (_ <=? _); [|reflexivity]. apply reset_perm; auto. }
    destruct (Nat.lt_ge_cases (s_index s1) (List.length (s_files s1))) as [Hlt|Hge].
    + pose proof (next_body_spec c C HD s1 HI1 Hlt) as HB.
      destruct (next_body c s1) as [s2|[[x|e|] s2]].
      * destruct HB as [H1 [H2 [H3 [H4 H5]]]]. specialize (IH s2 HP H1).
        destruct (get_next c fuel s2) as [r s']. destruct IH as [K1 [K2 [K3 K4]]].
        assert (HP2 : Permutation (s_files s2) (s_files s)) by (rewrite H4; exact HP1).
        repeat split; auto.
        -- etransitivity; eauto.
        -- intros x Hx. eapply epoch_perm_in; [exact HP2|]. auto.
      * destruct HB as [H1 [H2 [H3 [H4 H5]]]].
        repeat split; auto.
        -- rewrite H4; exact HP1.
        -- intros y Hy. inversion Hy; subst y. eapply epoch_perm_in; [exact HP1|].
           apply pending_in. rewrite H2. left; reflexivity.
        -- intros; discriminate.
      * destruct HB as [H1 [[r H2] [H6 [H3 [H4 H5]]]]].
        repeat split; auto.
        -- rewrite H4; exact HP1.
        -- intros; discriminate.
        -- intros _ HN Hc. inversion Hc; subst e.
           assert (In (Bad StopIteration) (pending C s1)) by (rewrite H2; left; auto).
           unfold pending in H.
           destruct (skipn (s_index s1) (s_files s1)) as [|p l]; [contradiction|].
           apply in_app_iff in H. destruct H as [H|H].
           ++ apply (pending_no_stop HN p). destruct (opt_str_eqb _ _); auto.
              eapply in_skipn; eauto.
           ++ revert H. generalize (prev_of C p). clear - HN HD.
              induction l as [|q l IH]; intros o H; simpl in H; [contradiction|].
              apply in_app_iff in H. destruct H as [H|H]; [|eapply IH; eauto].
              destruct (opt_str_eqb o q); [contradiction|]. eapply pending_no_stop; eauto.
      * contradiction.
    + unfold next_body. rewrite (proj2 (nth_error_None _ _) Hge).
      repeat split; auto; intros; discriminate.
Qed.

Lemma collect_reach : forall fuel n acc s,
  (c_randomize c = true -> perm_ok (c_rng c)) -> Inv c C s ->
  let (r, s') := collect c fuel n acc s in
  Inv c C s' /\ Permutation (s_files s') (s_files s) /\
  (forall l, r = Collected l -> exists l', l = acc ++ l' /\ List.length l' <= n /\
     (c_loop c = true -> slice_never_stops (c_loader c) -> List.length l' = n) /\
     (forall x, In x l' -> In x (epoch C (s_files s)))).
Proof.
  intros fuel n; induction n as [|n IH]; intros acc s HP HI; simpl.
  - split; [exact HI|]. split; [reflexivity|]. intros l Hl; inversion Hl; subst.
    exists []. rewrite app_nil_r. repeat split; auto. intros x [].
  - pose proof (get_next_reach fuel s HP HI) as HG.
    destruct (get_next c fuel s) as [[x|e|] s1].
    + destruct HG as [H1 [H2 [H3 H4]]]. specialize (IH (acc ++ [x]) s1 HP H1).
      destruct (collect c fuel n (acc ++ [x]) s1) as [r s']. destruct IH as [K1 [K2 K3]].
      split; [exact K1|]. split; [etransitivity; eauto|].
      intros l Hl. destruct (K3 l Hl) as [l' [E [Hle [Hloop Hin]]]].
      exists (x :: l'). rewrite E, <- app_assoc. repeat split; auto; simpl.
      * lia.
      * intros. f_equal. auto.
      * intros y [Hy|Hy]; [subst; auto|]. eapply epoch_perm_in; [exact H2|]; auto.
    + destruct HG as [H1 [H2 [H3 H4]]].
      destruct e; (split; [exact H1|split; [exact H2|intros l Hl; try discriminate]]).
      inversion Hl; subst. exists []. rewrite app_nil_r. split; [reflexivity|].
      split; [simpl; lia|]. split; [|intros x []].
      intros Hc HN. exfalso. apply (H4 Hc HN); reflexivity.
    + destruct HG as [H1 [H2 _]]. split; [exact H1|]. split; [exact H2|].
      intros; discriminate.
Qed.

Lemma get_batch_reach : forall fuel n s,
  (c_randomize c = true -> perm_ok (c_rng c)) -> Inv c C s ->
  let (r, s') := get_batch c fuel n s in
  Inv c C s' /\ Permutation (s_files s') (s_files s) /\
  (slice_never_stops (c_loader c) -> same_shapes C (s_files s) -> 0 < n -> forall b, r = CReturn b ->
     exists l, batch_of n l b /\ (forall x, In x l -> In x (epoch C (s_files s))) /\ l <> [] /\
       (c_loop c = true -> List.length l = n)).
Proof.
  intros fuel n s HP HI. unfold get_batch.
  pose proof (collect_reach fuel n [] s HP HI) as HC.
  destruct (collect c fuel n [] s) as [[l|e|] s1]; destruct HC as [H1 [H2 H3]].
  - destruct (H3 l eq_refl) as [l' [E [Hle [Hloop Hin]]]]. simpl in E; subst l'.
    destruct l as [|x l].
    + destruct (c_loop c) eqn:El.
      * split; [destruct (assemble true n []); apply reset_inv|].
        split.
        { destruct (assemble true n []); simpl; (etransitivity; [apply reset_perm; auto|exact H2]). }
        intros HN HU Hn b Hb. specialize (Hloop eq_refl HN). simpl in Hloop. lia.
      * repeat split; auto. intros; discriminate.
    + destruct (assemble (c_loop c) n (x :: l)) as [d|e] eqn:Ea.
      * split; [exact H1|]. split; [exact H2|].
        intros HN [F [I1 [I2 HS]]] Hn b Hb. inversion Hb; subst d.
        assert (Hb2 : batch_of n (x :: l) b).
        { apply (assemble_returned F I1 I2 (c_loop c)); auto. discriminate. }
        exists (x :: l). split; [exact Hb2|]. split; [exact Hin|].
        split; [discriminate|]. intro Hc. apply Hloop; auto.
      * split; [exact H1|]. split; [exact H2|]. intros; discriminate.
  - split; [exact H1|]. split; [exact H2|]. intros; discriminate.
  - split; [exact H1|]. split; [exact H2|]. intros; discriminate.
Qed.

Lemma run_reach : forall fuel ops s,
  (c_randomize c = true -> perm_ok (c_rng c)) -> Inv c C s ->
  Inv c C (snd (run c fuel ops s)) /\ Permutation (s_files (snd (run c fuel ops s))) (s_files s).
Proof.
  intros fuel ops; induction ops as [|o ops IH]; intros s HP HI.
  - split; simpl; auto.
  - simpl. destruct (do_op c fuel o s) as [r s1] eqn:E.
    assert (H1 : Inv c C s1 /\ Permutation (s_files s1) (s_files s)).
    { destruct o as [n|]; simpl in E.
      - pose proof (get_batch_reach fuel n s HP HI) as H.
        destruct (get_batch c fuel n s) as [r' s']. inversion E; subst. tauto.
      - inversion E; subst. split; [apply reset_inv|apply reset_perm; auto]. }
    destruct H1 as [H1 H2]. destruct (IH s1 HP H1) as [K1 K2].
    destruct (run c fuel ops s1) as [rs s2]. simpl in *. split; auto.
    etransitivity; eauto.
Qed.

End WithDisk.

(** * Exhaustion is sticky (no assumption on contents) *)

Lemma get_next_stopped : forall c fuel s s',
  c_loop c = false -> slice_never_stops (c_loader c) ->
  get_next c fuel s = (NRaise StopIteration, s') ->
  List.length (s_files s') <= s_index s'.
Proof.
  intros c fuel; induction fuel as [|fuel IH]; intros s s' Hl HN H; simpl in H; [discriminate|].
  rewrite Hl, orb_false_r in H.
  destruct (s_index s <? List.length (s_files s)) eqn:E.
  - apply Nat.ltb_lt in E.
    replace (List.length (s_files s) <=? s_index s) with false in H
      by (symmetry; apply Nat.leb_gt; lia).
    destruct (next_body c s) as [s1|[r s1]] eqn:EB.
    + eapply IH; eauto.
    + inversion H; subst r s1. exfalso. unfold next_body in EB.
      destruct (nth_error (s_files s) (s_index s)); [|discriminate].
      destruct (opt_str_eqb (s_cfile s) s0).
      * destruct (get_next_slice _ _ _ _) eqn:EG; try discriminate.
        inversion EB; subst. eapply HN; eauto.
      * destruct (load_file _ _); [|discriminate].
        destruct (get_next_slice _ _ _ _) eqn:EG; try discriminate.
        inversion EB; subst. eapply HN; eauto.
  - inversion H; subst. apply Nat.ltb_ge in E. exact E.
Qed.

Lemma get_batch_exhausted : forall c fuel n s,
  c_loop c = false -> List.length (s_files s) <= s_index s ->
  get_batch c (S fuel) n s = (CRaise StopIteration, s).
Proof.
  intros c fuel n s Hl H. unfold get_batch. destruct n as [|n]; cbn [collect]; rewrite ?Hl; auto.
  simpl get_next. rewrite Hl, orb_false_r.
  replace (s_index s <? List.length (s_files s)) with false
    by (symmetry; apply Nat.ltb_ge; lia). reflexivity.
Qed.

Lemma collect_stops : forall c fuel n acc s,
  forall l s', collect c fuel n acc s = (Collected l, s') -> acc <> [] -> l <> [].
Proof.
  intros c fuel n; induction n as [|n IH]; intros acc s l s' H Ha; simpl in H.
  - inversion H; subst; auto.
  - destruct (get_next c fuel s) as [[x|e|] s1].
    + eapply IH; [exact H|]. intro E. apply app_eq_nil in E. destruct E; discriminate.
    + destruct e; inversion H; subst; auto.
    + discriminate.
Qed.

Lemma get_batch_stop_exhausted : forall c fuel n s s',
  c_loop c = false -> slice_never_stops (c_loader c) -> 0 < n ->
  get_batch c fuel n s = (CRaise StopIteration, s') ->
  List.length (s_files s') <= s_index s'.
Proof.
  intros c fuel n s s' Hl HN Hn H. unfold get_batch in H.
  destruct (collect c fuel n [] s) as [[l|e|] s1] eqn:Ec.
  - destruct l as [|x l].
    + rewrite Hl in H. inversion H; subst s1. destruct n as [|n]; [lia|].
      simpl in Ec. destruct (get_next c fuel s) as [[y|e|] s2] eqn:Eg.
      * exfalso. eapply collect_stops; [exact Ec| |reflexivity]. discriminate.
      * destruct e; inversion Ec; subst. eapply get_next_stopped; eauto.
      * discriminate.
    + destruct (assemble (c_loop c) n (x :: l)) as [d|e] eqn:Ea; [discriminate|].
      inversion H; subst e. exfalso. clear - Ea. unfold assemble in Ea.
      assert (HS : forall l, np_stack l <> Err StopIteration).
      { intros [|a l0]; unfold np_stack; [discriminate|].
        destruct (forallb _ _); discriminate. }
      assert (HI : forall l, stack_images l <> Err StopIteration).
      { intros l0. unfold stack_images. destruct (opt_all l0); [|discriminate].
        specialize (HS l1). destruct (np_stack l1); simpl; congruence. }
      assert (HP : forall k p a, np_pad0 k p a <> Err StopIteration).
      { intros k p a. unfold np_pad0. destruct (_ =? k); [|discriminate].
        destruct (shape a); discriminate. }
      assert (HO : forall k p a, pad_opt k p a <> Err StopIteration).
      { intros k p [a|]; simpl; [|discriminate]. specialize (HP k p a).
        destruct (np_pad0 k p a); simpl; congruence. }
      pose proof (HI (map sd_im1 (x :: l))) as G1.
      destruct (stack_images (map sd_im1 (x :: l))) as [o1|]; cbn [bind] in Ea; [|congruence].
      pose proof (HI (map sd_im2 (x :: l))) as G2.
      destruct (stack_images (map sd_im2 (x :: l))) as [o2|]; cbn [bind] in Ea; [|congruence].
      pose proof (HS (map sd_flow (x :: l))) as G3.
      destruct (np_stack (map sd_flow (x :: l))) as [fl|]; cbn [bind] in Ea; [|congruence].
      destruct (batch_files n (x :: l)) as [fs|e] eqn:Ef; cbn [bind] in Ea.
      2: { unfold batch_files in Ef. destruct (existsb _ _); [|discriminate].
           destruct (forallb _ _); [discriminate|]. congruence. }
      destruct (_ <? n); [|discriminate].
      pose proof (HP 4 (n - List.length (x :: l)) fl) as G4.
      destruct (np_pad0 4 _ fl); cbn [bind] in Ea; [|congruence].
      pose proof (HO 3 (n - List.length (x :: l)) o1) as G5.
      destruct (pad_opt 3 _ o1); cbn [bind] in Ea; [|congruence].
      pose proof (HO 3 (n - List.length (x :: l)) o2) as G6.
      destruct (pad_opt 3 _ o2); cbn [bind] in Ea; congruence.
  - inversion H; subst e s1. clear H. exfalso.
    assert (G : forall n acc s s', collect c fuel n acc s <> (CollectRaise StopIteration, s')).
    { clear. induction n; intros acc s s' H; simpl in H; [discriminate|].
      destruct (get_next c fuel s) as [[x|e|] s1]; try discriminate.
      - eapply IHn; eauto.
      - destruct e; discriminate. }
    eapply G; eauto.
  - discriminate.
Qed.

Lemma run_exhausted : forall c fuel ns s,
  c_loop c = false -> List.length (s_files s) <= s_index s ->
  run c (S fuel) (gets ns) s = (map (fun _ => ORes (CRaise StopIteration)) ns, s).
Proof.
  intros c fuel ns; induction ns as [|n ns IH]; intros s Hl H; auto.
  cbn [gets map run do_op]. rewrite get_batch_exhausted by auto.
  unfold gets in IH. rewrite IH by auto. reflexivity.
Qed.
