(** Assigning a new file list to a scheduler in use. *)
From Coq Require Import List Arith Lia String Bool Permutation.
From Verif Require Import Prelude Model.Base Model.Episodic Model.Reassign Spec.BaseSpec Spec.ReassignSpec.
From Verif Require Import Proofs.BaseProofs Proofs.BaseBatch Proofs.BaseRun Proofs.BaseLoop Proofs.BaseFinal.
Import ListNotations.
Local Open Scope nat_scope.

Lemma nae_skip : forall fl i, no_adjacent_equal fl -> no_adjacent_equal (skipn i fl).
Proof.
  intros fl i H j p q H1 H2. rewrite nth_error_skipn' in H1, H2. apply (H (i + j) p q H1). rewrite <- H2. f_equal. lia.
Qed.

Lemma nf_skip : forall C fl i, no_faults C fl -> no_faults C (skipn i fl).
Proof. intros C fl i H p l e IN. apply H. eapply in_skipn; eauto. Qed.

Lemma epoch_app : forall C a b, epoch C (a ++ b) = epoch C a ++ epoch C b.
Proof. intros. unfold epoch. apply flat_map_app. Qed.

Lemma epoch_split : forall C fl i, epoch C fl = epoch C (firstn i fl) ++ epoch C (skipn i fl).
Proof. intros. rewrite <- epoch_app, firstn_skipn. reflexivity. Qed.

Section WithDisk.
Variable c : cfg.
Variable C : string -> content.
Hypothesis HD : disk (c_loader c) C.

(** The state after a slice has been handed over. *)
Definition held (s : st) : Prop :=
  exists p, nth_error (s_files s) (s_index s) = Some p /\ s_cfile s = Some p /\ 1 <= s_slice s <= List.length (events C p).

Lemma skipn_cons_length : forall A i (l : list A) x r, skipn i l = x :: r -> S i <= List.length l.
Proof.
  intros A i l x r H. destruct (Nat.le_gt_cases (List.length l) i) as [L|L]; [|lia].
  rewrite skipn_all2 in H by exact L. discriminate.
Qed.

Lemma body_held : forall s x s', Inv c C s -> next_body c s = inr (NItem x, s') -> held s'.
Proof.
  intros s x s' I H. unfold next_body in H. destruct (nth_error (s_files s) (s_index s)) as [p|] eqn:E; [|discriminate].
  destruct (opt_str_eqb (s_cfile s) p) eqn:Q.
  - apply opt_str_eqb_true in Q. unfold Inv in I. rewrite Q in I. destruct I as (d & D & L & FA).
    rewrite Q, D in H. pose proof (slice_cached c C HD p d (s_slice s) L FA) as K.
    destruct (get_next_slice (c_loader c) (Some d) (Some p) (s_slice s)); [|discriminate|discriminate].
    injection H as <- <-. destruct K as [K _]. exists p. cbn [s_files s_index s_cfile s_slice with_slice].
    split; [exact E|]. split; [exact Q|]. apply skipn_cons_length in K. lia.
  - destruct (load_file (c_loader c) p) as [d|e] eqn:L; [|discriminate].
    cbn [s_cdata s_cfile s_slice with_cache] in H.
    assert (FA : forall l e, C p = Faulty l e -> 0 <= List.length l) by (intros; lia).
    pose proof (slice_cached c C HD p d 0 L FA) as K.
    destruct (get_next_slice (c_loader c) (Some d) (Some p) 0); [|discriminate|discriminate].
    injection H as <- <-. destruct K as [K _]. exists p. cbn [s_files s_index s_cfile s_slice with_slice with_cache].
    split; [exact E|]. split; [reflexivity|]. apply skipn_cons_length in K. lia.
Qed.

Lemma next_held : forall fuel s x s', Inv c C s -> get_next c fuel s = (NItem x, s') -> held s'.
Proof.
  induction fuel as [|fuel IH]; intros s x s' I H; [discriminate|]. cbn [get_next] in H.
  destruct ((s_index s <? List.length (s_files s)) || c_loop c) eqn:G; [|discriminate].
  set (s1 := if List.length (s_files s) <=? s_index s then reset c s else s) in *.
  assert (I1 : Inv c C s1) by (unfold s1; destruct (_ <=? _); [apply reset_inv | exact I]).
  destruct (next_body c s1) as [s2|[r s2]] eqn:B.
  - destruct (Nat.lt_ge_cases (s_index s1) (List.length (s_files s1))) as [L|L].
    + pose proof (next_body_spec c C HD s1 I1 L) as K. rewrite B in K. exact (IH s2 x s' (proj1 K) H).
    + unfold next_body in B. rewrite (proj2 (nth_error_None _ _)) in B by lia. discriminate.
  - injection H as -> ->. exact (body_held s1 x s' I1 B).
Qed.

Lemma collect_held : forall fuel n acc s l s', Inv c C s -> collect c fuel n acc s = (Collected l, s') ->
  List.length l = List.length acc + n -> 0 < n -> (c_randomize c = true -> perm_ok (c_rng c)) -> held s'.
Proof.
  intros fuel. induction n as [|n IH]; intros acc s l s' I H L N HP; [lia|]. cbn [collect] in H.
  destruct (get_next c fuel s) as [[x|e|] s1] eqn:G.
  - pose proof (next_held fuel s x s1 I G) as K. pose proof (get_next_reach c C HD fuel s HP I) as R. rewrite G in R. destruct R as [I1 _].
    destruct n as [|n].
    + cbn [collect] in H. injection H as <- <-. exact K.
    + apply (IH (acc ++ [x]) s1 l s' I1 H); [rewrite app_length; cbn [List.length]; lia | lia | exact HP].
  - destruct e; try discriminate. injection H as <- <-. lia.
  - discriminate.
Qed.

(** The position of such a state is that of the last slice. *)
Lemma held_place : forall fl s y N, no_adjacent_equal fl -> no_faults C fl -> s_files s = fl -> held s ->
  pending C s = map Good y -> List.length y + N = List.length (epoch C fl) ->
  last_place C fl N (s_index s) (s_slice s).
Proof.
  intros fl s y N NA NF SF (p & E & Q & R1 & R2) P L. rewrite SF in E. exists p.
  assert (NFp : forall l e, C p <> Faulty l e) by (intros l e; apply NF; eapply nth_error_In; eauto).
  assert (EV : events C p = map Good (slices_of C p)).
  { unfold events, slices_of. destruct (C p) as [|l|l e]; try reflexivity. exfalso. exact (NFp l e eq_refl). }
  rewrite EV, map_length in R2. split; [exact E|]. split; [lia|].
  rewrite (pending_next C s p) in P by (rewrite SF; exact E). rewrite SF in P.
  rewrite (proj2 (opt_str_eqb_true _ _) Q) in P.
  rewrite tail_events_distinct in P; [| apply nae_skip, NA |].
  2:{ intros p' q PR NE. rewrite nth_error_skipn' in NE. unfold prev_of in PR.
      apply (NA (s_index s) p' q); [destruct (C p); congruence | rewrite Nat.add_0_r in NE; exact NE]. }
  rewrite (events_no_faults C) in P by (apply nf_skip, NF). rewrite EV in P.
  apply (f_equal (@List.length ev)) in P. rewrite app_length, skipn_length, !map_length in P.
  pose proof (epoch_split C fl (s_index s)) as ES. rewrite (skipn_nth_cons _ _ _ _ E) in ES.
  change (epoch C (p :: skipn (S (s_index s)) fl)) with (slices_of C p ++ epoch C (skipn (S (s_index s)) fl)) in ES.
  apply (f_equal (@List.length SchedData)) in ES. rewrite !app_length in ES. lia.
Qed.

Lemma place_unique : forall fl N i r i' r', last_place C fl N i r -> last_place C fl N i' r' -> i = i' /\ r = r'.
Proof.
  assert (G : forall fl N i r i' r', last_place C fl N i r -> last_place C fl N i' r' -> i < i' -> False).
  { intros fl N i r i' r' (p & E & R & HN) (p' & E' & R' & HN') L.
    assert (M : List.length (epoch C (firstn (S i) fl)) <= List.length (epoch C (firstn i' fl))).
    { replace (firstn i' fl) with (firstn (S i) fl ++ skipn (S i) (firstn i' fl)).
      - rewrite epoch_app, app_length. lia.
      - rewrite <- (firstn_skipn (S i) (firstn i' fl)) at 2. rewrite firstn_firstn. do 3 f_equal. lia. }
    rewrite (firstn_S_nth _ i fl p (skipn (S i) fl)) in M by (apply skipn_nth_cons; exact E).
    rewrite epoch_app, app_length in M. change (epoch C [p]) with (slices_of C p ++ []) in M. rewrite app_nil_r in M. lia. }
  intros fl N i r i' r' H H'. destruct (Nat.lt_trichotomy i i') as [L|[->|L]].
  - exfalso. exact (G fl N i r i' r' H H' L).
  - destruct H as (p & E & R & HN), H' as (p' & E' & R' & HN'). split; lia.
  - exfalso. exact (G fl N i' r' i r H' H L).
Qed.

(** What is pending after the assignment. *)
Lemma assigned_pending : forall fl fl' s p, s_files s = fl -> no_adjacent_equal fl' -> no_faults C fl' ->
  nth_error fl (s_index s) = Some p -> s_cfile s = Some p -> 1 <= s_slice s <= List.length (events C p) ->
  pending C (set_files s fl') = map Good (skipn (counted C fl fl' (s_index s) (s_slice s)) (epoch C fl')).
Proof.
  intros fl fl' s p SF NA NF E Q R. unfold counted. rewrite E. destruct (nth_error fl' (s_index s)) as [q|] eqn:E'.
  - rewrite (pending_next C (set_files s fl') q) by exact E'. cbn [s_cfile s_files s_index s_slice set_files].
    assert (EV : events C q = map Good (slices_of C q)).
    { unfold events, slices_of. destruct (C q) as [|l|l e] eqn:Z; try reflexivity. exfalso. apply (NF q l e); [eapply nth_error_In; eauto | exact Z]. }
    rewrite tail_events_distinct; [| apply nae_skip, NA |].
    2:{ intros p' q' PR NE. rewrite nth_error_skipn' in NE. unfold prev_of in PR.
        apply (NA (s_index s) p' q'); [destruct (C q); congruence | rewrite Nat.add_0_r in NE; exact NE]. }
    rewrite (events_no_faults C) by (apply nf_skip, NF).
    rewrite (epoch_split C fl' (s_index s)). rewrite (skipn_nth_cons _ _ _ _ E').
    change (epoch C (q :: skipn (S (s_index s)) fl')) with (slices_of C q ++ epoch C (skipn (S (s_index s)) fl')).
    rewrite skipn_app, (skipn_all2 (epoch C (firstn (s_index s) fl'))) by lia. cbn [app].
    replace (_ + _ - _) with (if String.eqb p q then s_slice s else 0) by lia.
    rewrite Q. unfold opt_str_eqb. destruct (String.eqb p q) eqn:PQ.
    + apply String.eqb_eq in PQ. subst q. rewrite EV, map_length in R. rewrite EV, skipn_app, map_app.
      replace (s_slice s - List.length (slices_of C p)) with 0 by lia. cbn [skipn].
      f_equal. clear. generalize (s_slice s). generalize (slices_of C p). induction l; intros [|n]; cbn [skipn map]; auto.
    + cbn [skipn]. rewrite EV, map_app. reflexivity.
  - unfold pending. cbn [s_files s_index set_files]. apply nth_error_None in E'.
    rewrite skipn_all2 by exact E'. rewrite Nat.add_0_r, (firstn_all2 fl') by exact E'.
    rewrite skipn_all2 by lia. reflexivity.
Qed.

Lemma assigned_inv : forall s fl', Inv c C s -> Inv c C (set_files s fl').
Proof. intros s fl' I. exact I. Qed.

Lemma run_app : forall fuel a b s, run c fuel (a ++ b) s =
  let (r1, s1) := run c fuel a s in let (r2, s2) := run c fuel b s1 in ((r1 ++ r2)%list, s2).
Proof.
  intros fuel. induction a as [|o a IH]; intros b s.
  - cbn [app run]. destruct (run c fuel b s). reflexivity.
  - cbn [app run]. destruct (do_op c fuel o s) as [r s1]. rewrite IH.
    destruct (run c fuel a s1) as [r1 s2]. destruct (run c fuel b s2). reflexivity.
Qed.

Lemma sum_snoc : forall ns n, sum (ns ++ [n]) = sum ns + n.
Proof. induction ns as [|m ns IH]; intros n; cbn [sum fold_right app] in *; [lia|]. unfold sum in *. rewrite IH. lia. Qed.

(** After some calls that were all served in full. *)
Lemma calls_held : forall fl k ns fuel, no_adjacent_equal fl -> no_faults C fl -> uniform C fl -> epoch C fl <> [] ->
  c_randomize c = false -> 2 * List.length fl < fuel -> (forall n, In n ns -> 0 < n) -> ns <> [] ->
  (c_loop c = false -> sum ns <= List.length (epoch C fl)) ->
  let s := snd (run c fuel (gets ns) (init c fl k)) in
  s_files s = fl /\ Inv c C s /\ held s /\
  last_place C fl ((sum ns - 1) mod List.length (epoch C fl) + 1) (s_index s) (s_slice s).
Proof.
  intros fl k ns fuel NA NF U NE HR Hf POS N0 FIN.
  destruct (exists_last N0) as (ns1 & n & ->). clear N0.
  assert (Pn : 0 < n) by (apply POS, in_or_app; right; left; reflexivity).
  assert (EL : 1 <= List.length (epoch C fl)) by (destruct (epoch C fl); [congruence | cbn [List.length]; lia]).
  rewrite sum_snoc in *. unfold gets. rewrite map_app, run_app. fold (gets ns1).
  assert (HP : c_randomize c = true -> perm_ok (c_rng c)) by congruence.
  destruct (c_loop c) eqn:HL.
  - (* looping *)
    assert (SS : same_shapes C fl) by (destruct U as (F & I1 & I2 & _ & _ & _ & X); exists F, I1, I2; exact X).
    destruct (At_run c C HD fl k HL HP NF NE fuel ns1 (init c fl k) [] Hf SS) as (rs & s1 & D1 & R1 & A1 & L1 & _).
    { intros m Hm. apply POS, in_or_app; left; exact Hm. }
    { apply At_init; assumption. }
    rewrite R1. cbn [map run]. unfold do_op, get_batch.
    destruct (At_collect c C HD fl k HL HP NF NE fuel n [] s1 D1 Hf A1) as (l & s2 & G & LN & A2). cbn [app] in G.
    rewrite G, HL. destruct l as [|x l]; [cbn [List.length] in LN; lia|].
    pose proof (collect_held fuel n [] s1 (x :: l) s2 (proj1 A1) G ltac:(cbn [List.length] in *; lia) Pn HP) as HH.
    assert (GOAL : s_files s2 = fl /\ Inv c C s2 /\ held s2 /\
      last_place C fl ((sum ns1 + n - 1) mod List.length (epoch C fl) + 1) (s_index s2) (s_slice s2)).
    2:{ destruct (assemble true n (x :: l)); exact GOAL. }
    destruct A2 as [I2 (j & i & Li & SF & SK & PE & DD)].
    assert (PS : forall q, s_files (pass_st c fl k q) = fl).
    { assert (RF : forall z, s_files (reset c z) = s_files z) by (intros z; unfold reset; rewrite HR; reflexivity).
      intros q. unfold pass_st. induction q as [|q IHq]; simpl; [apply init_files, HR | rewrite RF; exact IHq]. }
    assert (PA : forall q, pass c C fl k q = epoch C fl).
    { intros q. unfold pass. rewrite PS, collapse_id by exact NA. reflexivity. }
    rewrite PS in SF. rewrite PA in *.
    assert (DL : List.length (D1 ++ x :: l) = j * List.length (epoch C fl) + i).
    { rewrite DD, app_length, firstn_length, Nat.min_l by exact Li. f_equal.
      clear - PA. generalize 0. induction j as [|j IH]; intros b; [reflexivity|]. cbn [seq flat_map]. rewrite app_length, PA, IH. lia. }
    rewrite app_length, L1, LN in DL. cbn [List.length] in DL.
    split; [exact SF|]. split; [exact I2|]. split; [exact HH|].
    assert (IP : 1 <= i).
    { destruct i as [|i]; [|lia]. exfalso.
      assert (X : last_place C fl 0 (s_index s2) (s_slice s2)).
      { eapply held_place; try eassumption. cbn [skipn]. lia. }
      destruct X as (p & _ & R & Z). lia. }
    replace ((sum ns1 + n - 1) mod List.length (epoch C fl) + 1) with i.
    + eapply held_place; try eassumption. rewrite skipn_length. lia.
    + replace (sum ns1 + n - 1) with (i - 1 + j * List.length (epoch C fl)) by lia.
      rewrite Nat.mod_add by lia. rewrite Nat.mod_small by lia. lia.
  - (* one pass *)
    specialize (FIN eq_refl).
    destruct (run_finite c C HD fuel fl ns1 (init c fl k) (epoch C fl)) as (rs & s1 & R1 & _ & I1 & P1 & _); auto.
    { apply init_inv. }
    { rewrite init_files by exact HR. lia. }
    { apply init_pending; assumption. }
    rewrite R1. cbn [map run]. unfold do_op, get_batch.
    assert (SF1 : s_files s1 = fl).
    { pose proof (proj1 (run_frame c fuel (gets ns1) (init c fl k) HR)) as K. rewrite R1 in K. cbn [snd] in K. rewrite K. apply init_files, HR. }
    destruct (collect_noloop c C HD fuel n [] s1 HL I1) as (s2 & I2 & SF2 & _ & K).
    { rewrite SF1. lia. }
    { intros r. rewrite P1, pull_good. cbn [snd]. congruence. }
    rewrite P1, pull_good in K. destruct K as [P2 G]. cbn [app] in G. rewrite G, HL.
    assert (LN : List.length (firstn n (skipn (sum ns1) (epoch C fl))) = n) by (rewrite firstn_length, skipn_length; lia).
    destruct (firstn n (skipn (sum ns1) (epoch C fl))) as [|x l]; [cbn [List.length] in LN; lia|].
    pose proof (collect_held fuel n [] s1 (x :: l) s2 I1 G ltac:(cbn [List.length] in *; lia) Pn HP) as HH.
    assert (GOAL : s_files s2 = fl /\ Inv c C s2 /\ held s2 /\
      last_place C fl ((sum ns1 + n - 1) mod List.length (epoch C fl) + 1) (s_index s2) (s_slice s2)).
    2:{ destruct (assemble false n (x :: l)); exact GOAL. }
    rewrite SF1 in SF2. split; [exact SF2|]. split; [exact I2|]. split; [exact HH|].
    rewrite skipn_skipn' in P2. rewrite Nat.mod_small by lia.
    replace (sum ns1 + n - 1 + 1) with (sum ns1 + n) by lia.
    eapply held_place; try eassumption. rewrite skipn_length. lia.
Qed.

Lemma counted_le : forall fl fl' N i r, last_place C fl N i r ->
  counted C fl fl' i r <= List.length (epoch C fl').
Proof.
  intros fl fl' N i r (p & E & R & _). unfold counted. rewrite E. rewrite (epoch_split C fl' i), app_length.
  destruct (nth_error fl' i) as [q|] eqn:E'; [|lia]. rewrite (skipn_nth_cons _ _ _ _ E').
  change (epoch C (q :: skipn (S i) fl')) with (slices_of C q ++ epoch C (skipn (S i) fl')). rewrite app_length.
  destruct (String.eqb p q) eqn:Q; [apply String.eqb_eq in Q; subst q; lia | lia].
Qed.

(** The state just after the assignment. *)
Lemma assigned_state : forall fl fl' k ns fuel i r, no_adjacent_equal fl -> no_faults C fl -> uniform C fl -> epoch C fl <> [] ->
  c_randomize c = false -> 2 * List.length fl < fuel -> (forall n, In n ns -> 0 < n) -> ns <> [] ->
  (c_loop c = false -> sum ns <= List.length (epoch C fl)) ->
  no_adjacent_equal fl' -> no_faults C fl' ->
  last_place C fl ((sum ns - 1) mod List.length (epoch C fl) + 1) i r ->
  let s := set_files (snd (run c fuel (gets ns) (init c fl k))) fl' in
  s_files s = fl' /\ s_key s = k /\ Inv c C s /\
  pending C s = map Good (skipn (counted C fl fl' i r) (epoch C fl')).
Proof.
  intros fl fl' k ns fuel i r NA NF U NE HR Hf POS N0 FIN NA' NF' LP.
  destruct (calls_held fl k ns fuel NA NF U NE HR Hf POS N0 FIN) as (SF & I & H & LP').
  destruct (place_unique fl _ _ _ _ _ LP LP') as [-> ->].
  pose proof (proj2 (run_frame c fuel (gets ns) (init c fl k) HR)) as KK.
  set (s := snd (run c fuel (gets ns) (init c fl k))) in *. cbn zeta.
  split; [reflexivity|]. split; [exact (eq_trans KK (ltac:(unfold init; rewrite HR; reflexivity)))|]. split; [exact I|].
  destruct H as (p & E & Q & R). rewrite SF in E. apply (assigned_pending fl fl' s p); assumption.
Qed.

Lemma assigned_once : forall fl fl' k ns ns' fuel i r, c_loop c = false ->
  no_adjacent_equal fl -> no_faults C fl -> uniform C fl ->
  c_randomize c = false -> 2 * List.length fl < fuel -> List.length fl' < fuel -> (forall n, In n ns -> 0 < n) -> ns <> [] ->
  sum ns <= List.length (epoch C fl) ->
  no_adjacent_equal fl' -> no_faults C fl' -> uniform C fl' ->
  last_place C fl (sum ns) i r ->
  forall j n, nth_error ns' j = Some n ->
    let next := firstn n (skipn (counted C fl fl' i r + sum (firstn j ns')) (epoch C fl')) in
    let res := nth_error (fst (run c fuel (gets ns') (set_files (snd (run c fuel (gets ns) (init c fl k))) fl'))) j in
    (next = [] -> res = Some (ORes (CRaise StopIteration))) /\
    (next <> [] -> exists b, res = Some (ORes (CReturn b)) /\ batch_of n next b).
Proof.
  intros fl fl' k ns ns' fuel i r HL NA NF U HR Hf Hf' POS N0 FIN NA' NF' U' LP j n Hj.
  assert (SP : 1 <= sum ns).
  { destruct ns as [|m ns]; [congruence|]. cbn [sum fold_right]. pose proof (POS m (or_introl eq_refl)). lia. }
  assert (NE : epoch C fl <> []) by (intros Z; rewrite Z in FIN; cbn [List.length] in FIN; lia).
  destruct (assigned_state fl fl' k ns fuel i r NA NF U NE HR Hf POS N0 (fun _ => FIN) NA' NF') as (SF & _ & I & P).
  { rewrite Nat.mod_small by lia. replace (sum ns - 1 + 1) with (sum ns) by lia. exact LP. }
  destruct (run_finite c C HD fuel fl' ns' (set_files (snd (run c fuel (gets ns) (init c fl k))) fl')
    (skipn (counted C fl fl' i r) (epoch C fl')) HL U') as (rs & s' & R & _ & _ & _ & K); try assumption.
  { intros x. apply in_skipn. }
  rewrite R. cbn [fst]. specialize (K j n Hj). rewrite skipn_skipn' in K. exact K.
Qed.

Lemma assigned_loop : forall fl fl' k ns ns' fuel i r, c_loop c = true ->
  no_adjacent_equal fl -> no_faults C fl -> uniform C fl -> epoch C fl <> [] ->
  c_randomize c = false -> 2 * List.length fl < fuel -> 2 * List.length fl' < fuel -> (forall n, In n ns -> 0 < n) -> ns <> [] ->
  no_adjacent_equal fl' -> no_faults C fl' -> same_shapes C fl' -> epoch C fl' <> [] -> (forall n, In n ns' -> 0 < n) ->
  last_place C fl ((sum ns - 1) mod List.length (epoch C fl) + 1) i r ->
  forall j n, nth_error ns' j = Some n ->
    exists b l,
      nth_error (fst (run c fuel (gets ns') (set_files (snd (run c fuel (gets ns) (init c fl k))) fl'))) j = Some (ORes (CReturn b)) /\
      batch_of n l b /\ List.length l = n /\
      forall m, m < n -> nth_error l m =
        nth_error (epoch C fl') ((counted C fl fl' i r + sum (firstn j ns') + m) mod List.length (epoch C fl')).
Proof.
  intros fl fl' k ns ns' fuel i r HL NA NF U NE HR Hf Hf' POS N0 NA' NF' U' NE' POS' LP j n Hj.
  assert (HP : c_randomize c = true -> perm_ok (c_rng c)) by congruence.
  destruct (assigned_state fl fl' k ns fuel i r NA NF U NE HR Hf POS N0 ltac:(congruence) NA' NF' LP) as (SF & SK & I & P).
  set (s := set_files (snd (run c fuel (gets ns) (init c fl k))) fl') in *.
  pose proof (counted_le fl fl' _ i r LP) as CL. set (e := counted C fl fl' i r) in *.
  assert (A : At c C fl' k s (firstn e (epoch C fl'))).
  { split; [exact I|]. exists 0, e. rewrite (pass_const c C fl' k 0 HR NA'). split; [exact CL|].
    split; [cbn [pass_st Nat.iter]; rewrite SF; symmetry; apply init_files, HR|].
    split; [rewrite SK; unfold pass_st, init; cbn [Nat.iter]; rewrite HR; reflexivity|]. split; [exact P | reflexivity]. }
  destruct (At_run c C HD fl' k HL HP NF' NE' fuel ns' s _ Hf' U' POS' A) as (rs & s' & D' & H1 & H2 & H3 & _ & H4).
  rewrite firstn_length, Nat.min_l in H3, H4 by exact CL.
  destruct (H4 j n Hj) as (b & Hb1 & Hb2). pose proof (sum_firstn_nth ns' j n Hj) as Hsum.
  exists b, (firstn n (skipn (e + sum (firstn j ns')) D')).
  rewrite H1. split; [exact Hb1|]. split; [exact Hb2|]. split; [rewrite firstn_length, skipn_length; lia|].
  intros m Hm. rewrite nth_error_firstn_lt by lia. rewrite nth_error_skipn'.
  pose proof (passes_long c C fl' k HP NE' (List.length D')) as HK.
  rewrite (At_prefix c C fl' k s' D' (List.length D') H2 HK). rewrite nth_error_firstn_lt by lia.
  rewrite (flat_map_ext_in' _ _ _ (fun _ => epoch C fl')) by (intros x; apply pass_const; assumption).
  apply nth_periodic; [exact NE'|].
  assert (0 < List.length (epoch C fl')) by (destruct (epoch C fl'); [congruence | cbn [List.length]; lia]). nia.
Qed.

(** Before the first batch. *)
Lemma assigned_first : forall fl fl' k ops fuel, c_randomize c = false ->
  run c fuel ops (set_files (init c fl k) fl') = run c fuel ops (init c fl' k).
Proof. intros fl fl' k ops fuel HR. unfold init. rewrite HR. reflexivity. Qed.
End WithDisk.

(** After a reset the new list is the only one. *)
Lemma assigned_reset : forall c fuel ops s fl',
  run c fuel ops (reset c (set_files s fl')) = run c fuel ops (init c fl' (s_key s)).
Proof.
  intros c fuel ops s fl'. unfold reset, init. cbn [s_key s_files set_files]. reflexivity.
Qed.

Lemma run_key : forall c fl k fuel ops, c_randomize c = false -> s_key (snd (run c fuel ops (init c fl k))) = k.
Proof. intros c fl k fuel ops HR. rewrite (proj2 (run_frame c fuel ops _ HR)). unfold init. rewrite HR. reflexivity. Qed.

(** After the end. *)
Lemma assigned_ended : forall c s s1 fuel n fl' f1 ns, c_loop c = false -> slice_never_stops (c_loader c) -> 0 < n ->
  get_batch c fuel n s = (CRaise StopIteration, s1) -> List.length fl' <= List.length (s_files s1) ->
  fst (run c (S f1) (gets ns) (set_files s1 fl')) = map (fun _ => ORes (CRaise StopIteration)) ns.
Proof.
  intros c s s1 fuel n fl' f1 ns HL HN Hn G L.
  rewrite run_exhausted; [reflexivity | exact HL |]. cbn [s_files s_index set_files].
  pose proof (get_batch_stop_exhausted c fuel n s s1 HL HN Hn G). lia.
Qed.

(** * Episodes *)
Lemma ep_next_assigned : forall ec s fl', ec_starts ec <> [] ->
  next_episode ec (ep_assign s fl') = next_episode ec s.
Proof.
  intros ec s fl' NE. unfold next_episode, sample. destruct (ec_starts ec); [congruence|]. reflexivity.
Qed.

Lemma erun_next_assigned : forall ec fuel o ops s fl', ec_starts ec <> [] -> o = ENext \/ o = EReset ->
  erun ec fuel (o :: ops) (ep_assign s fl') = erun ec fuel (o :: ops) s.
Proof.
  intros ec fuel o ops s fl' NE [->| ->]; cbn [erun do_eop]; rewrite ep_next_assigned by exact NE; reflexivity.
Qed.

Lemma construct_starts : forall D c g base B L k ec s, ep_construct D c g base B L k = Ok (ec, s) -> ec_starts ec <> [].
Proof.
  intros D c g base B L k ec s H. unfold ep_construct in H. destruct (B =? 0); [discriminate|]. destruct (L =? 0); [discriminate|].
  destruct (calculate_starts D L (s_files base)) as [st|e]; [|discriminate]. cbn [bind] in H.
  destruct (sample (mkEcfg c g B L (dir_files D) st) (mkEst base k 0)) as [s1|e] eqn:S; [|discriminate]. cbn [bind] in H.
  injection H as <- <-. cbn [ec_starts]. intros ->. discriminate.
Qed.

Lemma erun_gets : forall ec fuel t s, e_t s + t <= ec_L ec ->
  erun ec fuel (repeat (EGet (ec_B ec)) t) s =
  (fst (run (ec_base ec) fuel (gets (repeat (ec_B ec) t)) (e_base s)),
   mkEst (snd (run (ec_base ec) fuel (gets (repeat (ec_B ec) t)) (e_base s))) (e_key s) (e_t s + t)).
Proof.
  intros ec fuel. induction t as [|t IH]; intros [b k u] L; cbn [e_t e_base e_key] in *.
  - cbn [repeat gets map run erun fst snd]. rewrite Nat.add_0_r. reflexivity.
  - cbn [repeat gets map run erun do_eop do_op]. unfold ep_get. cbn [e_t e_base e_key]. rewrite Nat.eqb_refl.
    rewrite (proj2 (Nat.leb_gt _ _)) by lia. destruct (get_batch (ec_base ec) fuel (ec_B ec) b) as [r b'].
    rewrite (IH (mkEst b' k (S u))) by (cbn [e_t]; lia). cbn [e_base e_key e_t]. unfold gets.
    destruct (run (ec_base ec) fuel (map OGet (repeat (ec_B ec) t)) b') as [rs b'']. cbn [fst snd]. do 2 f_equal. lia.
Qed.

Lemma reset_is_init : forall c s, c_randomize c = false -> reset c s = init c (s_files s) (s_key s).
Proof. intros c s HR. unfold reset, init. rewrite HR. reflexivity. Qed.

Lemma episode_assigned : forall ec fuel s t u fl', ec_starts ec <> [] -> c_randomize (ec_base ec) = false -> t + u <= ec_L ec ->
  let e := next_episode ec s in
  fst (erun ec fuel (repeat (EGet (ec_B ec)) u) (ep_assign (snd (erun ec fuel (repeat (EGet (ec_B ec)) t) e)) fl')) =
  fst (run (ec_base ec) fuel (gets (repeat (ec_B ec) u))
         (set_files (snd (run (ec_base ec) fuel (gets (repeat (ec_B ec) t))
            (init (ec_base ec) (s_files (e_base e)) (s_key (e_base s))))) fl')).
Proof.
  intros ec fuel s t u fl' NE HR L e.
  assert (E0 : e_t e = 0 /\ e_base e = init (ec_base ec) (s_files (e_base e)) (s_key (e_base s))).
  { unfold e, next_episode, sample. destruct (ec_starts ec); [congruence|]. cbn [e_t e_base]. split; [reflexivity|].
    unfold reset, init. rewrite HR. reflexivity. }
  destruct E0 as [ET EB]. rewrite (erun_gets ec fuel t e) by lia. cbn [snd]. rewrite erun_gets by (cbn [ep_assign e_t]; lia).
  cbn [fst ep_assign e_base]. rewrite <- EB. reflexivity.
Qed.

Lemma place_exists : forall C fl N, 1 <= N <= List.length (epoch C fl) -> exists i r, last_place C fl N i r.
Proof.
  intros C. induction fl as [|p fl IH]; intros N H.
  - cbn [epoch flat_map List.length] in H. lia.
  - change (epoch C (p :: fl)) with (slices_of C p ++ epoch C fl) in H. rewrite app_length in H.
    destruct (Nat.le_gt_cases N (List.length (slices_of C p))) as [L|L].
    + exists 0, N. exists p. split; [reflexivity|]. split; [lia | reflexivity].
    + destruct (IH (N - List.length (slices_of C p)) ltac:(lia)) as (i & r & q & E & R & HN). exists (S i), r, q.
      split; [exact E|]. split; [exact R|]. cbn [firstn].
      change (epoch C (p :: firstn i fl)) with (slices_of C p ++ epoch C (firstn i fl)). rewrite app_length. lia.
Qed.

Lemma received_stops : forall ns : list nat, received (map (fun _ => ORes (CRaise StopIteration)) ns) = [].
Proof. induction ns as [|n ns IH]; [reflexivity|]. exact IH. Qed.
