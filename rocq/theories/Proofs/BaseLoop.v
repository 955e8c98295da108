(** Looping schedulers, observational equivalence of file lists. *)
From Coq Require Import List Arith Lia String Bool QArith Permutation.
From Verif Require Import Prelude Model.Base Spec.BaseSpec.
From Verif Require Import Proofs.BaseProofs Proofs.BaseBatch Proofs.BaseRun.
Import ListNotations.
Local Open Scope nat_scope.

(** * collapse *)

Lemma collapse_cons2 : forall p q l,
  collapse (p :: q :: l) = if String.eqb p q then collapse (q :: l) else p :: collapse (q :: l).
Proof. reflexivity. Qed.

Lemma collapse_head : forall p l, exists l', collapse (p :: l) = p :: l'.
Proof.
  intros p l; revert p; induction l as [|q l IH]; intros p.
  - exists []; reflexivity.
  - rewrite collapse_cons2. destruct (String.eqb p q) eqn:E.
    + apply String.eqb_eq in E; subst q. apply IH.
    + eexists; reflexivity.
Qed.

Lemma collapse_distinct : forall fl, no_adjacent_equal (collapse fl).
Proof.
  induction fl as [|p fl IH]; intros i a b Ha Hb.
  - destruct i; discriminate.
  - destruct fl as [|q fl].
    + destruct i as [|[|i]]; discriminate.
    + rewrite collapse_cons2 in Ha, Hb. destruct (String.eqb p q) eqn:E.
      * eapply IH; eauto.
      * destruct i as [|i]; cbn [nth_error] in Ha, Hb.
        -- destruct (collapse_head q fl) as [l' Hl']. rewrite Hl' in Hb. simpl in Hb.
           apply String.eqb_neq in E. congruence.
        -- eapply IH; eauto.
Qed.

Lemma collapse_in : forall p fl, In p (collapse fl) <-> In p fl.
Proof.
  intros p fl; induction fl as [|q fl IH]; [reflexivity|].
  destruct fl as [|r fl]; [reflexivity|]. rewrite collapse_cons2.
  destruct (String.eqb q r) eqn:E.
  - rewrite IH. apply String.eqb_eq in E; subst r. simpl. tauto.
  - change (In p (q :: collapse (r :: fl))) with (q = p \/ In p (collapse (r :: fl))).
    rewrite IH. reflexivity.
Qed.

Lemma collapse_id : forall fl, no_adjacent_equal fl -> collapse fl = fl.
Proof.
  induction fl as [|p fl IH]; intros H; auto. destruct fl as [|q fl]; auto.
  rewrite collapse_cons2. destruct (String.eqb p q) eqn:E.
  - apply String.eqb_eq in E. exfalso. apply (H 0 p q); auto.
  - f_equal. apply IH. intros i a b Ha Hb. apply (H (S i) a b); auto.
Qed.

Lemma collapse_nil : forall fl, collapse fl = [] -> fl = [].
Proof.
  intros [|p l] H; auto. destruct (collapse_head p l) as [l' E]. congruence.
Qed.

Section WithDisk.
Variable c : cfg.
Variable C : string -> content.
Hypothesis HD : disk (c_loader c) C.

Lemma reset_ext : forall s s',
  s_files s = s_files s' -> s_key s = s_key s' -> reset c s = reset c s'.
Proof. intros s s' H1 H2. unfold reset. rewrite H1, H2. reflexivity. Qed.

Lemma reset_cfile : forall s, s_cfile (reset c s) = None.
Proof. intros. unfold reset. destruct (c_randomize c); reflexivity. Qed.

Lemma init_fresh : forall fl k, s_index (init c fl k) = 0 /\ s_cfile (init c fl k) = None.
Proof. intros. unfold init. destruct (c_randomize c); auto. Qed.

Lemma tail_events_full : forall fl, no_faults C fl ->
  tail_events C None fl = map Good (epoch C (collapse fl)).
Proof.
  intros fl HF. rewrite <- tail_events_collapse. apply tail_events_epoch.
  - apply collapse_distinct.
  - intros p l e Hp. apply HF. apply collapse_in; exact Hp.
Qed.

Lemma epoch_collapse_in : forall fl x, In x (epoch C fl) <-> In x (epoch C (collapse fl)).
Proof.
  intros fl x. unfold epoch. rewrite !in_flat_map. split; intros [p [Hp Hx]]; exists p;
    (split; [apply collapse_in; exact Hp|exact Hx]).
Qed.

(** * The sequence of passes of a looping scheduler *)
Section Loop.
Variable fl : list string.
Variable k0 : key.
Hypothesis HL : c_loop c = true.
Hypothesis HP : c_randomize c = true -> perm_ok (c_rng c).
Hypothesis HF : no_faults C fl.
Hypothesis HE : epoch C fl <> [].

Definition pass_st (j : nat) : st := Nat.iter j (reset c) (init c fl k0).

Definition pass (j : nat) : list SchedData := epoch C (collapse (s_files (pass_st j))).

Lemma pass_perm : forall j, Permutation (s_files (pass_st j)) fl.
Proof.
  induction j; simpl.
  - apply init_perm; auto.
  - etransitivity; [apply reset_perm; auto|exact IHj].
Qed.

Lemma pass_fresh : forall j, pending C (pass_st j) = map Good (pass j).
Proof.
  intros j. rewrite pending_fresh.
  - apply tail_events_full. intros p l e Hp. apply HF.
    eapply Permutation_in; [apply pass_perm|exact Hp].
  - destruct j; simpl; [apply init_fresh|apply reset_index].
  - destruct j; simpl; [apply init_fresh|apply reset_cfile].
Qed.

Lemma pass_nonempty : forall j, pass j <> [].
Proof.
  intros j Hn. destruct (epoch C fl) as [|x l] eqn:E; [congruence|].
  assert (In x (pass j)).
  { unfold pass. apply (proj1 (epoch_collapse_in _ _)).
    apply (epoch_perm_in C fl); [symmetry; apply pass_perm|].
    rewrite E; left; reflexivity. }
  rewrite Hn in H. contradiction.
Qed.

Definition At (s : st) (D : list SchedData) : Prop :=
  Inv c C s /\ exists j i,
    i <= List.length (pass j) /\
    s_files s = s_files (pass_st j) /\ s_key s = s_key (pass_st j) /\
    pending C s = map Good (skipn i (pass j)) /\
    D = flat_map pass (seq 0 j) ++ firstn i (pass j).

Lemma At_init : At (init c fl k0) [].
Proof.
  split; [apply init_inv|]. exists 0, 0. repeat split; auto.
  - lia.
  - apply (pass_fresh 0).
Qed.

Lemma At_len : forall s D, At s D -> List.length (s_files s) = List.length fl.
Proof.
  intros s D [_ [j [i [_ [H _]]]]]. rewrite H. apply Permutation_length, pass_perm.
Qed.

Lemma firstn_S_nth : forall A i (l : list A) x r,
  skipn i l = x :: r -> firstn (S i) l = firstn i l ++ [x].
Proof.
  intros A i; induction i; intros l x r H; simpl in *.
  - subst l. reflexivity.
  - destruct l; [discriminate|]. simpl. f_equal. eapply IHi; eauto.
Qed.

Lemma skipn_S : forall A i (l : list A) x r, skipn i l = x :: r -> skipn (S i) l = r.
Proof.
  intros A i; induction i; intros l x r H; simpl in *.
  - subst l; reflexivity.
  - destruct l; [discriminate|]. eapply IHi; eauto.
Qed.

Lemma At_next : forall fuel s D,
  2 * List.length fl < fuel -> At s D ->
  exists x s', get_next c fuel s = (NItem x, s') /\ At s' (D ++ [x]).
Proof.
  intros fuel s D Hf HA. pose proof (At_len s D HA) as Hlen.
  destruct HA as [HI [j [i [Hi [Hfi [Hk [Hp HD']]]]]]].
  destruct (skipn i (pass j)) as [|x r] eqn:Es.
  - (* wrap *)
    simpl in Hp.
    assert (Hpne : 0 < List.length fl).
    { destruct fl; simpl in *; [exfalso; apply HE; reflexivity|lia]. }
    assert (Hr : reset c s = pass_st (S j)) by (apply reset_ext; auto).
    destruct (get_next_wrap c C HD fuel s HL HI Hp) as [s1 [H1 [H2 [H3 H4]]]].
    { rewrite Hr. rewrite (Permutation_length (pass_perm (S j))). exact Hpne. }
    { lia. }
    assert (Hr1 : reset c s1 = pass_st (S j)) by (rewrite <- Hr; apply reset_ext; congruence).
    rewrite H4, Hr1.
    assert (Hpf := pass_fresh (S j)).
    destruct (pass (S j)) as [|x r] eqn:Ep; [exfalso; eapply pass_nonempty; eauto|].
    destruct (get_next_pending c C HD (fuel - (List.length (s_files s) - s_index s)) (pass_st (S j)))
      as [s2 [K1 [K2 [K3 K4]]]].
    { apply reset_inv. }
    { rewrite Hpf; discriminate. }
    { rewrite (Permutation_length (pass_perm (S j))).
      change (pass_st (S j)) with (reset c (pass_st j)). rewrite reset_index. lia. }
    rewrite Hpf in K4. simpl in K4. destruct K4 as [K4 K5].
    exists x, s2. split; [exact K4|]. split; [exact K1|].
    exists (S j), 1. rewrite Ep. simpl. repeat split; auto.
    + lia.
    + rewrite HD'. assert (Hfull : firstn i (pass j) = pass j).
      { pose proof (skipn_length i (pass j)) as HS. rewrite Es in HS. simpl in HS.
        apply firstn_all2. lia. }
      rewrite Hfull. change (pass 0 :: nil) with [pass 0].
      change (pass 0 ++ flat_map pass (seq 1 j)) with (flat_map pass (seq 0 (S j))).
      rewrite seq_S, flat_map_app. simpl. rewrite app_nil_r. reflexivity.
  - destruct (get_next_pending c C HD fuel s HI) as [s2 [K1 [K2 [K3 K4]]]].
    { rewrite Hp; discriminate. }
    { lia. }
    rewrite Hp in K4. simpl in K4. destruct K4 as [K4 K5].
    exists x, s2. split; [exact K4|]. split; [exact K1|].
    exists j, (S i). repeat split; try congruence.
    + pose proof (skipn_length i (pass j)) as HS. rewrite Es in HS. simpl in HS. lia.
    + rewrite K5. rewrite (skipn_S _ _ _ _ _ Es). reflexivity.
    + rewrite (firstn_S_nth _ _ _ _ _ Es), app_assoc. congruence.
Qed.

Lemma At_collect : forall fuel n acc s D,
  2 * List.length fl < fuel -> At s D ->
  exists l s', collect c fuel n acc s = (Collected (acc ++ l), s') /\
    List.length l = n /\ At s' (D ++ l).
Proof.
  intros fuel n; induction n as [|n IH]; intros acc s D Hf HA.
  - exists [], s. rewrite !app_nil_r. auto.
  - destruct (At_next fuel s D Hf HA) as [x [s1 [H1 H2]]].
    destruct (IH (acc ++ [x]) s1 (D ++ [x]) Hf H2) as [l [s2 [K1 [K2 K3]]]].
    exists (x :: l), s2. simpl. rewrite H1, K1.
    replace (acc ++ x :: l) with ((acc ++ [x]) ++ l) by (rewrite <- app_assoc; reflexivity).
    replace (D ++ x :: l) with ((D ++ [x]) ++ l) by (rewrite <- app_assoc; reflexivity).
    split; [reflexivity|]. split; [lia|exact K3].
Qed.

Lemma At_in : forall s D x, At s D -> In x D -> In x (epoch C fl).
Proof.
  intros s D x [_ [j [i [_ [_ [_ [_ HD']]]]]]] Hx. subst D.
  assert (G : forall j, In x (pass j) -> In x (epoch C fl)).
  { intros j' H. unfold pass in H. apply (proj2 (epoch_collapse_in _ _)) in H.
    eapply epoch_perm_in; [apply pass_perm|exact H]. }
  apply in_app_iff in Hx. destruct Hx as [Hx|Hx].
  - apply in_flat_map in Hx. destruct Hx as [j' [_ Hx]]. eapply G; eauto.
  - eapply G. eapply in_firstn; eauto.
Qed.

Lemma At_batch : forall fuel n s D,
  2 * List.length fl < fuel -> same_shapes C fl -> 0 < n -> At s D ->
  exists b l s', get_batch c fuel n s = (CReturn b, s') /\ batch_of n l b /\
    List.length l = n /\ At s' (D ++ l).
Proof.
  intros fuel n s D Hf HU Hn HA.
  destruct (At_collect fuel n [] s D Hf HA) as [l [s1 [H1 [H2 H3]]]]. simpl in H1.
  destruct HU as [F [I1 [I2 HS]]].
  destruct (assemble_ok F I1 I2 true n l) as [b [Hb1 Hb2]]; auto; try lia.
  { destruct l; simpl in *; [lia|discriminate]. }
  { intros x Hx. apply HS. eapply At_in; eauto. apply in_app_iff; right; exact Hx. }
  exists b, l, s1. unfold get_batch. rewrite H1, HL, Hb1.
  destruct l as [|x l]; simpl in *; [lia|]. auto.
Qed.

Lemma At_run : forall fuel ns s D,
  2 * List.length fl < fuel -> same_shapes C fl -> (forall n, In n ns -> 0 < n) -> At s D ->
  exists rs s' D', run c fuel (gets ns) s = (rs, s') /\ At s' D' /\
    List.length D' = List.length D + sum ns /\
    firstn (List.length D) D' = D /\
    forall j n, nth_error ns j = Some n ->
      exists b, nth_error rs j = Some (ORes (CReturn b)) /\
        batch_of n (firstn n (skipn (List.length D + sum (firstn j ns)) D')) b.
Proof.
  intros fuel ns; induction ns as [|n ns IH]; intros s D Hf HU Hpos HA.
  - exists [], s, D. simpl. split; [auto|]. split; [auto|]. split; [lia|].
    split; [apply firstn_all|]. intros [|j] n H; discriminate.
  - destruct (At_batch fuel n s D Hf HU) as [b [l [s1 [H1 [H2 [H3 H4]]]]]]; auto.
    { apply Hpos; left; auto. }
    destruct (IH s1 (D ++ l) Hf HU) as [rs [s' [D' [K1 [K2 [K3 [K4 K5]]]]]]]; auto.
    { intros m Hm; apply Hpos; right; exact Hm. }
    rewrite app_length in *.
    exists (ORes (CReturn b) :: rs), s', D'. simpl. rewrite H1, K1.
    split; [auto|]. split; [auto|]. split; [simpl; lia|].
    split.
    { replace (firstn (List.length D) D') with (firstn (List.length D) (firstn (List.length D + List.length l) D')).
      2: { rewrite firstn_firstn. f_equal. lia. }
      rewrite K4. rewrite firstn_app, firstn_all, Nat.sub_diag. simpl. apply app_nil_r. }
    intros [|j] m Hj; simpl in Hj.
    + inversion Hj; subst m. exists b. simpl. rewrite Nat.add_0_r.
      split; [reflexivity|].
      replace (firstn n (skipn (List.length D) D')) with l; [exact H2|].
      rewrite <- (firstn_skipn (List.length D + List.length l) D'), K4.
      rewrite <- app_assoc. rewrite skipn_app, skipn_all, Nat.sub_diag. simpl.
      rewrite firstn_app, <- H3, firstn_all, Nat.sub_diag. simpl. rewrite app_nil_r. reflexivity.
    + destruct (K5 j m Hj) as [b' [Hb1 Hb2]]. exists b'. simpl. split; [exact Hb1|].
      rewrite Nat.add_assoc. rewrite H3 in Hb2. exact Hb2.
Qed.

(** Everything delivered is a prefix of the concatenated passes. *)
Lemma At_prefix : forall s D K,
  At s D -> List.length D <= List.length (flat_map pass (seq 0 K)) ->
  D = firstn (List.length D) (flat_map pass (seq 0 K)).
Proof.
  intros s D K [_ [j [i [Hi [_ [_ [_ HD']]]]]]] HK.
  destruct (Nat.le_gt_cases K j) as [Hc|Hc].
  - (* K <= j *)
    assert (Hs : flat_map pass (seq 0 j) = flat_map pass (seq 0 K) ++ flat_map pass (seq K (j - K))).
    { rewrite <- flat_map_app. f_equal. replace j with (K + (j - K)) at 1 by lia.
      rewrite seq_app. reflexivity. }
    assert (Hl : List.length D = List.length (flat_map pass (seq 0 K))).
    { apply Nat.le_antisymm; [exact HK|]. rewrite HD', Hs, !app_length. lia. }
    rewrite Hl, firstn_all. rewrite HD', Hs, <- app_assoc in *.
    rewrite app_length in Hl.
    destruct (flat_map pass (seq K (j - K)) ++ firstn i (pass j)) as [|y t];
      [apply app_nil_r|simpl in Hl; lia].
  - assert (Hs : flat_map pass (seq 0 K) = flat_map pass (seq 0 j) ++ pass j ++ flat_map pass (seq (S j) (K - S j))).
    { replace K with (j + (1 + (K - S j))) at 1 by lia. rewrite seq_app, flat_map_app. reflexivity. }
    rewrite Hs. rewrite HD'. rewrite app_length.
    rewrite firstn_app_2. f_equal. rewrite firstn_length, Nat.min_l by lia.
    rewrite firstn_app. replace (i - List.length (pass j)) with 0 by lia.
    simpl. rewrite app_nil_r. reflexivity.
Qed.

Lemma passes_long : forall K, K <= List.length (flat_map pass (seq 0 K)).
Proof.
  induction K; simpl; [lia|].
  change (pass 0 ++ flat_map pass (seq 1 K)) with (flat_map pass (seq 0 (S K))).
  rewrite seq_S, flat_map_app, app_length. simpl. rewrite app_nil_r.
  pose proof (pass_nonempty K). destruct (pass K); [congruence|simpl; lia].
Qed.

End Loop.

(** * Divergence *)

Lemma pending_nil_of : forall s,
  (forall p, In p (s_files s) -> events C p = []) -> pending C s = [].
Proof.
  intros s H. unfold pending.
  assert (HT : forall l prev, (forall p, In p l -> events C p = []) -> tail_events C prev l = []).
  { induction l as [|p l IH]; intros prev G; simpl; auto.
    rewrite (G p) by (left; auto). rewrite IH by (intros; apply G; right; auto).
    destruct (opt_str_eqb prev p); reflexivity. }
  destruct (skipn (s_index s) (s_files s)) as [|p l] eqn:E; auto.
  assert (Hi : forall q, In q (p :: l) -> In q (s_files s)).
  { intros q Hq. rewrite <- E in Hq. eapply in_skipn; eauto. }
  rewrite (H p) by (apply Hi; left; auto). rewrite skipn_nil.
  rewrite HT by (intros; apply H, Hi; right; auto).
  destruct (opt_str_eqb _ _); reflexivity.
Qed.

Lemma get_next_diverges : forall fuel s,
  c_loop c = true -> (c_randomize c = true -> perm_ok (c_rng c)) ->
  Inv c C s -> s_files s <> [] ->
  (forall p, In p (s_files s) -> events C p = []) ->
  exists s', get_next c fuel s = (NOutOfFuel, s') /\ Inv c C s' /\
    Permutation (s_files s') (s_files s) /\ (c_randomize c = false -> s_files s' = s_files s).
Proof.
  induction fuel as [|fuel IH]; intros s Hl HP HI Hne He.
  - exists s. simpl. auto.
  - simpl. rewrite Hl, orb_true_r.
    set (s1 := if List.length (s_files s) <=? s_index s then reset c s else s).
    assert (HI1 : Inv c C s1).
    { unfold s1. destruct (_ <=? _); auto. apply reset_inv. }
    assert (HP1 : Permutation (s_files s1) (s_files s)).
    { unfold s1. destruct (_ <=? _); [|reflexivity]. apply reset_perm; auto. }
    assert (HS1 : c_randomize c = false -> s_files s1 = s_files s).
    { intro Hr. unfold s1. destruct (_ <=? _); auto. unfold reset. rewrite Hr. reflexivity. }
    assert (Hne1 : s_files s1 <> []).
    { intro E. rewrite E in HP1. apply Permutation_nil in HP1. auto. }
    assert (He1 : forall p, In p (s_files s1) -> events C p = []).
    { intros p Hp. apply He. eapply Permutation_in; eauto. }
    assert (Hlt : s_index s1 < List.length (s_files s1)).
    { unfold s1. destruct (List.length (s_files s) <=? s_index s) eqn:E.
      - rewrite reset_index. destruct (s_files (reset c s)) eqn:E2.
        + exfalso. apply Hne1. exact E2.
        + simpl; lia.
      - apply Nat.leb_gt in E. exact E. }
    pose proof (pending_nil_of s1 He1) as Hpn.
    pose proof (next_body_spec c C HD s1 HI1 Hlt) as HB.
    destruct (next_body c s1) as [s2|[[x|e|] s2]].
    + destruct HB as [H1 [H2 [H3 [H4 H5]]]].
      destruct (IH s2) as [s3 [K1 [K2 [K3 K4]]]]; auto.
      * rewrite H4; exact Hne1.
      * rewrite H4; exact He1.
      * exists s3. split; [exact K1|]. split; [exact K2|]. split.
        -- etransitivity; [exact K3|]. rewrite H4; exact HP1.
        -- intro Hr. rewrite (K4 Hr), H4. auto.
    + destruct HB as [_ [H2 _]]. rewrite Hpn in H2; discriminate.
    + destruct HB as [_ [[r H2] _]]. rewrite Hpn in H2; discriminate.
    + contradiction.
Qed.

Lemma events_nil : forall p,
  (forall l e, C p <> Faulty l e) -> slices_of C p = [] -> events C p = [].
Proof.
  intros p Hf Hs. unfold slices_of, events in *. destruct (C p) as [|l|l e]; auto.
  - subst l; reflexivity.
  - exfalso. eapply Hf; reflexivity.
Qed.

(** * Observational equivalence of two file lists (no shuffling) *)

Lemma tail_events_nil_all : forall l prev,
  tail_events C prev l = [] ->
  (forall p, prev = Some p -> events C p = []) ->
  forall p, In p l -> events C p = [].
Proof.
  induction l as [|q l IH]; intros prev H Hp p Hin; [contradiction|].
  cbn [tail_events] in H. apply app_eq_nil in H. destruct H as [H1 H2].
  assert (Hq : events C q = []).
  { destruct (opt_str_eqb prev q) eqn:E; auto. apply opt_str_eqb_true in E. auto. }
  destruct Hin as [->|Hin]; auto.
  eapply IH; eauto. intros r Hr. unfold prev_of in Hr.
  assert (r = q) by (destruct (C q); congruence). subst; auto.
Qed.

Section Equiv.
Variables fl1 fl2 : list string.
Hypothesis HR : c_randomize c = false.
Hypothesis HT : tail_events C None fl1 = tail_events C None fl2.
Hypothesis Hne1 : fl1 <> [].
Hypothesis Hne2 : fl2 <> [].
Variable fuel : nat.
Hypothesis Hfuel : 2 * (List.length fl1 + List.length fl2) < fuel.

Definition Rel (s1 s2 : st) : Prop :=
  Inv c C s1 /\ Inv c C s2 /\ s_files s1 = fl1 /\ s_files s2 = fl2 /\
  pending C s1 = pending C s2.

Lemma reset_rel : forall s1 s2, s_files s1 = fl1 -> s_files s2 = fl2 ->
  Rel (reset c s1) (reset c s2).
Proof.
  intros s1 s2 H1 H2. split; [apply reset_inv|]. split; [apply reset_inv|].
  assert (E1 : s_files (reset c s1) = fl1) by (unfold reset; rewrite HR; exact H1).
  assert (E2 : s_files (reset c s2) = fl2) by (unfold reset; rewrite HR; exact H2).
  repeat split; auto.
  rewrite !pending_fresh by (apply reset_index || apply reset_cfile). congruence.
Qed.

Lemma next_rel : forall s1 s2, Rel s1 s2 ->
  exists r s1' s2', get_next c fuel s1 = (r, s1') /\ get_next c fuel s2 = (r, s2') /\ Rel s1' s2'.
Proof.
  intros s1 s2 [I1 [I2 [F1 [F2 HPe]]]].
  assert (Hlen1 : List.length (s_files s1) = List.length fl1) by congruence.
  assert (Hlen2 : List.length (s_files s2) = List.length fl2) by congruence.
  destruct (pending C s1) as [|ev r] eqn:E1.
  - destruct (c_loop c) eqn:Hl.
    + assert (HX : exists T, tail_events C None fl1 = T) by eauto.
      destruct HX as [[|ev r] ET].
      * (* both diverge *)
        assert (G : forall s, Inv c C s -> (s_files s = fl1 \/ s_files s = fl2) ->
          exists s', get_next c fuel s = (NOutOfFuel, s') /\ Inv c C s' /\ s_files s' = s_files s
             /\ pending C s' = []).
        { intros s HI HF.
          assert (He : forall p, In p (s_files s) -> events C p = []).
          { destruct HF as [->| ->]; (apply (tail_events_nil_all _ None); [congruence|intros; discriminate]). }
          destruct (get_next_diverges fuel s) as [s' [H1 [H2 [H3 H4]]]]; auto.
          - intro; congruence.
          - destruct HF as [->| ->]; auto.
          - exists s'. split; [exact H1|]. split; [exact H2|]. split; [auto|].
            apply pending_nil_of. rewrite (H4 HR). exact He. }
        destruct (G s1 I1 (or_introl F1)) as [s1' [A1 [A2 [A3 A4]]]].
        destruct (G s2 I2 (or_intror F2)) as [s2' [B1 [B2 [B3 B4]]]].
        exists NOutOfFuel, s1', s2'. split; [exact A1|]. split; [exact B1|].
        unfold Rel. repeat split; auto; congruence.
      * (* both wrap *)
        destruct (get_next_wrap c C HD fuel s1 Hl I1 E1) as [t1 [A1 [A2 [A3 A4]]]].
        { unfold reset; rewrite HR; simpl. rewrite F1. destruct fl1; [congruence|simpl; lia]. }
        { lia. }
        destruct (get_next_wrap c C HD fuel s2 Hl I2 (eq_sym HPe)) as [t2 [B1 [B2 [B3 B4]]]].
        { unfold reset; rewrite HR; simpl. rewrite F2. destruct fl2; [congruence|simpl; lia]. }
        { lia. }
        destruct (reset_rel t1 t2) as [R1 [R2 [R3 [R4 R5]]]]; try congruence.
        assert (Hpr : pending C (reset c t1) = ev :: r).
        { rewrite pending_fresh by (apply reset_index || apply reset_cfile). rewrite R3. exact ET. }
        destruct (get_next_pending c C HD (fuel - (List.length (s_files s1) - s_index s1)) (reset c t1) R1)
          as [u1 [P1 [P2 [P3 P4]]]].
        { rewrite Hpr; discriminate. }
        { rewrite R3, reset_index. lia. }
        destruct (get_next_pending c C HD (fuel - (List.length (s_files s2) - s_index s2)) (reset c t2) R2)
          as [u2 [Q1 [Q2 [Q3 Q4]]]].
        { rewrite <- R5, Hpr; discriminate. }
        { rewrite R4, reset_index. lia. }
        rewrite <- R5 in Q4. rewrite Hpr in P4, Q4. rewrite A4, B4.
        destruct ev as [x|e]; destruct P4 as [P4 P5]; destruct Q4 as [Q4 Q5];
          eexists _, u1, u2; (split; [exact P4|split; [exact Q4|]]);
          unfold Rel; repeat split; auto; congruence.
    + destruct (get_next_stop c C HD fuel s1 Hl I1 E1) as [t1 [A1 [A2 [A3 [A4 A5]]]]]; [lia|].
      destruct (get_next_stop c C HD fuel s2 Hl I2 (eq_sym HPe)) as [t2 [B1 [B2 [B3 [B4 B5]]]]]; [lia|].
      exists (NRaise StopIteration), t1, t2. split; [exact A1|]. split; [exact B1|].
      unfold Rel; repeat split; auto; congruence.
  - destruct (get_next_pending c C HD fuel s1 I1) as [u1 [P1 [P2 [P3 P4]]]].
    { rewrite E1; discriminate. } { lia. }
    destruct (get_next_pending c C HD fuel s2 I2) as [u2 [Q1 [Q2 [Q3 Q4]]]].
    { rewrite <- HPe; discriminate. } { lia. }
    rewrite E1 in P4. rewrite <- HPe in Q4.
    destruct ev as [x|e]; destruct P4 as [P4 P5]; destruct Q4 as [Q4 Q5];
      eexists _, u1, u2; (split; [exact P4|split; [exact Q4|]]);
      unfold Rel; repeat split; auto; congruence.
Qed.

Lemma collect_rel : forall n acc s1 s2, Rel s1 s2 ->
  exists r s1' s2', collect c fuel n acc s1 = (r, s1') /\ collect c fuel n acc s2 = (r, s2')
    /\ Rel s1' s2'.
Proof.
  induction n as [|n IH]; intros acc s1 s2 HRl.
  - exists (Collected acc), s1, s2. auto.
  - destruct (next_rel s1 s2 HRl) as [r [t1 [t2 [H1 [H2 H3]]]]].
    simpl. rewrite H1, H2. destruct r as [x|e|].
    + apply IH; auto.
    + destruct e; eexists _, t1, t2; auto.
    + eexists _, t1, t2; auto.
Qed.

Lemma op_rel : forall o s1 s2, Rel s1 s2 ->
  exists r s1' s2', do_op c fuel o s1 = (r, s1') /\ do_op c fuel o s2 = (r, s2') /\ Rel s1' s2'.
Proof.
  intros [n|] s1 s2 HRl; simpl.
  - unfold get_batch. destruct (collect_rel n [] s1 s2 HRl) as [r [t1 [t2 [H1 [H2 H3]]]]].
    rewrite H1, H2. destruct r as [l|e|]; try (eexists _, t1, t2; auto; fail).
    destruct l as [|x l].
    + destruct (c_loop c).
      * destruct (assemble true n []); eexists _, (reset c t1), (reset c t2);
          (split; [reflexivity|split; [reflexivity|]]);
          destruct H3 as [_ [_ [F1 [F2 _]]]]; apply reset_rel; auto.
      * eexists _, t1, t2; auto.
    + destruct (assemble (c_loop c) n (x :: l)); eexists _, t1, t2; auto.
  - eexists _, (reset c s1), (reset c s2). split; [reflexivity|]. split; [reflexivity|].
    destruct HRl as [_ [_ [F1 [F2 _]]]]. apply reset_rel; auto.
Qed.

Lemma run_rel : forall ops s1 s2, Rel s1 s2 ->
  fst (run c fuel ops s1) = fst (run c fuel ops s2).
Proof.
  induction ops as [|o ops IH]; intros s1 s2 HRl; auto.
  simpl. destruct (op_rel o s1 s2 HRl) as [r [t1 [t2 [H1 [H2 H3]]]]].
  rewrite H1, H2. specialize (IH t1 t2 H3).
  destruct (run c fuel ops t1), (run c fuel ops t2). simpl in *. congruence.
Qed.

Lemma run_equiv : forall ops k1 k2,
  fst (run c fuel ops (init c fl1 k1)) = fst (run c fuel ops (init c fl2 k2)).
Proof.
  intros ops k1 k2. apply run_rel. unfold Rel.
  split; [apply init_inv|]. split; [apply init_inv|].
  assert (E1 : s_files (init c fl1 k1) = fl1) by (unfold init; rewrite HR; reflexivity).
  assert (E2 : s_files (init c fl2 k2) = fl2) by (unfold init; rewrite HR; reflexivity).
  repeat split; auto.
  rewrite !pending_fresh by apply init_fresh. congruence.
Qed.

End Equiv.

End WithDisk.
