(** The base-scheduler properties, in the form stated in Properties/BaseProps.v. *)
From Coq Require Import List Arith Lia String Bool QArith Permutation.
From Verif Require Import Prelude Model.Base Spec.BaseSpec.
From Verif Require Import Proofs.BaseProofs Proofs.BaseBatch Proofs.BaseRun Proofs.BaseLoop.
Import ListNotations.
Local Open Scope nat_scope.

Lemma loader_of_disk : forall C, disk (loader_of C) C.
Proof.
  intros C p. destruct (C p) as [|l|l e] eqn:E; simpl; rewrite ?E.
  - eauto.
  - eexists; split; [reflexivity|]. intros i. reflexivity.
  - eexists; split; [reflexivity|]. split.
    + intros i Hi. destruct (nth_error l i) eqn:En; auto. apply nth_error_None in En. lia.
    + rewrite (proj2 (nth_error_None l (List.length l))) by lia. reflexivity.
Qed.

Lemma init_pending : forall c C fl k, c_randomize c = false ->
  no_adjacent_equal fl -> no_faults C fl ->
  pending C (init c fl k) = map Good (epoch C fl).
Proof.
  intros c C fl k HR HA HF. rewrite pending_fresh by apply init_fresh.
  unfold init. rewrite HR. simpl. apply tail_events_epoch; auto.
Qed.

Lemma init_files : forall c fl k, c_randomize c = false -> s_files (init c fl k) = fl.
Proof. intros c fl k H. unfold init. rewrite H. reflexivity. Qed.

Lemma finite_calls : forall c C fl k ns fuel,
  disk (c_loader c) C -> c_loop c = false -> c_randomize c = false ->
  no_adjacent_equal fl -> no_faults C fl -> uniform C fl ->
  List.length fl < fuel ->
  forall j n, nth_error ns j = Some n ->
    let next := firstn n (skipn (sum (firstn j ns)) (epoch C fl)) in
    let r := nth_error (fst (run c fuel (gets ns) (init c fl k))) j in
    (next = [] -> r = Some (ORes (CRaise StopIteration))) /\
    (next <> [] -> exists b, r = Some (ORes (CReturn b)) /\ batch_of n next b).
Proof.
  intros c C fl k ns fuel HD HL HR HA HF HU Hf j n Hj.
  destruct (run_finite c C HD fuel fl ns (init c fl k) (epoch C fl)) as [rs [s' [H1 [_ [_ [_ H2]]]]]]; auto.
  - apply init_inv.
  - rewrite init_files; auto.
  - apply init_pending; auto.
  - rewrite H1. simpl. apply H2; auto.
Qed.

(** Received rows from the per-call description. *)
Lemma received_calls : forall ns rs xs,
  List.length rs = List.length ns ->
  (forall j n, nth_error ns j = Some n ->
      let seg := firstn n (skipn (sum (firstn j ns)) xs) in
      (seg = [] -> exists r, nth_error rs j = Some (ORes r) /\ valid_rows r = []) /\
      (seg <> [] -> exists b, nth_error rs j = Some (ORes (CReturn b)) /\ batch_of n seg b)) ->
  received rs = map slice_row (firstn (sum ns) xs).
Proof.
  induction ns as [|n ns IH]; intros rs xs HL H; destruct rs as [|r rs]; try discriminate; auto.
  simpl. rewrite (IH rs (skipn n xs)).
  - replace (firstn (n + sum ns) xs) with (firstn n xs ++ firstn (sum ns) (skipn n xs)).
    2: { clear. revert xs. induction n; intros xs; auto. destruct xs; simpl; [destruct (sum ns); reflexivity|].
         f_equal. apply IHn. }
    rewrite map_app. f_equal.
    destruct (H 0 n eq_refl) as [H1 H2]. simpl in *.
    destruct (firstn n xs) as [|x l] eqn:E.
    + destruct (H1 eq_refl) as [r' [Hr Hv]]. inversion Hr; subst r. exact Hv.
    + destruct H2 as [b [Hb1 Hb2]]; [discriminate|]. inversion Hb1; subst r.
      rewrite (valid_rows_batch n (x :: l) b Hb2). reflexivity.
  - simpl in HL; lia.
  - intros j m Hj. specialize (H (S j) m Hj). simpl in H. rewrite skipn_skipn'. exact H.
Qed.

Lemma finite_rows : forall c C fl k ns fuel,
  disk (c_loader c) C -> c_loop c = false -> c_randomize c = false ->
  no_adjacent_equal fl -> no_faults C fl -> uniform C fl ->
  List.length fl < fuel ->
  received (fst (run c fuel (gets ns) (init c fl k))) =
  map slice_row (firstn (sum ns) (epoch C fl)).
Proof.
  intros c C fl k ns fuel HD HL HR HA HF HU Hf.
  apply received_calls.
  - rewrite run_length. unfold gets. apply map_length.
  - intros j n Hj. destruct (finite_calls c C fl k ns fuel HD HL HR HA HF HU Hf j n Hj) as [H1 H2].
    split; auto. intro Hs. exists (CRaise StopIteration). split; auto.
Qed.

Lemma exhaustion_permanent : forall c fl k f0 ops fuel n s s1 f1 ns,
  c_loop c = false -> slice_never_stops (c_loader c) -> 0 < n ->
  s = snd (run c f0 ops (init c fl k)) ->
  get_batch c fuel n s = (CRaise StopIteration, s1) ->
  fst (run c (S f1) (gets ns) s1) = map (fun _ => ORes (CRaise StopIteration)) ns.
Proof.
  intros. rewrite run_exhausted; auto. eapply get_batch_stop_exhausted; eauto.
Qed.

Lemma same_shapes_perm : forall C fl fl', Permutation fl fl' -> same_shapes C fl -> same_shapes C fl'.
Proof.
  intros C fl fl' HP [F [I1 [I2 H]]]. exists F, I1, I2.
  intros x Hx. apply H. eapply epoch_perm_in; [symmetry; exact HP|exact Hx].
Qed.

Lemma mask_and_padding : forall c C fl k f0 ops fuel n b s',
  disk (c_loader c) C -> slice_never_stops (c_loader c) ->
  (c_randomize c = true -> perm_ok (c_rng c)) -> same_shapes C fl -> 0 < n ->
  get_batch c fuel n (snd (run c f0 ops (init c fl k))) = (CReturn b, s') ->
  exists l, batch_of n l b /\ l <> [] /\
    (forall x, In x l -> In x (epoch C fl)) /\
    (c_loop c = true -> sd_mask b = Some (repeat true n)).
Proof.
  intros c C fl k f0 ops fuel n b s' HD HN HP HU Hn HG.
  destruct (run_reach c C HD f0 ops (init c fl k) HP (init_inv c C fl k)) as [HI HPe].
  set (s := snd (run c f0 ops (init c fl k))) in *.
  assert (HPf : Permutation (s_files s) fl).
  { etransitivity; [exact HPe|apply init_perm; auto]. }
  pose proof (get_batch_reach c C HD fuel n s HP HI) as H. rewrite HG in H.
  destruct H as [_ [_ H]].
  destruct (H HN (same_shapes_perm C fl (s_files s) (Permutation_sym HPf) HU) Hn b eq_refl)
    as [l [Hb [Hin [Hne Hl]]]].
  exists l. split; [exact Hb|]. split; [exact Hne|]. split.
  { intros x Hx. eapply epoch_perm_in; [exact HPf|]. auto. }
  intro HL. specialize (Hl HL). destruct (bo_mask _ _ _ Hb) as [m [Hm [Lm Sm]]].
  rewrite Hm. f_equal. rewrite Hl in Sm. clear - Lm Sm. revert n Lm Sm.
  induction m as [|v m IH]; intros n Lm Sm; simpl in *; subst n; auto.
  simpl. f_equal.
  - assert (0 < S (List.length m)) by lia. apply (Sm 0) in H; auto. simpl in H. destruct (Sm 0) as [_ G]; [lia|].
    specialize (G ltac:(lia)). simpl in G. congruence.
  - apply IH; auto. intros i Hi. specialize (Sm (S i) ltac:(lia)). simpl in Sm.
    rewrite Sm. lia.
Qed.

Lemma rows_belong_together : forall c C fl k f0 ops fuel n b s',
  disk (c_loader c) C -> slice_never_stops (c_loader c) ->
  (c_randomize c = true -> perm_ok (c_rng c)) -> same_shapes C fl -> 0 < n ->
  get_batch c fuel n (snd (run c f0 ops (init c fl k))) = (CReturn b, s') ->
  exists m fs,
    sd_mask b = Some m /\ sd_files b = Some fs /\
    forall i, nth_error m i = Some true ->
      exists p x f, In p fl /\ In x (slices_of C p) /\ sd_files x = Some [f] /\
        row i (sd_flow b) = sd_flow x /\ nth_error fs i = Some f /\
        (forall a, sd_im1 b = Some a -> sd_im1 x = Some (row i a)) /\
        (forall a, sd_im2 b = Some a -> sd_im2 x = Some (row i a)).
Proof.
  intros c C fl k f0 ops fuel n b s' HD HN HP HU Hn HG.
  destruct (mask_and_padding c C fl k f0 ops fuel n b s' HD HN HP HU Hn HG) as [l [Hb [_ [Hin _]]]].
  destruct (bo_mask _ _ _ Hb) as [m [Hm [Lm Sm]]].
  destruct (bo_files _ _ _ Hb) as [fs [Hfs [Lf [Sf _]]]].
  exists m, fs. split; [exact Hm|]. split; [exact Hfs|].
  intros i Hi. assert (Hlt : i < n).
  { rewrite <- Lm. apply nth_error_Some. congruence. }
  apply (Sm i Hlt) in Hi. apply nth_error_Some in Hi.
  destruct (nth_error l i) as [x|] eqn:Ex; [|congruence]. clear Hi.
  pose proof (Hin x (nth_error_In _ _ Ex)) as Hx. apply in_flat_map in Hx.
  destruct Hx as [p [Hp Hx]]. destruct (Sf i x Ex) as [f [Hf1 Hf2]].
  exists p, x, f. repeat split; auto.
  - apply (bo_flow _ _ _ Hb); auto.
  - intros a Ha. destruct (bo_im1 _ _ _ Hb a Ha) as [_ [H _]]. auto.
  - intros a Ha. destruct (bo_im2 _ _ _ Hb a Ha) as [_ [H _]]. auto.
Qed.

Lemma pass_const : forall c C fl k j, c_randomize c = false -> no_adjacent_equal fl ->
  pass c C fl k j = epoch C fl.
Proof.
  intros c C fl k j HR HA. unfold pass.
  assert (H : s_files (pass_st c fl k j) = fl).
  { induction j; simpl; [apply init_files; auto|]. unfold reset. rewrite HR. simpl. exact IHj. }
  rewrite H, collapse_id; auto.
Qed.

Lemma flat_map_ext_in' : forall A B (f g : A -> list B) l,
  (forall x, f x = g x) -> flat_map f l = flat_map g l.
Proof. intros. induction l; simpl; congruence. Qed.

Lemma nth_periodic : forall A (E : list A) K i,
  E <> [] -> i < K * List.length E ->
  nth_error (flat_map (fun _ => E) (seq 0 K)) i = nth_error E (i mod List.length E).
Proof.
  intros A E K; generalize 0. induction K as [|K IH]; intros n i HE Hi; simpl in *; [lia|].
  assert (HL : List.length E <> 0) by (destruct E; simpl; congruence).
  destruct (Nat.lt_ge_cases i (List.length E)) as [H|H].
  - rewrite nth_error_app1 by lia. rewrite Nat.mod_small by lia. reflexivity.
  - rewrite nth_error_app2 by lia. rewrite IH by (auto; lia).
    replace i with ((i - List.length E) + 1 * List.length E) at 2 by lia.
    rewrite Nat.mod_add by lia. reflexivity.
Qed.

Lemma flat_const_length : forall A (E : list A) n K,
  List.length (flat_map (fun _ => E) (seq n K)) = K * List.length E.
Proof. intros A E n K; revert n; induction K; intros; simpl; auto. rewrite app_length, IHK. reflexivity. Qed.

Lemma nth_error_firstn_lt : forall A (l : list A) n i, i < n -> nth_error (firstn n l) i = nth_error l i.
Proof.
  intros A l n; revert l; induction n; intros l i H; [lia|]. destruct l; simpl; auto.
  destruct i; simpl; auto. apply IHn; lia.
Qed.

Lemma nth_error_skipn' : forall A (l : list A) n i, nth_error (skipn n l) i = nth_error l (n + i).
Proof. intros A l n; revert l; induction n; intros l i; simpl; auto. destruct l; auto. destruct i; auto. Qed.

Lemma sum_firstn_nth : forall ns j n, nth_error ns j = Some n -> sum (firstn j ns) + n <= sum ns.
Proof.
  induction ns as [|m ns IH]; intros [|j] n H; simpl in *; try discriminate.
  - inversion H; lia.
  - specialize (IH j n H). lia.
Qed.

Lemma sum_app : forall a b, sum (a ++ b) = sum a + sum b.
Proof. induction a; intros; simpl; auto. rewrite IHa. lia. Qed.

Lemma loop_periodic : forall c C fl k ns fuel,
  disk (c_loader c) C -> c_loop c = true -> c_randomize c = false ->
  no_adjacent_equal fl -> no_faults C fl -> same_shapes C fl -> epoch C fl <> [] ->
  2 * List.length fl < fuel -> (forall n, In n ns -> 0 < n) ->
  forall j n, nth_error ns j = Some n ->
    exists b l,
      nth_error (fst (run c fuel (gets ns) (init c fl k))) j = Some (ORes (CReturn b)) /\
      batch_of n l b /\ List.length l = n /\
      forall i, i < n ->
        nth_error l i =
        nth_error (epoch C fl) ((sum (firstn j ns) + i) mod List.length (epoch C fl)).
Proof.
  intros c C fl k ns fuel HD HL HR HA HF HU HE Hf Hpos j n Hj.
  assert (HP : c_randomize c = true -> perm_ok (c_rng c)) by congruence.
  pose proof (At_init c C fl k HP HF) as HAt.
  destruct (At_run c C HD fl k HL HP HF HE fuel ns _ [] Hf HU Hpos HAt)
    as [rs [s' [D' [H1 [H2 [H3 [_ H4]]]]]]].
  simpl in H3. destruct (H4 j n Hj) as [b [Hb1 Hb2]]. simpl in Hb2.
  pose proof (sum_firstn_nth ns j n Hj) as Hsum.
  exists b, (firstn n (skipn (sum (firstn j ns)) D')).
  rewrite H1. split; [exact Hb1|]. split; [exact Hb2|]. split.
  { rewrite firstn_length, skipn_length. lia. }
  intros i Hi. rewrite nth_error_firstn_lt by lia. rewrite nth_error_skipn'.
  pose proof (passes_long c C fl k HP HE (List.length D')) as HK.
  rewrite (At_prefix c C fl k s' D' (List.length D') H2 HK).
  rewrite nth_error_firstn_lt by lia.
  rewrite (flat_map_ext_in' _ _ _ (fun _ => epoch C fl)).
  2: { intro x. apply pass_const; auto. }
  apply nth_periodic; auto.
  assert (0 < List.length (epoch C fl)) by (destruct (epoch C fl); [congruence|simpl; lia]).
  nia.
Qed.

Lemma files_permutation : forall c C fl k fuel ops,
  disk (c_loader c) C -> perm_ok (c_rng c) ->
  Permutation (s_files (snd (run c fuel ops (init c fl k)))) fl.
Proof.
  intros c C fl k fuel ops HD HP.
  destruct (run_reach c C HD fuel ops (init c fl k) (fun _ => HP) (init_inv c C fl k)) as [_ H].
  etransitivity; [exact H|]. apply init_perm; auto.
Qed.

Lemma finite_pass : forall c C fl k fuel,
  disk (c_loader c) C -> c_loop c = false -> perm_ok (c_rng c) ->
  no_faults C fl -> uniform C fl -> List.length fl < fuel ->
  exists fl', Permutation fl' fl /\
    forall ns, received (fst (run c fuel (gets ns) (init c fl k))) =
               map slice_row (firstn (sum ns) (epoch C (collapse fl'))).
Proof.
  intros c C fl k fuel HD HL HP HF HU Hf. exists (s_files (init c fl k)).
  pose proof (init_perm c fl k (fun _ => HP)) as HPe. split; [exact HPe|]. intros ns.
  destruct (run_finite c C HD fuel fl ns (init c fl k) (epoch C (collapse (s_files (init c fl k)))))
    as [rs [s' [H1 [H2 [_ [_ H3]]]]]]; auto.
  - intros x Hx. apply (proj2 (epoch_collapse_in C _ _)) in Hx. eapply epoch_perm_in; eauto.
  - apply init_inv.
  - rewrite (Permutation_length HPe). exact Hf.
  - rewrite pending_fresh by apply init_fresh. apply tail_events_full.
    intros p l e Hp. apply HF. eapply Permutation_in; eauto.
  - rewrite H1. simpl. apply received_calls; auto.
    intros j n Hj. destruct (H3 j n Hj) as [Ha Hb]. split; auto.
    intro Hs. exists (CRaise StopIteration). split; auto.
Qed.

Lemma skipn_firstn_seg : forall A n off N (l : list A), off + n <= N ->
  firstn n (skipn off (firstn N l)) = firstn n (skipn off l).
Proof.
  intros A n off; induction off; intros N l H; simpl.
  - rewrite firstn_firstn. f_equal. lia.
  - destruct l; [destruct N; reflexivity|]. destruct N; [lia|]. simpl. apply IHoff. lia.
Qed.

Lemma loop_passes_at : forall c C fl k fuel,
  disk (c_loader c) C -> c_loop c = true -> perm_ok (c_rng c) ->
  no_faults C fl -> same_shapes C fl -> epoch C fl <> [] ->
  2 * List.length fl < fuel ->
  forall ns K, (forall n, In n ns -> 0 < n) -> sum ns <= K ->
      received (fst (run c fuel (gets ns) (init c fl k))) =
      map slice_row
        (firstn (sum ns) (flat_map (fun j => epoch C (collapse (s_files (pass_st c fl k j)))) (seq 0 K))).
Proof.
  intros c C fl k fuel HD HL HP0 HF HU HE Hf.
  assert (HP : c_randomize c = true -> perm_ok (c_rng c)) by auto.
  intros ns K Hpos HK.
  pose proof (At_init c C fl k HP HF) as HAt.
  destruct (At_run c C HD fl k HL HP HF HE fuel ns _ [] Hf HU Hpos HAt)
    as [rs [s' [D' [H1 [H2 [H3 [_ H4]]]]]]].
  simpl in H3. rewrite H1. simpl fst.
  pose proof (passes_long c C fl k HP HE K) as HKl.
  pose proof (At_prefix c C fl k s' D' K H2 ltac:(lia)) as HD'.
  change (fun j => epoch C (collapse (s_files (pass_st c fl k j)))) with (pass c C fl k).
  rewrite <- H3, <- HD'. rewrite <- (firstn_all D') at 1. rewrite H3.
  apply received_calls.
  { pose proof (run_length c fuel (gets ns) (init c fl k)) as HRl. rewrite H1 in HRl.
    simpl in HRl. rewrite HRl. unfold gets. apply map_length. }
  intros j n Hj. destruct (H4 j n Hj) as [b [Hb1 Hb2]]. simpl in Hb2.
  assert (Hn : 0 < n) by (apply Hpos; eapply nth_error_In; eauto).
  pose proof (sum_firstn_nth ns j n Hj) as Hsum.
  split; [|eauto]. intro Hs. apply (f_equal (@List.length _)) in Hs.
  rewrite firstn_length, skipn_length in Hs. simpl in Hs. lia.
Qed.

Lemma loop_passes : forall c C fl k fuel,
  disk (c_loader c) C -> c_loop c = true -> perm_ok (c_rng c) ->
  no_faults C fl -> same_shapes C fl -> epoch C fl <> [] ->
  2 * List.length fl < fuel ->
  exists P : nat -> list string,
    (forall j, Permutation (P j) fl) /\
    forall ns K, (forall n, In n ns -> 0 < n) -> sum ns <= K ->
      received (fst (run c fuel (gets ns) (init c fl k))) =
      map slice_row
        (firstn (sum ns) (flat_map (fun j => epoch C (collapse (P j))) (seq 0 K))).
Proof.
  intros c C fl k fuel HD HL HP HF HU HE Hf.
  exists (fun j => s_files (pass_st c fl k j)). split.
  - intro j. apply pass_perm; auto.
  - apply loop_passes_at; auto.
Qed.

(** reset: no assumption on the contents at all. *)
Lemma get_next_frame : forall c fuel s, c_randomize c = false ->
  s_files (snd (get_next c fuel s)) = s_files s /\ s_key (snd (get_next c fuel s)) = s_key s.
Proof.
  intros c fuel; induction fuel as [|fuel IH]; intros s HR; simpl; auto.
  destruct (_ || _); simpl; auto.
  set (s1 := if List.length (s_files s) <=? s_index s then reset c s else s).
  assert (H1 : s_files s1 = s_files s /\ s_key s1 = s_key s).
  { unfold s1. destruct (_ <=? _); auto. unfold reset. rewrite HR. auto. }
  assert (H2 : match next_body c s1 with
               | inl s2 => s_files s2 = s_files s1 /\ s_key s2 = s_key s1
               | inr (_, s2) => s_files s2 = s_files s1 /\ s_key s2 = s_key s1 end).
  { unfold next_body. destruct (nth_error _ _); auto. destruct (opt_str_eqb _ _).
    - destruct (get_next_slice _ _ _ _); auto.
    - destruct (load_file _ _); auto. destruct (get_next_slice _ _ _ _); auto. }
  destruct (next_body c s1) as [s2|[r s2]]; simpl.
  - destruct (IH s2 HR). destruct H1, H2. split; congruence.
  - destruct H1, H2. split; congruence.
Qed.

Lemma collect_frame : forall c fuel n acc s, c_randomize c = false ->
  s_files (snd (collect c fuel n acc s)) = s_files s /\ s_key (snd (collect c fuel n acc s)) = s_key s.
Proof.
  intros c fuel n; induction n as [|n IH]; intros acc s HR; simpl; auto.
  pose proof (get_next_frame c fuel s HR) as H.
  destruct (get_next c fuel s) as [[x|e|] s1]; simpl in H.
  - destruct (IH (acc ++ [x]) s1 HR). destruct H. split; congruence.
  - destruct e; exact H.
  - exact H.
Qed.

Lemma op_frame : forall c fuel o s, c_randomize c = false ->
  s_files (snd (do_op c fuel o s)) = s_files s /\ s_key (snd (do_op c fuel o s)) = s_key s.
Proof.
  intros c fuel [n|] s HR; simpl.
  - pose proof (collect_frame c fuel n [] s HR) as H. unfold get_batch.
    destruct (collect c fuel n [] s) as [[l|e|] s1]; simpl in *; auto.
    destruct l as [|x l]; [destruct (c_loop c)|]; simpl; auto.
    + destruct (assemble true n []); simpl; unfold reset; rewrite HR; exact H.
    + destruct (assemble (c_loop c) n (x :: l)); simpl; exact H.
  - unfold reset. rewrite HR. auto.
Qed.

Lemma run_frame : forall c fuel ops s, c_randomize c = false ->
  s_files (snd (run c fuel ops s)) = s_files s /\ s_key (snd (run c fuel ops s)) = s_key s.
Proof.
  intros c fuel ops; induction ops as [|o ops IH]; intros s HR; simpl; auto.
  pose proof (op_frame c fuel o s HR) as H. destruct (do_op c fuel o s) as [r s1].
  destruct (IH s1 HR) as [H1 H2]. destruct (run c fuel ops s1). simpl in *.
  destruct H. split; congruence.
Qed.

Lemma reset_restarts : forall c fl k fuel ops1 ops2,
  c_randomize c = false ->
  fst (run c fuel ops2 (reset c (snd (run c fuel ops1 (init c fl k))))) =
  fst (run c fuel ops2 (init c fl k)).
Proof.
  intros c fl k fuel ops1 ops2 HR.
  destruct (run_frame c fuel ops1 (init c fl k) HR) as [H1 H2].
  replace (reset c (snd (run c fuel ops1 (init c fl k)))) with (init c fl k); auto.
  unfold reset. rewrite HR, H1, H2. unfold init. rewrite HR. reflexivity.
Qed.

Lemma unreadable_skipped : forall c C l1 bad l2 k fuel ops,
  disk (c_loader c) C -> c_randomize c = false -> C bad = Unreadable ->
  no_adjacent_equal (l1 ++ l2) -> l1 ++ l2 <> [] ->
  4 * List.length (l1 ++ bad :: l2) < fuel ->
  fst (run c fuel ops (init c (l1 ++ bad :: l2) k)) =
  fst (run c fuel ops (init c (l1 ++ l2) k)).
Proof.
  intros c C l1 bad l2 k fuel ops HD HR HB HA Hne Hf.
  apply (run_equiv c C HD); auto.
  - apply tail_events_unreadable; auto. intros; discriminate.
  - destruct l1; discriminate.
  - rewrite app_length in *. simpl in *. rewrite !app_length. lia.
Qed.

Lemma loop_live : forall c C fl k f0 ops fuel n,
  disk (c_loader c) C -> c_loop c = true ->
  (c_randomize c = true -> perm_ok (c_rng c)) ->
  no_faults C fl -> same_shapes C fl -> epoch C fl <> [] -> 0 < n ->
  2 * List.length fl < fuel ->
  exists b s', get_batch c fuel n (snd (run c f0 ops (init c fl k))) = (CReturn b, s').
Proof.
  intros c C fl k f0 ops fuel n HD HL HP HF HU HE Hn Hf.
  destruct (run_reach c C HD f0 ops (init c fl k) HP (init_inv c C fl k)) as [HI HPe].
  set (s := snd (run c f0 ops (init c fl k))) in *.
  assert (HPf : Permutation (s_files s) fl).
  { etransitivity; [exact HPe|apply init_perm; auto]. }
  clearbody s. clear HPe.
  assert (Hev : forall s, Permutation (s_files s) fl -> forall e, ~ In (Bad e) (pending C s)).
  { clear - HF. intros s HPf e Hin. unfold pending in Hin.
    assert (HE : forall p, In p fl -> ~ In (Bad e) (events C p)).
    { intros p Hp H. unfold events in H. destruct (C p) eqn:E; simpl in H; auto.
      - apply in_map_iff in H. destruct H as [x [Hx _]]; discriminate.
      - eapply HF; eauto. }
    assert (HT : forall l prev, (forall p, In p l -> In p fl) -> ~ In (Bad e) (tail_events C prev l)).
    { induction l as [|p l IH]; intros prev Hl H; simpl in H; auto.
      apply in_app_iff in H. destruct H as [H|H].
      - destruct (opt_str_eqb prev p); auto. eapply HE; [|exact H]. apply Hl; left; auto.
      - eapply IH; [|exact H]. intros; apply Hl; right; auto. }
    destruct (skipn (s_index s) (s_files s)) as [|p l] eqn:Es; auto.
    assert (Hi : forall q, In q (p :: l) -> In q fl).
    { intros q Hq. rewrite <- Es in Hq. eapply Permutation_in; [exact HPf|]. eapply in_skipn; eauto. }
    apply in_app_iff in Hin. destruct Hin as [Hin|Hin].
    - eapply HE; [apply Hi; left; auto|]. destruct (opt_str_eqb _ _); [eapply in_skipn; eauto|exact Hin].
    - eapply HT; [|exact Hin]. intros; apply Hi; right; auto. }
  assert (Hlen : forall s, Permutation (s_files s) fl -> List.length (s_files s) = List.length fl).
  { intros; apply Permutation_length; auto. }
  (* every [_get_next] succeeds *)
  assert (Hnext : forall s, Inv c C s -> Permutation (s_files s) fl ->
     exists x s', get_next c fuel s = (NItem x, s') /\ Inv c C s' /\ Permutation (s_files s') fl
       /\ In x (epoch C fl)).
  { clear s HI HPf. intros s HI HPf.
    pose proof (get_next_reach c C HD fuel s HP HI) as HR.
    assert (HX : exists x s', get_next c fuel s = (NItem x, s')).
    { destruct (pending C s) as [|[x|e] r] eqn:Ep.
      - destruct (get_next_wrap c C HD fuel s HL HI Ep) as [s1 [A1 [A2 [A3 A4]]]].
        + pose proof (reset_perm c s HP) as HRp. rewrite (Permutation_length HRp), (Hlen s HPf).
          destruct fl; [exfalso; apply HE; reflexivity|simpl; lia].
        + rewrite (Hlen s HPf). lia.
        + assert (HPr : Permutation (s_files (reset c s1)) fl).
          { etransitivity; [apply reset_perm; auto|]. rewrite A2; exact HPf. }
          destruct (get_next_pending c C HD (fuel - (List.length (s_files s) - s_index s)) (reset c s1))
            as [s2 [B1 [B2 [B3 B4]]]].
          * apply reset_inv.
          * rewrite pending_fresh by (apply reset_index || apply reset_cfile).
            rewrite tail_events_full.
            2: { intros p l e Hp. apply HF. eapply Permutation_in; eauto. }
            destruct (epoch C fl) as [|x l] eqn:EE; [congruence|].
            assert (Hx : In x (epoch C (collapse (s_files (reset c s1))))).
            { apply (proj1 (epoch_collapse_in C _ _)). apply (epoch_perm_in C fl); [symmetry; exact HPr|].
              rewrite EE; left; auto. }
            destruct (epoch C (collapse (s_files (reset c s1)))); [contradiction|discriminate].
          * rewrite (Hlen _ HPr), (Hlen _ HPf), reset_index. lia.
          * rewrite A4. destruct (pending C (reset c s1)) as [|[x|e] r'] eqn:Er.
            -- contradiction.
            -- exists x, s2. tauto.
            -- exfalso. apply (Hev _ HPr e). rewrite Er; left; auto.
      - destruct (get_next_pending c C HD fuel s HI) as [s2 [B1 [B2 [B3 B4]]]].
        + rewrite Ep; discriminate.
        + rewrite (Hlen s HPf). lia.
        + rewrite Ep in B4. exists x, s2. tauto.
      - exfalso. apply (Hev _ HPf e). rewrite Ep; left; auto. }
    destruct HX as [x [s' Hx]]. rewrite Hx in HR. destruct HR as [R1 [R2 [R3 _]]].
    exists x, s'. split; [exact Hx|]. split; [exact R1|]. split.
    - etransitivity; [exact R2|exact HPf].
    - eapply epoch_perm_in; [exact HPf|]. auto. }
  assert (Hcol : forall m acc s, Inv c C s -> Permutation (s_files s) fl ->
     exists l s', collect c fuel m acc s = (Collected (acc ++ l), s') /\ List.length l = m /\
        forall x, In x l -> In x (epoch C fl)).
  { clear s HI HPf. induction m as [|m IH]; intros acc s HI HPf.
    - exists [], s. rewrite app_nil_r. simpl. split; [auto|]. split; [auto|]. intros x [].
    - destruct (Hnext s HI HPf) as [x [s1 [A1 [A2 [A3 A4]]]]].
      destruct (IH (acc ++ [x]) s1 A2 A3) as [l [s2 [B1 [B2 B3]]]].
      exists (x :: l), s2. simpl. rewrite A1, B1. rewrite <- app_assoc.
      split; [reflexivity|]. split; [lia|]. intros y [<-|Hy]; auto. }
  destruct (Hcol n [] s HI HPf) as [l [s1 [A1 [A2 A3]]]]. simpl in A1.
  destruct HU as [F [I1 [I2 HS]]].
  destruct (assemble_ok F I1 I2 true n l) as [b [Hb1 Hb2]]; auto; try lia.
  { destruct l; simpl in *; [lia|discriminate]. }
  unfold get_batch. rewrite A1, HL, Hb1. destruct l as [|x l]; simpl in *; [lia|].
  eauto.
Qed.

Lemma loop_diverges : forall c C fl k f0 ops n,
  disk (c_loader c) C -> c_loop c = true ->
  (c_randomize c = true -> perm_ok (c_rng c)) ->
  fl <> [] -> no_faults C fl -> epoch C fl = [] -> 0 < n ->
  forall fuel,
    fst (get_batch c fuel n (snd (run c f0 ops (init c fl k)))) = COutOfFuel.
Proof.
  intros c C fl k f0 ops n HD HL HP Hne HF HE Hn fuel.
  destruct (run_reach c C HD f0 ops (init c fl k) HP (init_inv c C fl k)) as [HI HPe].
  set (s := snd (run c f0 ops (init c fl k))) in *.
  assert (HPf : Permutation (s_files s) fl).
  { etransitivity; [exact HPe|apply init_perm; auto]. }
  destruct (get_next_diverges c C HD fuel s) as [s' [H1 _]]; auto.
  - intro E. rewrite E in HPf. apply Permutation_nil in HPf. auto.
  - intros p Hp. assert (Hpf : In p fl) by (eapply Permutation_in; eauto).
    apply events_nil.
    + intros l e. apply HF; auto.
    + destruct (slices_of C p) as [|x l] eqn:E; auto.
      assert (In x (epoch C fl)).
      { apply in_flat_map. exists p. split; auto. rewrite E; left; auto. }
      rewrite HE in H. contradiction.
  - unfold get_batch. destruct n as [|n]; [lia|]. simpl. rewrite H1. reflexivity.
Qed.

Lemma duplicates_collapse : forall c C fl k fuel ops,
  disk (c_loader c) C -> c_randomize c = false -> fl <> [] ->
  4 * List.length fl < fuel ->
  fst (run c fuel ops (init c fl k)) = fst (run c fuel ops (init c (collapse fl) k)).
Proof.
  intros c C fl k fuel ops HD HR Hne Hf.
  assert (Hl : forall l, List.length (collapse l) <= List.length l).
  { clear. induction l as [|p l IH]; auto. destruct l as [|q l]; auto.
    rewrite collapse_cons2. destruct (String.eqb p q); simpl in *; lia. }
  apply (run_equiv c C HD); auto.
  - symmetry. apply tail_events_collapse.
  - intro E. apply collapse_nil in E. auto.
  - specialize (Hl fl). lia.
Qed.

Lemma every_entry_served_refuted : exists c C fl k ns fuel,
  disk (c_loader c) C /\ c_loop c = false /\ c_randomize c = false /\
  no_faults C fl /\ uniform C fl /\ List.length fl < fuel /\
  sum ns = List.length (epoch C fl) /\
  received (fst (run c fuel (gets ns) (init c fl k))) <> map slice_row (epoch C fl).
Proof.
  set (C := fun _ : string => Slices [mkSD (mkArr [1; 1; 2] [1%Q; 1%Q]) None None None (Some ["a"%string])]).
  exists (mkCfg (loader_of C) (mkRng (fun _ n => seq 0 n) (fun _ _ m => repeat 0 m)) false false),
    C, ["a"; "a"]%string, (Seed 0), [2], 5.
  split; [apply loader_of_disk|]. split; [reflexivity|]. split; [reflexivity|].
  split. { intros p l e _. discriminate. }
  split.
  { exists [1; 1; 2], [1; 1], [1; 1]. repeat split; auto; simpl in H;
    destruct H as [<-|[<-|[]]]; simpl; auto; try discriminate; eexists; reflexivity. }
  split; [simpl; lia|]. split; [reflexivity|]. discriminate.
Qed.

Lemma extraction_error_blocks : forall c C l1 p l2 l e k ns fuel,
  disk (c_loader c) C -> c_loop c = false -> c_randomize c = false ->
  C p = Faulty l e -> e <> StopIteration -> no_faults C l1 ->
  no_adjacent_equal (l1 ++ p :: l2) -> uniform C (l1 ++ p :: l2) ->
  List.length (l1 ++ p :: l2) < fuel -> (forall n, In n ns -> 0 < n) ->
  let good := epoch C l1 ++ l in
  forall j n, nth_error ns j = Some n ->
    let off := sum (firstn j ns) in
    let r := nth_error (fst (run c fuel (gets ns) (init c (l1 ++ p :: l2) k))) j in
    (off + n <= List.length good ->
       exists b, r = Some (ORes (CReturn b)) /\ batch_of n (firstn n (skipn off good)) b) /\
    (List.length good < off + n -> r = Some (ORes (CRaise e))).
Proof.
  intros c C l1 p l2 l e k ns fuel HD HL HR HC He HF HA HU Hf Hpos good j n Hj.
  assert (Hp : exists r, pending C (init c (l1 ++ p :: l2) k) = map Good good ++ Bad e :: r).
  { rewrite pending_fresh by apply init_fresh. rewrite init_files by auto.
    rewrite tail_events_distinct by (auto; intros; discriminate).
    rewrite flat_map_app. rewrite (events_no_faults C l1 HF). cbn [flat_map].
    unfold events at 1. rewrite HC. unfold good. rewrite map_app. exists (flat_map (events C) l2).
    rewrite <- !app_assoc. reflexivity. }
  destruct Hp as [r Hp].
  destruct (run_faulty c C HD fuel (l1 ++ p :: l2) ns (init c (l1 ++ p :: l2) k) good e r)
    as [rs [s' [H1 H2]]]; auto.
  - intros x Hx. unfold good in Hx. apply in_app_iff in Hx. unfold epoch. rewrite flat_map_app.
    apply in_app_iff. destruct Hx as [Hx|Hx]; [left; exact Hx|right].
    simpl. apply in_app_iff. left. unfold slices_of. rewrite HC. exact Hx.
  - apply init_inv.
  - rewrite init_files; auto.
  - rewrite H1. simpl. apply H2; auto.
Qed.
