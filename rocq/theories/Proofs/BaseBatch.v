(** Assembly of a batch from collected slices. *)
From Coq Require Import List Arith Lia String Bool QArith.
From Verif Require Import Prelude Model.Base Spec.BaseSpec.
Import ListNotations.
Local Open Scope nat_scope.

Lemma np_stack_ok : forall S (l : list arr),
  l <> [] -> (forall a, In a l -> shape a = S) ->
  np_stack l = Ok (mkArr (List.length l :: S) (flat_map data l)).
Proof.
  intros S l Hne Hs. unfold np_stack. destruct l as [|a l]; [congruence|].
  rewrite (Hs a) by (left; reflexivity).
  replace (forallb _ (a :: l)) with true; [reflexivity|].
  symmetry. apply forallb_forall. intros b Hb. rewrite (Hs b Hb).
  destruct (list_eq_dec Nat.eq_dec S S); congruence.
Qed.

Lemma flat_data_length : forall S (l : list arr),
  (forall a, In a l -> wf_arr a /\ shape a = S) ->
  List.length (flat_map data l) = List.length l * size S.
Proof.
  intros S l; induction l as [|a l IH]; intros H; simpl; auto.
  rewrite app_length, IH by (intros; apply H; right; auto).
  destruct (H a (or_introl eq_refl)) as [Hw Hs]. unfold wf_arr in Hw. rewrite Hw, Hs. reflexivity.
Qed.

Lemma firstn_skipn_flat : forall S (l : list arr) rest i x,
  (forall a, In a l -> wf_arr a /\ shape a = S) ->
  nth_error l i = Some x ->
  firstn (size S) (skipn (i * size S) (flat_map data l ++ rest)) = data x.
Proof.
  intros S l; induction l as [|a l IH]; intros rest [|i] x H Hn; simpl in *; try discriminate.
  - inversion Hn; subst a. destruct (H x (or_introl eq_refl)) as [Hw Hs].
    unfold wf_arr in Hw. rewrite Hs in Hw. rewrite <- Hw, <- app_assoc.
    rewrite firstn_app, Nat.sub_diag, firstn_O, firstn_all, app_nil_r. reflexivity.
  - destruct (H a (or_introl eq_refl)) as [Hw Hs]. unfold wf_arr in Hw.
    rewrite Hs in Hw. rewrite <- app_assoc. rewrite skipn_app.
    rewrite skipn_all2 by lia. simpl.
    replace (size S + i * size S - List.length (data a)) with (i * size S) by lia.
    apply IH; auto.
Qed.

Lemma firstn_repeat_ge : forall A (x : A) n m, n <= m -> firstn n (repeat x m) = repeat x n.
Proof.
  intros A x n; induction n; intros m H; simpl; auto.
  destruct m; [lia|]. simpl. f_equal. apply IHn; lia.
Qed.

Lemma skipn_repeat : forall A (x : A) n m, skipn n (repeat x m) = repeat x (m - n).
Proof.
  intros A x n; induction n; intros m; simpl; auto.
  - rewrite Nat.sub_0_r; auto.
  - destruct m; simpl; auto.
Qed.

Lemma row_stack : forall S (l : list arr) k rest i x,
  (forall a, In a l -> wf_arr a /\ shape a = S) ->
  nth_error l i = Some x ->
  row i (mkArr (k :: S) (flat_map data l ++ rest)) = x.
Proof.
  intros S l k rest i x H Hn. unfold row; simpl.
  rewrite (firstn_skipn_flat S l rest i x H Hn).
  destruct (H x (nth_error_In _ _ Hn)) as [_ Hs]. rewrite <- Hs. destruct x; reflexivity.
Qed.

Lemma row_pad : forall S (l : list arr) k p i,
  (forall a, In a l -> wf_arr a /\ shape a = S) ->
  List.length l <= i < List.length l + p ->
  row i (mkArr (k :: S) (flat_map data l ++ repeat 0%Q (p * size S))) = zeros S.
Proof.
  intros S l k p i H Hi. unfold row, zeros; simpl. f_equal.
  rewrite skipn_app, (flat_data_length S l H).
  rewrite skipn_all2 by (rewrite (flat_data_length S l H); nia). simpl.
  rewrite <- Nat.mul_sub_distr_r, skipn_repeat, <- Nat.mul_sub_distr_r.
  apply firstn_repeat_ge. nia.
Qed.

Lemma opt_all_some : forall A (l : list (option A)) r,
  opt_all l = Some r -> l = map Some r.
Proof.
  intros A l; induction l as [|[a|] l IH]; intros r H; simpl in *; try discriminate.
  - inversion H; reflexivity.
  - destruct (opt_all l) as [r'|]; inversion H; subst. simpl. f_equal; auto.
Qed.

Lemma opt_all_none : forall A (l : list (option A)),
  opt_all l = None <-> In None l.
Proof.
  intros A l; induction l as [|[a|] l IH]; simpl; split; intro H; auto; try discriminate.
  - contradiction.
  - right. apply IH. destruct (opt_all l); congruence.
  - destruct H as [H|H]; [discriminate|]. apply IH in H. rewrite H; reflexivity.
Qed.

(** Image stacking and padding for one of the two image fields. *)
Lemma images_ok : forall (f : SchedData -> option arr) I l n,
  l <> [] -> List.length l <= n ->
  (List.length l < n -> List.length I = 2 \/ exists x, In x l /\ f x = None) ->
  (forall x a, In x l -> f x = Some a -> wf_arr a /\ shape a = I) ->
  exists o, stack_images (map f l) = Ok o /\
  let fin := if List.length l <? n then pad_opt 3 (n - List.length l) o else Ok o in
  exists o', fin = Ok o' /\
    (o' = None <-> exists x, In x l /\ f x = None) /\
    (forall a, o' = Some a -> nrows a = n /\
      (forall i x, nth_error l i = Some x -> f x = Some (row i a)) /\
      (forall i, List.length l <= i < n -> row i a = zeros (tl (shape a)))).
Proof.
  intros f I l n Hne Hlen HI HF. unfold stack_images.
  destruct (opt_all (map f l)) as [r|] eqn:E.
  - apply opt_all_some in E.
    assert (Hr : forall a, In a r -> wf_arr a /\ shape a = I).
    { intros a Ha. assert (In (Some a) (map f l)) as H
        by (rewrite E; apply in_map; exact Ha).
      apply in_map_iff in H. destruct H as [x [Hx Hin]]. eapply HF; eauto. }
    assert (Hrl : List.length r = List.length l).
    { pose proof (f_equal (@List.length _) E) as H. rewrite !map_length in H. auto. }
    rewrite (np_stack_ok I r).
    2: { intro; subst r. destruct l; [congruence|discriminate]. }
    2: { intros a Ha; apply Hr; exact Ha. }
    eexists; split; [reflexivity|]. cbv zeta.
    assert (Hsome : forall i x, nth_error l i = Some x ->
              exists a, f x = Some a /\ nth_error r i = Some a).
    { intros i x Hx. assert (H : nth_error (map f l) i = Some (f x))
        by (apply map_nth_error; exact Hx).
      rewrite E in H. rewrite nth_error_map in H.
      destruct (nth_error r i) as [a|]; simpl in H; [|discriminate].
      exists a. split; congruence. }
    assert (Hnn : ~ exists x, In x l /\ f x = None).
    { intros [x [Hin Hx]]. apply In_nth_error in Hin. destruct Hin as [i Hi].
      destruct (Hsome i x Hi) as [a [Ha _]]. congruence. }
    destruct (List.length l <? n) eqn:El.
    + apply Nat.ltb_lt in El. destruct (HI El) as [HI2|HI2]; [|contradiction].
      unfold pad_opt, np_pad0; simpl. rewrite HI2; simpl.
      eexists; split; [reflexivity|]. split.
      { split; [discriminate|]. intro H; contradiction. }
      intros a Ha. inversion Ha; subst a; clear Ha. split.
      { unfold nrows; simpl. lia. }
      split.
      * intros i x Hx. destruct (Hsome i x Hx) as [a [Ha Hra]].
        rewrite (row_stack I r _ _ i a Hr Hra). exact Ha.
      * intros i Hi. rewrite (row_pad I r); auto. lia.
    + apply Nat.ltb_ge in El. eexists; split; [reflexivity|]. split.
      { split; [discriminate|]. intro H; contradiction. }
      intros a Ha. inversion Ha; subst a; clear Ha. split.
      { unfold nrows; simpl. lia. }
      split.
      * intros i x Hx. destruct (Hsome i x Hx) as [a [Ha Hra]].
        rewrite <- (app_nil_r (flat_map data r)).
        rewrite (row_stack I r _ _ i a Hr Hra). exact Ha.
      * intros i Hi. lia.
  - apply opt_all_none in E. apply in_map_iff in E.
    eexists; split; [reflexivity|]. cbv zeta. exists None. split.
    { destruct (List.length l <? n); reflexivity. }
    split.
    { split; auto. intros _. destruct E as [x [Hx Hin]]. eauto. }
    intros; discriminate.
Qed.

Lemma files_ok : forall F I1 I2 l n,
  l <> [] -> List.length l <= n ->
  (forall x, In x l -> stackable F I1 I2 x) ->
  exists fs, batch_files n l = Ok (Some fs) /\ List.length fs = n /\
    (forall i x, nth_error l i = Some x ->
       exists f, sd_files x = Some [f] /\ nth_error fs i = Some f) /\
    (forall i, List.length l <= i < n -> nth_error fs i = Some EmptyString).
Proof.
  intros F I1 I2 l n Hne Hlen HS. unfold batch_files.
  assert (He : existsb (fun d => is_some (sd_files d)) l = true).
  { destruct l as [|x l]; [congruence|]. simpl.
    destruct (stk_file _ _ _ _ (HS x (or_introl eq_refl))) as [f Hf].
    rewrite Hf. reflexivity. }
  rewrite He.
  replace (forallb _ l) with true.
  2: { symmetry. apply forallb_forall. intros x Hx.
       destruct (stk_file _ _ _ _ (HS x Hx)) as [f Hf]. rewrite Hf. reflexivity. }
  eexists; split; [reflexivity|]. split.
  { rewrite app_length, map_length, repeat_length. lia. }
  split.
  - intros i x Hx. destruct (stk_file _ _ _ _ (HS x (nth_error_In _ _ Hx))) as [f Hf].
    exists f. split; auto.
    rewrite nth_error_app1.
    2: { rewrite map_length. apply nth_error_Some; congruence. }
    erewrite map_nth_error by exact Hx. rewrite Hf. reflexivity.
  - intros i Hi. rewrite nth_error_app2 by (rewrite map_length; lia).
    rewrite map_length. apply nth_error_repeat. lia.
Qed.

Lemma mask_ok : forall loop m n,
  m <= n -> (loop = true -> m = n) ->
  let mask := if (m <? n) && negb loop
              then repeat true m ++ repeat false (n - m)
              else repeat true n in
  List.length mask = n /\
  forall i, i < n -> (nth_error mask i = Some true <-> i < m).
Proof.
  intros loop m n Hle Hloop mask. unfold mask; clear mask.
  destruct (m <? n) eqn:E.
  - apply Nat.ltb_lt in E. destruct loop; [specialize (Hloop eq_refl); lia|]. simpl.
    split.
    { rewrite app_length, !repeat_length. lia. }
    intros i Hi. destruct (Nat.lt_ge_cases i m) as [H|H].
    + rewrite nth_error_app1 by (rewrite repeat_length; lia).
      rewrite nth_error_repeat by lia. tauto.
    + rewrite nth_error_app2 by (rewrite repeat_length; lia).
      rewrite repeat_length, nth_error_repeat by lia.
      split; [discriminate|lia].
  - apply Nat.ltb_ge in E. simpl. split; [apply repeat_length|].
    intros i Hi. rewrite nth_error_repeat by lia. split; [lia|reflexivity].
Qed.

Definition paddable (F I1 I2 : list nat) (l : list SchedData) : Prop :=
  List.length F = 3 /\
  (List.length I1 = 2 \/ exists x, In x l /\ sd_im1 x = None) /\
  (List.length I2 = 2 \/ exists x, In x l /\ sd_im2 x = None).

Lemma assemble_ok : forall F I1 I2 loop n l,
  (List.length l < n -> paddable F I1 I2 l) ->
  l <> [] -> List.length l <= n -> (loop = true -> List.length l = n) ->
  (forall x, In x l -> stackable F I1 I2 x) ->
  exists b, assemble loop n l = Ok b /\ batch_of n l b.
Proof.
  intros F I1 I2 loop n l HPad Hne Hlen Hloop HS.
  assert (HF : List.length l < n -> List.length F = 3) by (intro Hx; apply HPad; exact Hx).
  assert (HI1 : List.length l < n -> List.length I1 = 2 \/ exists x, In x l /\ sd_im1 x = None)
    by (intro Hx; apply HPad; exact Hx).
  assert (HI2 : List.length l < n -> List.length I2 = 2 \/ exists x, In x l /\ sd_im2 x = None)
    by (intro Hx; apply HPad; exact Hx).
  destruct (images_ok sd_im1 I1 l n Hne Hlen HI1) as [o1 [E1 [o1' [F1 [N1 S1]]]]].
  { intros x a Hx Ha. eapply stk_im1; eauto. }
  destruct (images_ok sd_im2 I2 l n Hne Hlen HI2) as [o2 [E2 [o2' [F2 [N2 S2]]]]].
  { intros x a Hx Ha. eapply stk_im2; eauto. }
  destruct (files_ok F I1 I2 l n Hne Hlen HS) as [fs [Ef [Lf [Sf Pf]]]].
  assert (HFl : forall a, In a (map sd_flow l) -> wf_arr a /\ shape a = F).
  { intros a Ha. apply in_map_iff in Ha. destruct Ha as [x [Hx Hin]]. subst a.
    eapply stk_flow; eauto. }
  pose proof (mask_ok loop (List.length l) n Hlen Hloop) as [Lm Sm].
  unfold assemble. rewrite E1, E2. simpl.
  rewrite (np_stack_ok F (map sd_flow l)).
  2: { destruct l; simpl; congruence. }
  2: { intros a Ha. apply HFl; exact Ha. }
  simpl. rewrite Ef. simpl. rewrite map_length.
  destruct (List.length l <? n) eqn:El.
  - pose proof El as El'. apply Nat.ltb_lt in El.
    unfold np_pad0. simpl. rewrite (HF El). simpl.
    rewrite F1; simpl. rewrite F2; simpl.
    eexists; split; [reflexivity|].
    constructor; simpl; auto.
    + unfold nrows; simpl; lia.
    + eexists; split; [reflexivity|]. split; [exact Lm|exact Sm].
    + intros i x Hx. apply (row_stack F (map sd_flow l)); auto.
      apply map_nth_error; exact Hx.
    + intros i Hi. rewrite (row_pad F (map sd_flow l)); auto. rewrite map_length; lia.
    + exists fs; auto.
  - pose proof El as El'. apply Nat.ltb_ge in El.
    inversion F1; inversion F2; subst o1' o2'.
    eexists; split; [reflexivity|].
    constructor; simpl; auto.
    + unfold nrows; simpl; lia.
    + eexists; split; [reflexivity|]. split; [exact Lm|exact Sm].
    + intros i x Hx. rewrite <- (app_nil_r (flat_map data (map sd_flow l))).
      apply (row_stack F (map sd_flow l)); auto.
      apply map_nth_error; exact Hx.
    + intros; lia.
    + exists fs; auto.
Qed.

(** A batch that would need padding but cannot be padded. *)
Lemma images_err : forall (f : SchedData -> option arr) I l n,
  l <> [] -> List.length I <> 2 ->
  (forall x, In x l -> f x <> None) ->
  (forall x a, In x l -> f x = Some a -> wf_arr a /\ shape a = I) ->
  exists o, stack_images (map f l) = Ok o /\ pad_opt 3 (n - List.length l) o = Err ValueError.
Proof.
  intros f I l n Hne HI HN HF. unfold stack_images.
  destruct (opt_all (map f l)) as [r|] eqn:E.
  - apply opt_all_some in E.
    assert (Hr : forall a, In a r -> wf_arr a /\ shape a = I).
    { intros a Ha. assert (In (Some a) (map f l)) as H
        by (rewrite E; apply in_map; exact Ha).
      apply in_map_iff in H. destruct H as [x [Hx Hin]]. eapply HF; eauto. }
    rewrite (np_stack_ok I r).
    2: { intro; subst r. destruct l; [congruence|discriminate]. }
    2: { intros a Ha; apply Hr; exact Ha. }
    eexists; split; [reflexivity|]. unfold pad_opt, np_pad0; cbn [shape List.length].
    destruct (Nat.eqb (S (List.length I)) 3) eqn:E3; [|reflexivity].
    apply Nat.eqb_eq in E3. lia.
  - exfalso. apply opt_all_none in E. apply in_map_iff in E.
    destruct E as [x [Hx Hin]]. eapply HN; eauto.
Qed.

Lemma stack_images_ok : forall (f : SchedData -> option arr) I l,
  l <> [] -> (forall x a, In x l -> f x = Some a -> wf_arr a /\ shape a = I) ->
  exists o, stack_images (map f l) = Ok o /\
    forall p, pad_opt 3 p o = Err ValueError \/ exists o', pad_opt 3 p o = Ok o'.
Proof.
  intros f I l Hne HF.
  destruct (images_ok f I l (List.length l) Hne (le_n _)) as [o [Ho _]]; auto.
  { intro; lia. }
  exists o. split; auto. intro p. unfold pad_opt. destruct o as [a|]; eauto.
  unfold np_pad0. destruct (_ =? _); simpl; eauto. destruct (shape a); simpl; eauto.
Qed.

Lemma assemble_err : forall F I1 I2 loop n l,
  l <> [] -> List.length l < n ->
  (forall x, In x l -> stackable F I1 I2 x) ->
  (List.length F <> 3 \/
   (List.length I1 <> 2 /\ forall x, In x l -> sd_im1 x <> None) \/
   (List.length I2 <> 2 /\ forall x, In x l -> sd_im2 x <> None)) ->
  assemble loop n l = Err ValueError.
Proof.
  intros F I1 I2 loop n l Hne Hlt HS HB.
  assert (G1 : forall x a, In x l -> sd_im1 x = Some a -> wf_arr a /\ shape a = I1)
    by (intros x a Hx Ha; eapply stk_im1; eauto).
  assert (G2 : forall x a, In x l -> sd_im2 x = Some a -> wf_arr a /\ shape a = I2)
    by (intros x a Hx Ha; eapply stk_im2; eauto).
  destruct (files_ok F I1 I2 l n Hne ltac:(lia) HS) as [fs [Ef _]].
  assert (HFl : forall a, In a (map sd_flow l) -> wf_arr a /\ shape a = F).
  { intros a Ha. apply in_map_iff in Ha. destruct Ha as [x [Hx Hin]]. subst a.
    eapply stk_flow; eauto. }
  destruct (stack_images_ok sd_im1 I1 l Hne G1) as [o1 [E1 P1]].
  destruct (stack_images_ok sd_im2 I2 l Hne G2) as [o2 [E2 P2]].
  unfold assemble. rewrite E1, E2. simpl.
  rewrite (np_stack_ok F (map sd_flow l)).
  2: { destruct l; simpl; congruence. }
  2: { intros a Ha. apply HFl; exact Ha. }
  simpl. rewrite Ef. simpl. rewrite (proj2 (Nat.ltb_lt _ _) Hlt).
  unfold np_pad0 at 1. cbn [shape List.length].
  destruct (Nat.eqb (S (List.length F)) 4) eqn:EF; [|reflexivity].
  apply Nat.eqb_eq in EF. simpl.
  specialize (P1 (n - List.length l)). specialize (P2 (n - List.length l)).
  destruct HB as [HB|[[HB HN]|[HB HN]]]; [lia| |].
  - destruct (images_err sd_im1 I1 l n Hne HB HN G1) as [o [A1 A2]].
    rewrite E1 in A1. inversion A1; subst o. rewrite A2. reflexivity.
  - destruct (images_err sd_im2 I2 l n Hne HB HN G2) as [o [A1 A2]].
    rewrite E2 in A1. inversion A1; subst o. rewrite A2.
    destruct P1 as [P1|[o' P1]]; rewrite P1; reflexivity.
Qed.

Lemma none_dec : forall (f : SchedData -> option arr) l,
  (exists x, In x l /\ f x = None) \/ (forall x, In x l -> f x <> None).
Proof.
  intros f l; induction l as [|y l IH]; [right; intros x []|].
  destruct (f y) as [a|] eqn:E.
  - destruct IH as [[x [Hx Hn]]|IH]; [left; exists x; split; [right|]; auto|].
    right. intros x [<-|Hx]; [congruence|auto].
  - left. exists y. split; [left|]; auto.
Qed.

(** Whatever the number of axes: a batch that is returned is well formed. *)
Lemma assemble_returned : forall F I1 I2 loop n l b,
  l <> [] -> List.length l <= n -> (loop = true -> List.length l = n) ->
  (forall x, In x l -> stackable F I1 I2 x) ->
  assemble loop n l = Ok b -> batch_of n l b.
Proof.
  intros F I1 I2 loop n l b Hne Hle Hloop HS Hb.
  assert (HP : List.length l < n -> paddable F I1 I2 l).
  { intro Hlt. unfold paddable.
    destruct (Nat.eq_dec (List.length F) 3) as [e|e].
    2: { rewrite (assemble_err F I1 I2 loop n l) in Hb; auto. discriminate. }
    split; [exact e|]. split.
    - destruct (Nat.eq_dec (List.length I1) 2) as [e1|e1]; [left; auto|].
      destruct (none_dec sd_im1 l) as [N|N]; [right; auto|].
      rewrite (assemble_err F I1 I2 loop n l) in Hb; auto. discriminate.
    - destruct (Nat.eq_dec (List.length I2) 2) as [e1|e1]; [left; auto|].
      destruct (none_dec sd_im2 l) as [N|N]; [right; auto|].
      rewrite (assemble_err F I1 I2 loop n l) in Hb; auto. discriminate. }
  destruct (assemble_ok F I1 I2 loop n l) as [b' [Hb1 Hb2]]; auto.
  rewrite Hb in Hb1. inversion Hb1; subst. exact Hb2.
Qed.

(** Valid rows of a batch are the slices it was made of. *)
Lemma filter_lt_seq : forall f k n,
  k <= n -> (forall i, i < n -> (f i = true <-> i < k)) ->
  filter f (seq 0 n) = seq 0 k.
Proof.
  intros f k n Hk Hf. replace n with (k + (n - k)) by lia.
  rewrite seq_app, filter_app. simpl.
  assert (H0 : filter f (seq 0 k) = seq 0 k).
  { assert (G : forall i, In i (seq 0 k) -> f i = true).
    { intros i Hi. apply in_seq in Hi. apply Hf; lia. }
    clear Hf. induction (seq 0 k) as [|a l IH]; simpl; auto.
    rewrite (G a) by (left; auto). f_equal. apply IH. intros; apply G; right; auto. }
  rewrite H0.
  assert (H : filter f (seq k (n - k)) = []).
  { assert (G : forall i, In i (seq k (n - k)) -> f i = false).
    { intros i Hi. apply in_seq in Hi. destruct (f i) eqn:E; auto.
      apply Hf in E; lia. }
    clear Hf. induction (seq k (n - k)) as [|a l IH]; simpl; auto.
    rewrite (G a) by (left; auto). apply IH. intros; apply G; right; auto. }
  rewrite H, app_nil_r. reflexivity.
Qed.

Lemma valid_rows_batch : forall n l b,
  batch_of n l b -> valid_rows (CReturn b) = map slice_row l.
Proof.
  intros n l b H. destruct H as [Hle Hr [m [Hm [Lm Sm]]] Hf _ [fs [Efs [Lf [Sf _]]]] _ _ _ _].
  unfold valid_rows. rewrite Hm, Efs, Hr.
  rewrite (filter_lt_seq _ (List.length l) n Hle).
  2: { intros i Hi. rewrite <- (Sm i Hi).
       destruct (nth_error m i) as [v|] eqn:E.
       - rewrite (nth_error_nth m i false E). split; congruence.
       - apply nth_error_None in E; lia. }
  assert (G : forall i x, nth_error l i = Some x ->
     (row i (sd_flow b), nth i fs EmptyString) = slice_row x).
  { intros i x Hx. destruct (Sf i x Hx) as [f [E1 E2]].
    unfold slice_row. rewrite E1, (Hf i x Hx), (nth_error_nth _ _ _ E2). reflexivity. }
  clear - G.
  assert (K : forall l k, (forall i x, nth_error l i = Some x ->
     (row (k + i) (sd_flow b), nth (k + i) fs EmptyString) = slice_row x) ->
     map (fun i => (row i (sd_flow b), nth i fs EmptyString)) (seq k (List.length l))
     = map slice_row l).
  { clear l G. intros l; induction l as [|x l IH]; intros k G; simpl; auto. f_equal.
    - rewrite <- (G 0 x eq_refl). rewrite Nat.add_0_r. reflexivity.
    - apply IH. intros i y Hy. rewrite <- (G (S i) y Hy).
      replace (k + S i) with (S k + i) by lia. reflexivity. }
  apply (K l 0). exact G.
Qed.
