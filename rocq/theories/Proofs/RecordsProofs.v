(** Proofs about the conversion of record files. *)
From Coq Require Import List Arith ZArith String Bool Ascii Lia.
From Verif Require Import Prelude Model.Base Model.Files Model.Scripts Model.Records
  Spec.ScriptsSpec Spec.RecordsSpec Proofs.FilesProofs Proofs.ScriptsText.
Import ListNotations.
Local Open Scope string_scope.
Local Open Scope nat_scope.

Lemma frombuffer_spec : forall n b, List.length b = 4 * n -> frombuffer b = Some (map (float_at b) (seq 0 n)).
Proof.
  induction n as [|n IH]; intros b L.
  - destruct b; [reflexivity|discriminate].
  - destruct b as [|b0 [|b1 [|b2 [|b3 b]]]]; cbn [List.length] in L; try lia.
    cbn [frombuffer]. rewrite (IH b) by lia. cbn [option_map seq map].
    assert (E : map (float_at b) (seq 0 n) = map (float_at (b0 :: b1 :: b2 :: b3 :: b)) (seq 1 n)).
    { rewrite <- seq_shift, map_map. apply map_ext. intros k. unfold float_at.
      replace (4 * S k) with (S (S (S (S (4 * k))))) by lia. reflexivity. }
    rewrite E. reflexivity.
Qed.

Lemma frombuffer_length : forall b t, frombuffer b = Some t -> List.length b = 4 * List.length t.
Proof.
  intros b. remember (List.length b) as m eqn:E. revert b E.
  induction m as [m IH] using lt_wf_ind. intros b E t H.
  destruct b as [|b0 [|b1 [|b2 [|b3 b]]]]; try discriminate.
  - injection H as <-. cbn in *. lia.
  - cbn [frombuffer] in H. destruct (frombuffer b) as [t'|] eqn:F; [|discriminate].
    injection H as <-. cbn [List.length] in E |- *.
    specialize (IH (List.length b) ltac:(lia) b eq_refl t' F). lia.
Qed.

Lemma every_other_spec : forall {A} (f : nat -> A) c n a,
  every_other c (map f (seq a n)) = map (fun k => f (a + 2 * k + if c then 1 else 0)) (seq 0 (n / 2)).
Proof.
  intros A f c n. induction n as [n IH] using lt_wf_ind. intros a.
  destruct n as [|[|n]]; [reflexivity|reflexivity|].
  cbn [seq map every_other]. rewrite (IH n ltac:(lia)).
  replace (S (S n) / 2) with (S (n / 2)).
  2: { replace (S (S n)) with (n + 1 * 2) by lia. rewrite Nat.div_add by lia. lia. }
  cbn [seq map]. f_equal.
  - destruct c; f_equal; lia.
  - rewrite <- seq_shift, map_map. apply map_ext. intros k. f_equal. lia.
Qed.

Lemma decode_holds : forall n r s, 0 < n -> decode n r = Some s <-> holds n r s.
Proof.
  intros n r s P. split.
  - destruct r as [|t v]; [discriminate|]. cbn [decode].
    destruct t as [|t0 t]; [discriminate|]. destruct v as [|v0 v]; [discriminate|].
    remember (t0 :: t) as T eqn:ET. remember (v0 :: v) as V eqn:EV.
    destruct (frombuffer T) as [ft|] eqn:FT; [|discriminate].
    destruct (Nat.eqb_spec (List.length ft) n) as [LT|]; [|discriminate].
    destruct (frombuffer V) as [fv|] eqn:FV; [|discriminate].
    destruct (Nat.eqb_spec (List.length fv) n) as [LV|]; [|discriminate].
    intros H; injection H as <-. exists T, V.
    pose proof (frombuffer_length _ _ FT) as L1. pose proof (frombuffer_length _ _ FV) as L2.
    rewrite LT in L1. rewrite LV in L2. rewrite (frombuffer_spec n _ L1) in FT. rewrite (frombuffer_spec n _ L2) in FV.
    injection FT as <-. injection FV as <-.
    repeat (split; [first [reflexivity|assumption]|]). cbn [s_v s_i0 s_i1].
    rewrite !every_other_spec. split; apply map_ext; intros k; f_equal; lia.
  - intros (T & V & -> & L1 & L2 & E0 & E1 & E2). cbn [decode].
    destruct T as [|t0 t]; [cbn in L1; lia|]. destruct V as [|v0 v]; [cbn in L2; lia|].
    remember (t0 :: t) as T eqn:ET. remember (v0 :: v) as V eqn:EV.
    rewrite (frombuffer_spec n _ L1), (frombuffer_spec n _ L2), !map_length, !seq_length, Nat.eqb_refl, !every_other_spec.
    destruct s as [a b c]. cbn [s_v s_i0 s_i1] in *. subst a b c. f_equal. f_equal; apply map_ext; intros k; f_equal; lia.
Qed.

Lemma zeros_val : forall k s, digits_val 0 (zeros_ k ++ s) = digits_val 0 s.
Proof. induction k as [|k IH]; intros s; [reflexivity|]. cbn [zeros_ append]. rewrite <- (IH s). reflexivity. Qed.

Lemma append_len : forall s t, String.length (s ++ t) = String.length s + String.length t.
Proof. induction s as [|a s IH]; intros t; [reflexivity|]. cbn [append String.length]. now rewrite IH. Qed.

Lemma append_inj_r : forall e s t, s ++ e = t ++ e -> s = t.
Proof.
  intros e s; induction s as [|a s IH]; intros [|b t] H; [reflexivity| | |].
  - apply (f_equal String.length) in H. rewrite !append_len in H. cbn [String.length] in H. lia.
  - apply (f_equal String.length) in H. rewrite !append_len in H. cbn [String.length] in H. lia.
  - cbn [append] in H. injection H as -> H. f_equal. now apply IH.
Qed.

Lemma append_assoc_ : forall a b c, (a ++ b) ++ c = a ++ (b ++ c).
Proof. induction a as [|x a IH]; intros b c; [reflexivity|]. cbn [append]. now rewrite IH. Qed.

Lemma sample_file_inj : forall i j, sample_file i = sample_file j -> i = j.
Proof.
  intros i j H. unfold sample_file in H. cbn [append] in H. injection H as H.
  rewrite <- !append_assoc_ in H. apply append_inj_r in H.
  apply (f_equal (digits_val 0)) in H. rewrite !zeros_val, !str_of_nat_val in H. congruence.
Qed.

Lemma contains_occurs : forall m s, contains m s = true <-> occurs m s.
Proof.
  intros m s. unfold contains. split.
  - destruct (before_first m s) as [x|] eqn:B; [|discriminate]. intros _. revert x B.
    induction s as [|a s IH]; intros x; rewrite before_first_eq.
    + destruct (prefix m "") eqn:P; [|discriminate]. intros _. apply prefix_occurs in P as [b P]. exists "", b. exact P.
    + destruct (prefix m (String a s)) eqn:P.
      * intros _. apply prefix_occurs in P as [b P]. exists "", b. exact P.
      * destruct (before_first m s) as [y|]; [|discriminate]. intros _.
        destruct (IH y eq_refl) as (u & v & ->). exists (String a u), v. reflexivity.
  - intros (u & v & ->). induction u as [|a u IH].
    + cbn [append]. rewrite before_first_eq, prefix_self. reflexivity.
    + cbn [append]. rewrite before_first_eq. destruct (prefix m (String a (u ++ m ++ v))); [reflexivity|].
      destruct (before_first m (u ++ m ++ v)); [reflexivity|discriminate].
Qed.

Lemma contains_not : forall m s, contains m s = false <-> ~ occurs m s.
Proof.
  intros m s. rewrite <- contains_occurs. destruct (contains m s); split; intros H; try discriminate; try congruence.
Qed.

Lemma subdir_belongs : forall name d, subdir name = Some d <-> belongs name d.
Proof.
  intros name d. unfold subdir, belongs.
  destruct (contains "RAFT256" name) eqn:E1; [apply contains_occurs in E1|apply contains_not in E1]; cbn [negb].
  2: { split; [discriminate|]. intros (H & _). contradiction. }
  destruct (contains "Training" name) eqn:E2; [apply contains_occurs in E2|apply contains_not in E2].
  - split.
    + intros H; injection H as <-. split; [assumption|]. left. now split.
    + intros (_ & [(_ & ->)|[(N & _)|(N & _)]]); [reflexivity|contradiction|contradiction].
  - destruct (contains "Validation" name) eqn:E3; [apply contains_occurs in E3|apply contains_not in E3].
    + split.
      * intros H; injection H as <-. split; [assumption|]. right; left. now repeat split.
      * intros (_ & [(N & _)|[(_ & _ & ->)|(_ & N & _)]]); [contradiction|reflexivity|contradiction].
    + split.
      * intros H; injection H as <-. split; [assumption|]. right; right. now repeat split.
      * intros (_ & [(N & _)|[(_ & N & _)|(_ & _ & ->)]]); [contradiction|contradiction|reflexivity].
Qed.

Fixpoint numbered {A} (c : nat) (ss : list A) : list (string * A) :=
  match ss with [] => [] | s :: ss => (sample_file c, s) :: numbered (S c) ss end.

Lemma process_samples : forall n rs c, 0 < n -> exists ss, samples n rs ss /\ process n c rs = numbered c ss.
Proof.
  intros n rs; induction rs as [|r rs IH]; intros c P.
  - exists []. split; [constructor|reflexivity].
  - cbn [process]. destruct (decode n r) as [s|] eqn:D.
    + destruct (IH (S c) P) as (ss & S1 & E). exists (s :: ss). split; [|cbn [numbered]; now rewrite E].
      constructor; [|exact S1]. apply decode_holds; assumption.
    + destruct (IH c P) as (ss & S1 & E). exists ss. split; [|exact E]. constructor; [|exact S1].
      intros s H. apply decode_holds in H; [congruence|assumption].
Qed.

Lemma holds_unique : forall n r s s', 0 < n -> holds n r s -> holds n r s' -> s = s'.
Proof. intros n r s s' P H H'. apply decode_holds in H; [|assumption]. apply decode_holds in H'; [|assumption]. congruence. Qed.

Lemma samples_unique : forall n rs ss, 0 < n -> samples n rs ss -> forall ss', samples n rs ss' -> ss = ss'.
Proof.
  intros n rs ss P H; induction H as [|r s rs ss H1 H2 IH|r rs ss H1 H2 IH]; intros ss' H'; inversion H'; subst.
  - reflexivity.
  - f_equal; [eapply holds_unique; eauto|auto].
  - exfalso. eapply H3; eauto.
  - exfalso. eapply H1; eauto.
  - auto.
Qed.

Lemma process_numbered : forall n rs c ss, 0 < n -> samples n rs ss -> process n c rs = numbered c ss.
Proof.
  intros n rs c ss P H. destruct (process_samples n rs c P) as (ss' & H' & E).
  rewrite (samples_unique n rs ss P H ss' H'). exact E.
Qed.

Lemma numbered_in : forall {A} (ss : list A) c w s, In (w, s) (numbered c ss) <-> exists i, w = sample_file (c + i) /\ nth_error ss i = Some s.
Proof.
  intros A ss; induction ss as [|x ss IH]; intros c w s; cbn [numbered In].
  - split; [intros []|]. intros ([|i] & _ & H); discriminate.
  - rewrite IH. split.
    + intros [E|(i & -> & H)].
      * injection E as <- <-. exists 0. rewrite Nat.add_0_r. split; reflexivity.
      * exists (S i). split; [f_equal; lia|exact H].
    + intros ([|i] & -> & H).
      * left. injection H as ->. rewrite Nat.add_0_r. reflexivity.
      * right. exists i. split; [f_equal; lia|exact H].
Qed.

Lemma numbered_names : forall {A} (ss : list A) c w, In w (map fst (numbered c ss)) <-> exists i, w = sample_file (c + i) /\ i < List.length ss.
Proof.
  intros A ss c w. rewrite in_map_iff. split.
  - intros ((w' & s) & E & H). cbn in E. subst w'. apply numbered_in in H as (i & -> & H). exists i. split; [reflexivity|].
    apply nth_error_Some. congruence.
  - intros (i & -> & L). apply nth_error_Some in L. destruct (nth_error ss i) as [s|] eqn:E; [|congruence].
    exists (sample_file (c + i), s). split; [reflexivity|]. apply numbered_in. now exists i.
Qed.

Lemma numbered_nodup : forall {A} (ss : list A) c, NoDup (map fst (numbered c ss)).
Proof.
  intros A ss; induction ss as [|x ss IH]; intros c; cbn [numbered map fst]; constructor; [|apply IH].
  intros H. apply numbered_names in H as (i & E & _). apply sample_file_inj in E. lia.
Qed.

Lemma found_in : forall {K} (ws : list (K * sample)) k s, NoDup (map fst ws) -> found ws k s <-> In (k, s) ws.
Proof.
  intros K ws k s D. split.
  - intros (b & a & -> & _). apply in_or_app. right. left. reflexivity.
  - intros H. apply in_split in H as (b & a & ->). exists b, a. split; [reflexivity|].
    rewrite map_app in D. cbn [map fst] in D. apply NoDup_remove_2 in D. intros N. apply D. apply in_or_app. now right.
Qed.

Lemma found_app : forall {K} (ws ws' : list (K * sample)) k s,
  found (ws ++ ws')%list k s <-> found ws' k s \/ (~ In k (map fst ws') /\ found ws k s).
Proof.
  intros K ws ws' k s. split.
  - intros (b & a & E & N). revert ws E. induction b as [|x b IH]; intros ws E.
    + destruct ws as [|y ws].
      * left. exists [], a. split; [exact E|exact N].
      * injection E as -> E. subst a. rewrite map_app, in_app_iff in N. right. split; [tauto|].
        exists [], ws. split; [reflexivity|tauto].
    + destruct ws as [|y ws].
      * left. exists (x :: b), a. split; [exact E|exact N].
      * injection E as -> E. destruct (IH ws E) as [H|(H & b' & a' & -> & N')]; [left; exact H|].
        right. split; [exact H|]. exists (x :: b'), a'. split; [reflexivity|exact N'].
  - intros [(b & a & -> & N)|(H & b & a & -> & N)].
    + exists (ws ++ b)%list, a. split; [now rewrite <- app_assoc|exact N].
    + exists b, (a ++ ws')%list. split; [now rewrite <- app_assoc|]. rewrite map_app, in_app_iff. tauto.
Qed.

Definition file_writes (n : nat) (t : string * list tfrecord) : list ((string * string) * sample) :=
  match subdir (fst t) with
  | None => []
  | Some d => map (fun w => ((d, fst w), snd w)) (process n 0 (snd t))
  end.

Lemma file_writes_in : forall n name rs ss d w s, 0 < n -> samples n rs ss ->
  In ((d, w), s) (file_writes n (name, rs)) <-> belongs name d /\ exists i, w = sample_file i /\ nth_error ss i = Some s.
Proof.
  intros n name rs ss d w s P S1. unfold file_writes. cbn [fst snd]. rewrite <- subdir_belongs.
  destruct (subdir name) as [d'|]; [|split; [intros []|intros (H & _); discriminate]].
  rewrite (process_numbered n rs 0 ss P S1), in_map_iff. split.
  - intros ((w' & s') & E & H). cbn in E. injection E as -> -> ->. split; [reflexivity|].
    apply numbered_in in H as (i & -> & H). now exists i.
  - intros (E & i & -> & H). injection E as ->. exists (sample_file i, s). split; [reflexivity|].
    apply numbered_in. now exists i.
Qed.

Lemma file_writes_names : forall n name rs ss d i, 0 < n -> samples n rs ss ->
  In (d, sample_file i) (map fst (file_writes n (name, rs))) <-> belongs name d /\ i < List.length ss.
Proof.
  intros n name rs ss d i P S1. rewrite in_map_iff. split.
  - intros ((k & s) & E & H). cbn in E. subst k. apply (file_writes_in n name rs ss) in H as (B & j & E & H); [|assumption|assumption].
    apply sample_file_inj in E. subst j. split; [exact B|]. apply nth_error_Some. congruence.
  - intros (B & L). apply nth_error_Some in L. destruct (nth_error ss i) as [s|] eqn:E; [|congruence].
    exists ((d, sample_file i), s). split; [reflexivity|]. apply (file_writes_in n name rs ss); auto.
    split; [exact B|]. now exists i.
Qed.

Lemma file_writes_nodup : forall n t, 0 < n -> NoDup (map fst (file_writes n t)).
Proof.
  intros n [name rs] P. unfold file_writes. cbn [fst snd]. destruct (subdir name) as [d|]; [|constructor].
  destruct (process_samples n rs 0 P) as (ss & S1 & ->). rewrite map_map. cbn [fst].
  rewrite <- (map_map fst (fun w => (d, w))). apply FinFun.Injective_map_NoDup; [intros x y H; now injection H|].
  apply numbered_nodup.
Qed.

Lemma process_all_cons : forall n t ts, process_all n (t :: ts) = (file_writes n t ++ process_all n ts)%list.
Proof. reflexivity. Qed.

Lemma later_names : forall n d i tfrs, 0 < n ->
  In (d, sample_file i) (map fst (process_all n tfrs)) <->
  exists name rs ss, In (name, rs) tfrs /\ belongs name d /\ samples n rs ss /\ i < List.length ss.
Proof.
  intros n d i tfrs P. induction tfrs as [|[name rs] tfrs IH].
  - split; [intros []|]. intros (? & ? & ? & [] & _).
  - rewrite process_all_cons, map_app, in_app_iff, IH. destruct (process_samples n rs 0 P) as (ss & S1 & _).
    rewrite (file_writes_names n name rs ss) by assumption. split.
    + intros [(B & L)|(name' & rs' & ss' & I & H)].
      * exists name, rs, ss. split; [now left|]. split; [exact B|]. split; assumption.
      * exists name', rs', ss'. split; [now right|exact H].
    + intros (name' & rs' & ss' & [E|I] & B & S2 & L).
      * injection E as <- <-. left. split; [exact B|]. rewrite (samples_unique n rs ss P S1 ss' S2). exact L.
      * right. now exists name', rs', ss'.
Qed.

(** What a directory holds in the end. *)
Lemma directory_content : forall n d w s tfrs, 0 < n ->
  found (process_all n tfrs) (d, w) s <->
  exists before name rs after ss i, tfrs = (before ++ (name, rs) :: after)%list /\
    belongs name d /\ samples n rs ss /\ w = sample_file i /\ nth_error ss i = Some s /\
    forall name' rs' ss', In (name', rs') after -> belongs name' d -> samples n rs' ss' -> List.length ss' <= i.
Proof.
  intros n d w s tfrs P. induction tfrs as [|[name rs] tfrs IH].
  - split.
    + intros (b & a & E & _). destruct b; discriminate.
    + intros (b & ? & ? & ? & ? & ? & E & _). destruct b; discriminate.
  - rewrite process_all_cons, found_app, IH. destruct (process_samples n rs 0 P) as (ss & S1 & _). split.
    + intros [(b & name' & rs' & a & ss' & i & -> & H)|(N & F)].
      * exists ((name, rs) :: b), name', rs', a, ss', i. split; [reflexivity|exact H].
      * apply found_in in F; [|now apply file_writes_nodup].
        apply (file_writes_in n name rs ss) in F as (B & i & -> & E); [|assumption|assumption].
        exists [], name, rs, tfrs, ss, i. repeat (split; [first [reflexivity|assumption]|]).
        intros name' rs' ss' I B' S2. destruct (Nat.le_gt_cases (List.length ss') i) as [L|L]; [exact L|].
        exfalso. apply N. apply later_names; [assumption|]. exists name', rs', ss'. split; [exact I|]. split; [exact B'|]. split; assumption.
    + intros (b & name' & rs' & a & ss' & i & E & B & S2 & -> & Hi & A). destruct b as [|x b].
      * injection E as <- <- <-. right. split.
        -- intros N. apply later_names in N; [|assumption]. destruct N as (n2 & r2 & s2 & I & B2 & S3 & L).
           specialize (A n2 r2 s2 I B2 S3). lia.
        -- apply found_in; [now apply file_writes_nodup|]. apply (file_writes_in n name rs ss'); auto.
           split; [exact B|]. now exists i.
      * injection E as _ ->. left. exists b, name', rs', a, ss', i. split; [reflexivity|]. split; [exact B|]. split; [exact S2|]. split; [reflexivity|]. split; assumption.
Qed.
