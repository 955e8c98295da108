(** Proofs about the command-line program. *)
From Coq Require Import List Arith ZArith String Ascii Bool Lia.
From Verif Require Import Prelude Model.Files Model.Sampler Model.Real Model.Main Spec.SamplerSpec Spec.PipelineSpec Spec.MainSpec
  Proofs.FilesProofs.
Import ListNotations.
Local Open Scope string_scope.
Local Open Scope nat_scope.

(** * Names *)

Fixpoint all_digits (s : string) : Prop :=
  match s with EmptyString => True | String a s => digit_val a <> None /\ all_digits s end.

Lemma digits_all : forall s acc n, digits_val acc s = Some n -> all_digits s.
Proof.
  induction s as [|a s IH]; intros acc n H; [exact I|]. cbn [digits_val all_digits] in *.
  destruct (digit_val a); [|discriminate]. split; [discriminate|eapply IH; exact H].
Qed.

Lemma str_digits : forall n, all_digits (str_of_nat n).
Proof. intros n. exact (digits_all _ _ _ (str_of_nat_val n)). Qed.

Lemma str_inj : forall m n, str_of_nat m = str_of_nat n -> m = n.
Proof. intros m n H. apply (f_equal (digits_val 0)) in H. rewrite !str_of_nat_val in H. congruence. Qed.

Lemma cut_digits : forall a b c c' x y, all_digits a -> all_digits b -> digit_val c = None -> digit_val c' = None ->
  (a ++ String c x = b ++ String c' y)%string -> a = b /\ String c x = String c' y.
Proof.
  induction a as [|u a IH]; intros [|v b] c c' x y A B C C' H; cbn [String.append all_digits] in *.
  - auto.
  - injection H as E _. exfalso. apply (proj1 B). rewrite <- E. exact C.
  - injection H as E _. exfalso. apply (proj1 A). rewrite E. exact C'.
  - injection H as E H. destruct (IH b c c' x y (proj2 A) (proj2 B) C C' H) as [-> ->]. subst. auto.
Qed.

Lemma append_inj : forall p x y, (p ++ x = p ++ y)%string -> x = y.
Proof. induction p as [|a p IH]; intros x y H; [exact H|]. injection H as H. auto. Qed.

Lemma append_assoc : forall p x y, ((p ++ x) ++ y = p ++ (x ++ y))%string.
Proof. induction p as [|a p IH]; intros; [reflexivity|]. cbn [String.append]. rewrite IH. reflexivity. Qed.

Lemma path_join_inj : forall d x y, path_join d x = path_join d y -> x = y.
Proof.
  intros d x y H. unfold path_join in H. destruct d as [|a d]; [exact H|]. destruct (ends_with (String a d) "/").
  - exact (append_inj _ _ _ H).
  - apply append_inj in H. exact (append_inj _ _ _ H).
Qed.

Definition file_name (k j : nat) (rest : string) : string :=
  ("batch_" ++ str_of_nat k ++ "_sample_" ++ str_of_nat j) ++ "_" ++ rest.

Lemma name_inj : forall k j r k' j' r', file_name k j r = file_name k' j' r' -> k = k' /\ j = j' /\ r = r'.
Proof.
  intros k j r k' j' r' H. unfold file_name in H. rewrite !append_assoc in H. apply append_inj in H.
  destruct (cut_digits _ _ "_" "_" _ _ (str_digits k) (str_digits k') eq_refl eq_refl H) as [K H2].
  change (("_sample_" ++ (str_of_nat j ++ "_" ++ r))%string = ("_sample_" ++ (str_of_nat j' ++ "_" ++ r'))%string) in H2.
  apply append_inj in H2.
  destruct (cut_digits _ _ "_" "_" _ _ (str_digits j) (str_digits j') eq_refl eq_refl H2) as [J H3].
  injection H3 as H3. split; [exact (str_inj _ _ K)|]. split; [exact (str_inj _ _ J)|exact H3].
Qed.

(** * The files *)

Lemma NoDup_app : forall {A} (l l' : list A), NoDup l -> NoDup l' -> (forall x, In x l -> ~ In x l') -> NoDup (l ++ l').
Proof.
  induction l as [|a l IH]; intros l' N N' H; [exact N'|]. cbn. inversion N as [|? ? X Y]. subst. constructor.
  - intros Z. apply in_app_or in Z. destruct Z as [Z|Z]; [contradiction|]. exact (H a (or_introl eq_refl) Z).
  - apply IH; [exact Y|exact N'|]. intros x Hx. exact (H x (or_intror Hx)).
Qed.

Section Gallery.
Context {o i : Type}.
Variable dir : string.

Lemma files_names : forall k j (x : i) (f : o), map fst (files_of dir k j x f) =
  map (fun r => path_join dir (file_name k j r)) ["image1.png"; "image2.png"; "quiver.png"].
Proof. reflexivity. Qed.

Definition shown_samples (k : nat) (l : list (nat * (i * o))) : list (string * drawing o i) :=
  flat_map (fun q => files_of dir k (fst q) (fst (snd q)) (snd (snd q))) l.

Lemma in_samples : forall k l p, In p (map fst (shown_samples k l)) ->
  exists j r, In j (map fst l) /\ p = path_join dir (file_name k j r).
Proof.
  intros k l p. induction l as [|[j [x f]] l IH]; intros H; [contradiction|]. unfold shown_samples in H. cbn [flat_map] in H.
  rewrite map_app in H. apply in_app_or in H. destruct H as [H|H].
  - cbn [fst snd] in H. rewrite files_names in H. apply in_map_iff in H. destruct H as (r & <- & _). exists j, r. split; [left; reflexivity|reflexivity].
  - destruct (IH H) as (j' & r & Hj & E). exists j', r. split; [right; exact Hj|exact E].
Qed.

Lemma samples_nodup : forall k l, NoDup (map fst l) -> NoDup (map fst (shown_samples k l)).
Proof.
  intros k l. induction l as [|[j [x f]] l IH]; intros N; [constructor|]. inversion N as [|? ? NI N']. subst.
  unfold shown_samples. cbn [flat_map]. rewrite map_app. apply NoDup_app.
  - cbn [fst snd]. rewrite files_names. cbn [map]. repeat constructor; cbn [In]; intros H; repeat destruct H as [H|H]; try contradiction;
      apply path_join_inj, name_inj in H; destruct H as (_ & _ & H); discriminate.
  - exact (IH N').
  - intros p H1 H2. cbn [fst snd] in H1. rewrite files_names in H1. apply in_map_iff in H1. destruct H1 as (r & E & _).
    destruct (in_samples _ _ _ H2) as (j' & r' & Hj & E'). rewrite <- E in E'. apply path_join_inj, name_inj in E'.
    destruct E' as (_ & -> & _). exact (NI Hj).
Qed.

Lemma firstn_nodup : forall {A} n (l : list A), NoDup l -> NoDup (firstn n l).
Proof.
  intros A n. induction n as [|n IH]; intros [|a l] N; try constructor.
  - inversion N as [|? ? H _]. subst. intros X. apply H. revert X. clear. revert l. induction n as [|n IH]; intros [|b l] X; try contradiction.
    destruct X as [->|X]; [left; reflexivity|right; exact (IH _ X)].
  - inversion N. subst. apply IH. assumption.
Qed.

Lemma combine_nodup : forall {A B} (l : list A) (l' : list B), NoDup l -> NoDup (map fst (combine l l')).
Proof.
  intros A B l. induction l as [|a l IH]; intros [|b l'] N; try constructor.
  - inversion N as [|? ? H _]. subst. intros X. apply H. apply in_map_iff in X. destruct X as ((x & y) & EX & X). cbn [fst] in EX. subst x. exact (in_combine_l _ _ _ _ X).
  - inversion N. subst. apply IH. assumption.
Qed.

Lemma firstn_map : forall {A B} (f : A -> B) n l, map f (firstn n l) = firstn n (map f l).
Proof. intros A B f n. induction n as [|n IH]; intros [|a l]; cbn; try reflexivity. rewrite IH. reflexivity. Qed.

Lemma gallery_names : forall num bs k p, In p (map fst (@gallery o i dir num k bs)) -> exists k' j r, k <= k' /\ p = path_join dir (file_name k' j r).
Proof.
  intros num bs. induction bs as [|b bs IH]; intros k p H; [contradiction|]. cbn [gallery] in H. rewrite map_app in H.
  apply in_app_or in H. destruct H as [H|H].
  - apply (in_samples k) in H. destruct H as (j & r & _ & E). exists k, j, r. split; [lia|exact E].
  - destruct (IH _ _ H) as (k' & j & r & L & E). exists k', j, r. split; [lia|exact E].
Qed.

Lemma gallery_nodup : forall num bs k, NoDup (map fst (@gallery o i dir num k bs)).
Proof.
  intros num bs. induction bs as [|b bs IH]; intros k; [constructor|]. cbn [gallery]. rewrite map_app. apply NoDup_app.
  - apply (samples_nodup k). rewrite firstn_map. apply firstn_nodup, combine_nodup, seq_NoDup.
  - apply IH.
  - intros p H1 H2. apply (in_samples k) in H1. destruct H1 as (j & r & _ & E). destruct (gallery_names _ _ _ _ H2) as (k' & j' & r' & L & E').
    rewrite E in E'. apply path_join_inj, name_inj in E'. lia.
Qed.
End Gallery.

(** * The loop *)

Lemma lower_char_y : forall a, lower_char a = "y"%char <-> a = "y"%char \/ a = "Y"%char.
Proof. intros [[] [] [] [] [] [] [] []]; vm_compute; split; intros H; try discriminate H; try (destruct H; discriminate); auto. Qed.

Lemma lower_y : forall c, lower c = "y" <-> c = "y" \/ c = "Y".
Proof.
  intros [|a [|b c]]; cbn [lower]; split; intros H; try discriminate; try (destruct H; discriminate).
  - injection H as H. apply lower_char_y in H. destruct H as [->| ->]; auto.
  - destruct H as [H|H]; injection H as ->; reflexivity.
Qed.

Lemma wrote_app : forall {o i} (a b : list (act o i)), wrote (a ++ b) = (wrote a ++ wrote b)%list.
Proof. intros. unfold wrote. apply flat_map_app. Qed.
Lemma calls_app : forall {o i} (a b : list (act o i)), calls_of (a ++ b) = calls_of a + calls_of b.
Proof. intros. unfold calls_of. rewrite filter_app, app_length. reflexivity. Qed.

Definition quiet {o i} (l : list (act o i)) : Prop := calls_of l = 0 /\ ~ In Off l.

Section Loop.
Context {S o i : Type}.
Variable next : S -> result (batch o i) * S.
Variable off : S -> S.
Variable W : outside.
Variable dir : string.
Variable num : Z.

Definition raised_at (e : exn) (p : string) : Prop := x_write W p = Some e \/ exists k j, x_folder W k j = Some e.

(** Writing [l]: all of it, or up to the first that fails. *)
Definition writes (l : list (string * drawing o i)) (r : list (act o i) * option exn) : Prop :=
  quiet (fst r) /\
  match snd r with
  | None => wrote (fst r) = l
  | Some e => exists p d rest, l = (wrote (fst r) ++ (p, d) :: rest)%list /\ raised_at e p
  end.

Lemma write_all_ok : forall l, writes l (write_all W l).
Proof.
  induction l as [|[p d] l IH]; cbn [write_all].
  - split; [split; [reflexivity|intros []]|reflexivity].
  - destruct (x_write W p) as [e|] eqn:E.
    + split; [split; [reflexivity|intros []]|]. cbn [fst snd wrote flat_map app]. exists p, d, l. split; [reflexivity|left; exact E].
    + destruct (write_all W l) as [a r]. destruct IH as [[Q1 Q2] IH]. cbn [fst snd] in *. split.
      * split; [exact Q1|]. intros [X|X]; [discriminate|exact (Q2 X)].
      * cbn [snd fst]. destruct r as [e|]; cbn [wrote flat_map app] in *.
        -- destruct IH as (p' & d' & rest & -> & R). exists p', d', rest. split; [reflexivity|exact R].
        -- fold (wrote a). rewrite IH. reflexivity.
Qed.

Lemma visualize_ok : forall k j x f, writes (files_of dir k j x f) (visualize W dir k j x f).
Proof.
  intros k j x f. unfold visualize. destruct (x_folder W k j) as [e|] eqn:E.
  - split; [split; [reflexivity|intros []]|]. cbn [fst snd wrote flat_map app]. unfold files_of. do 3 eexists. split; [reflexivity|].
    right. exists k, j. exact E.
  - exact (write_all_ok _).
Qed.

Lemma quiet_app : forall (a b : list (act o i)), quiet a -> quiet b -> quiet (a ++ b).
Proof.
  intros a b [A1 A2] [B1 B2]. split; [rewrite calls_app; lia|]. intros X. apply in_app_or in X. tauto.
Qed.

Lemma skipn_nth : forall {A} (l : list A) n a, nth_error l n = Some a -> skipn n l = a :: skipn (1 + n) l.
Proof.
  intros A l. induction l as [|b l IH]; intros [|n] a H; cbn in H; try discriminate; [injection H as ->; reflexivity|exact (IH n a H)].
Qed.

Lemma samples_ok : forall k b m s, paired b -> s + m <= List.length (ba_images b) ->
  writes (shown_samples dir k (firstn m (skipn s (combine (seq 0 (List.length (ba_images b))) (combine (ba_images b) (ba_flows b))))))
    (samples W dir k b (seq s m)).
Proof.
  intros k b m. induction m as [|m IH]; intros s P L; [split; [split; [reflexivity|intros []]|reflexivity]|].
  cbn [seq samples].
  destruct (nth_error (ba_images b) s) as [x|] eqn:EX; [|apply nth_error_None in EX; lia].
  destruct (nth_error (ba_flows b) s) as [f|] eqn:EF; [|apply nth_error_None in EF; unfold paired in P; lia].
  set (l := combine (seq 0 (List.length (ba_images b))) (combine (ba_images b) (ba_flows b))) in *.
  assert (EL : skipn s l = (s, (x, f)) :: skipn (1 + s) l).
  { assert (N : nth_error l s = Some (s, (x, f))).
    { unfold l. assert (C : forall A B (u : list A) (v : list B) n a c, nth_error u n = Some a -> nth_error v n = Some c -> nth_error (combine u v) n = Some (a, c)).
      { clear. intros A B u. induction u as [|a u IH]; intros [|c v] [|n] a' c' H1 H2; cbn in *; try discriminate; [congruence|auto]. }
      apply C; [|apply C; assumption]. rewrite nth_error_nth' with (d := 0) by (rewrite seq_length; lia). rewrite seq_nth by lia. reflexivity. }
    exact (skipn_nth _ _ _ N). }
  rewrite EL. cbn [firstn]. change (shown_samples dir k ((s, (x, f)) :: firstn m (skipn (1 + s) l)))
    with (files_of dir k s x f ++ shown_samples dir k (firstn m (skipn (1 + s) l)))%list.
  pose proof (visualize_ok k s x f) as V. destruct (visualize W dir k s x f) as [a r]. destruct V as [Q V]. cbn [fst snd] in *.
  destruct r as [e|].
  - split; [exact Q|]. cbn [fst snd]. destruct V as (p & d & rest & -> & R). exists p, d. eexists. split; [|exact R].
    rewrite <- app_assoc. reflexivity.
  - specialize (IH (1 + s) P ltac:(lia)). change (Datatypes.S s) with (1 + s). destruct (samples W dir k b (seq (1 + s) m)) as [a' r'].
    destruct IH as [Q' IH]. cbn [fst snd] in *. split; [exact (quiet_app _ _ Q Q')|]. cbn [fst snd]. rewrite wrote_app, V. destruct r' as [e|].
    + destruct IH as (p & d & rest & -> & R). exists p, d, rest. split; [rewrite app_assoc; reflexivity|exact R].
    + rewrite IH. reflexivity.
Qed.

Lemma batch_ok : forall k b, paired b ->
  writes (shown_samples dir k (firstn (Z.to_nat num) (combine (seq 0 (List.length (ba_images b))) (combine (ba_images b) (ba_flows b)))))
    (samples W dir k b (seq 0 (Z.to_nat (Z.min num (Z.of_nat (List.length (ba_images b))))))).
Proof.
  intros k b P.
  assert (E : Z.to_nat (Z.min num (Z.of_nat (List.length (ba_images b)))) = Nat.min (Z.to_nat num) (List.length (ba_images b))) by lia.
  rewrite E. pose proof (samples_ok k b (Nat.min (Z.to_nat num) (List.length (ba_images b))) 0 P ltac:(lia)) as X.
  cbn [skipn] in X. replace (firstn (Z.to_nat num) (combine (seq 0 (List.length (ba_images b))) (combine (ba_images b) (ba_flows b))))
    with (firstn (Nat.min (Z.to_nat num) (List.length (ba_images b))) (combine (seq 0 (List.length (ba_images b))) (combine (ba_images b) (ba_flows b)))); [exact X|].
  assert (Q : List.length (combine (seq 0 (List.length (ba_images b))) (combine (ba_images b) (ba_flows b))) = List.length (ba_images b)).
  { rewrite !combine_length, seq_length. unfold paired in P. lia. }
  destruct (Nat.min_spec (Z.to_nat num) (List.length (ba_images b))) as [[_ ->]|[H ->]]; [reflexivity|].
  rewrite <- Q at 1. rewrite firstn_all. symmetry. apply firstn_all2. lia.
Qed.

(** Where a run can end, batches being numbered from [k]. *)
Definition ends (k : nat) (bs : list (batch o i)) (s' : S) (l : list (act o i)) (v : option (result unit)) : Prop :=
  let n := List.length bs in
  let all := forall m, m < n -> went_on W num (k + m) in
  match v with
  | None => all /\ wrote l = gallery dir num k bs /\ calls_of l = n
  | Some (Ok _) =>
      wrote l = gallery dir num k bs /\
      (all /\ fst (next s') = Err StopIteration /\ calls_of l = 1 + n \/
       (0 < num)%Z /\ calls_of l = n /\ exists m c, n = 1 + m /\ x_say W (k + m) = Ok c /\ c <> "y" /\ c <> "Y")
  | Some (Err e) =>
      wrote l = gallery dir num k bs /\
      (all /\ fst (next s') = Err e /\ e <> StopIteration /\ calls_of l = 1 + n \/
       (0 < num)%Z /\ calls_of l = n /\ exists m, n = 1 + m /\ x_say W (k + m) = Err e) \/
      calls_of l = n /\ exists p d rest, gallery dir num k bs = (wrote l ++ (p, d) :: rest)%list /\ raised_at e p
  end.

Lemma loop_ends : forall fuel k s, (forall bs s', gives next s bs s' -> Forall paired bs) ->
  let '(l, v, s2) := main_loop next W dir num fuel k s in
  ~ In Off l /\
  exists bs s', gives next s bs s' /\ (forall m, 1 + m < List.length bs -> went_on W num (k + m)) /\
    (v = None -> List.length bs = fuel /\ s2 = s') /\ ends k bs s' l v.
Proof.
  induction fuel as [|fuel IH]; intros k s P; cbn [main_loop].
  - split; [intros []|]. exists [], s. split; [constructor|]. split; [intros m H; cbn in H; lia|]. split; [auto|].
    split; [intros m H; cbn in H; lia|]. split; reflexivity.
  - destruct (next s) as [[b|e] s1] eqn:E.
    2: { assert (X : forall v, v = Some (Ok tt) /\ e = StopIteration \/ v = Some (Err e) /\ e <> StopIteration ->
           ~ In Off [@Called o i] /\ exists bs s', gives next s bs s' /\ (forall m, 1 + m < List.length bs -> went_on W num (k + m)) /\
           (v = None -> List.length bs = Datatypes.S fuel /\ s1 = s') /\ ends k bs s' [Called] v).
         { intros v HV. split; [intros [X|[]]; discriminate|]. exists [], s. split; [constructor|]. split; [intros m H; cbn in H; lia|].
           split; [intros ->; destruct HV as [[H _]|[H _]]; discriminate|].
           destruct HV as [[-> ->]|[-> NE]]; cbn [ends]; [|left]; (split; [reflexivity|]); left;
             (split; [intros m H; cbn in H; lia|]); rewrite E; auto. }
         destruct e; apply X; auto; right; split; auto; discriminate. }
    assert (PB : paired b).
    { assert (G : gives next s [b] s1) by (econstructor; [exact E|constructor]). specialize (P _ _ G). inversion P. assumption. }
    assert (P1 : forall bs s', gives next s1 bs s' -> Forall paired bs).
    { intros bs s' G. assert (G' : gives next s (b :: bs) s') by (econstructor; [exact E|exact G]). specialize (P _ _ G'). inversion P. assumption. }
    pose proof (batch_ok k b PB) as BO. destruct (samples W dir k b (seq 0 (Z.to_nat (Z.min num (Z.of_nat (List.length (ba_images b))))))) as [a r].
    destruct BO as [[Q1 Q2] BO]. cbn [fst snd] in *.
    set (here := shown_samples dir k (firstn (Z.to_nat num) (combine (seq 0 (List.length (ba_images b))) (combine (ba_images b) (ba_flows b))))) in *.
    assert (G1 : gives next s [b] s1) by (econstructor; [exact E|constructor]).
    assert (GA : forall bs, gallery dir num k (b :: bs) = (here ++ gallery dir num (1 + k) bs)%list) by reflexivity.
    assert (G0 : gallery dir num k [b] = here) by (rewrite GA; apply app_nil_r).
    destruct r as [e|].
    { split; [intros [X|X]; [discriminate|exact (Q2 X)]|]. exists [b], s1. split; [exact G1|]. split; [intros m H; cbn in H; lia|]. split; [discriminate|].
      cbn [ends]. right. split; [unfold calls_of in *; cbn [filter List.length]; rewrite Q1; reflexivity|]. rewrite G0. exact BO. }
    assert (NI : ~ In Off (Called :: a ++ [Asked])).
    { intros [X|X]; [discriminate|]. apply in_app_or in X. destruct X as [X|[X|[]]]; [exact (Q2 X)|discriminate]. }
    assert (CA : forall l, calls_of (Called :: a ++ l) = 1 + calls_of l).
    { intros l. change (Called :: a ++ l)%list with ([Called] ++ a ++ l)%list. rewrite !calls_app, Q1. reflexivity. }
    assert (WA : forall l, wrote (Called :: a ++ l) = (here ++ wrote l)%list).
    { intros l. change (Called :: a ++ l)%list with ([Called] ++ a ++ l)%list. rewrite !wrote_app, BO. reflexivity. }
    assert (GO : went_on W num k -> forall pre, (pre = [] \/ pre = [@Asked o i]) ->
       forall v s2 l, main_loop next W dir num fuel (Datatypes.S k) s1 = (l, v, s2) ->
       ~ In Off (Called :: a ++ pre ++ l) /\
       exists bs s', gives next s bs s' /\ (forall m, 1 + m < List.length bs -> went_on W num (k + m)) /\
         (v = None -> List.length bs = Datatypes.S fuel /\ s2 = s') /\ ends k bs s' (Called :: a ++ pre ++ l) v).
    { intros ON pre HP v s2 l EL. specialize (IH (Datatypes.S k) s1 P1). rewrite EL in IH. destruct IH as (NO & bs & s' & GV & ST & NN & EN).
      assert (PW : wrote (pre ++ l) = wrote l) by (destruct HP as [->| ->]; reflexivity).
      assert (PC : calls_of (pre ++ l) = calls_of l) by (destruct HP as [->| ->]; reflexivity).
      split. { intros [X|X]; [discriminate|]. apply in_app_or in X. destruct X as [X|X]; [exact (Q2 X)|]. apply in_app_or in X.
               destruct X as [X|X]; [|exact (NO X)]. destruct HP as [->| ->]; [exact X|destruct X as [X|[]]; discriminate]. }
      exists (b :: bs), s'. split; [econstructor; [exact E|exact GV]|].
      assert (SH : forall n, (forall m, m < n -> went_on W num (Datatypes.S k + m)) -> forall m, m < 1 + n -> went_on W num (k + m)).
      { intros n H [|m] Hm; [rewrite Nat.add_0_r; exact ON|]. replace (k + Datatypes.S m) with (Datatypes.S k + m) by lia. apply H. lia. }
      split. { intros [|m] Hm; [rewrite Nat.add_0_r; exact ON|]. replace (k + Datatypes.S m) with (Datatypes.S k + m) by lia. apply ST. cbn in Hm. lia. }
      split; [intros V; destruct (NN V) as [X Y]; split; [cbn; rewrite X; reflexivity|exact Y]|].
      assert (LN : List.length (b :: bs) = 1 + List.length bs) by reflexivity.
      unfold ends in *. rewrite CA, WA, PW, PC, GA, LN. change (1 + k) with (Datatypes.S k).
      destruct v as [[u|e]|].
      - destruct EN as [W1 EN]. split; [rewrite W1; reflexivity|]. destruct EN as [(A1 & A2 & A3)|(A1 & A2 & m & c & A3 & A4 & A5)].
        + left. split; [exact (SH _ A1)|]. split; [exact A2|]. rewrite A3. reflexivity.
        + right. split; [exact A1|]. split; [rewrite A2; reflexivity|]. exists (1 + m), c. split; [rewrite A3; reflexivity|].
          replace (k + (1 + m)) with (Datatypes.S k + m) by lia. auto.
      - destruct EN as [[W1 EN]|(A1 & p & d & rest & A2 & A3)].
        + left. split; [rewrite W1; reflexivity|]. destruct EN as [(A1 & A2 & A3 & A4)|(A1 & A2 & m & A3 & A4)].
          * left. split; [exact (SH _ A1)|]. split; [exact A2|]. split; [exact A3|]. rewrite A4. reflexivity.
          * right. split; [exact A1|]. split; [rewrite A2; reflexivity|]. exists (1 + m). split; [rewrite A3; reflexivity|].
            replace (k + (1 + m)) with (Datatypes.S k + m) by lia. exact A4.
        + right. split; [rewrite A1; reflexivity|]. exists p, d, rest. split; [rewrite A2, app_assoc; reflexivity|exact A3].
      - destruct EN as (A1 & A2 & A3). split; [exact (SH _ A1)|]. split; [rewrite A2; reflexivity|rewrite A3; reflexivity]. }
    destruct (0 <? num)%Z eqn:N.
    + apply Z.ltb_lt in N. destruct (x_say W k) as [c|e] eqn:SAY.
      * destruct (String.eqb (lower c) "y") eqn:Y.
        -- apply String.eqb_eq, lower_y in Y.
           assert (ON : went_on W num k) by (right; destruct Y as [->| ->]; auto).
           destruct (main_loop next W dir num fuel (Datatypes.S k) s1) as [[l v] s2] eqn:EL.
           exact (GO ON [Asked] (or_intror eq_refl) v s2 l eq_refl).
        -- assert (NY : c <> "y" /\ c <> "Y").
           { split; intros ->; discriminate. }
           split; [exact NI|]. exists [b], s1. split; [exact G1|]. split; [intros m H; cbn in H; lia|]. split; [discriminate|].
           cbn [ends]. rewrite CA, WA, G0. split; [apply app_nil_r|]. right. split; [exact N|]. split; [reflexivity|].
           exists 0, c. rewrite (Nat.add_0_r k). destruct NY. repeat split; assumption.
      * split; [exact NI|]. exists [b], s1. split; [exact G1|]. split; [intros m H; cbn in H; lia|]. split; [discriminate|].
        cbn [ends]. rewrite CA, WA, G0. left. split; [apply app_nil_r|]. right. split; [exact N|]. split; [reflexivity|].
        exists 0. rewrite (Nat.add_0_r k). auto.
    + apply Z.ltb_ge in N. destruct (main_loop next W dir num fuel (Datatypes.S k) s1) as [[l v] s2] eqn:EL.
      exact (GO (or_introl N) [] (or_introl eq_refl) v s2 l eq_refl).
Qed.

(** With nothing in the way the loop goes through whatever [next] returns. *)
Lemma loop_through : forall s bs s' , gives next s bs s' -> Forall paired bs -> willing W num -> forall fuel k,
  exists l, ~ In Off l /\ wrote l = gallery dir num k bs /\ calls_of l = List.length bs /\
    main_loop next W dir num (List.length bs + fuel) k s =
      let '(l', v, s2) := main_loop next W dir num fuel (List.length bs + k) s' in ((l ++ l')%list, v, s2).
Proof.
  intros s bs s' G. induction G as [s|s b s1 bs s2 E G IH]; intros P WL fuel k.
  - exists []. split; [intros []|]. split; [reflexivity|]. split; [reflexivity|]. cbn [List.length Nat.add app].
    destruct (main_loop next W dir num fuel k s) as [[l v] s2]. reflexivity.
  - inversion P as [|? ? PB P']. subst. destruct (IH P' WL fuel (Datatypes.S k)) as (l & N1 & N2 & N3 & N4).
    pose proof (batch_ok k b PB) as BO. cbn [List.length Nat.add main_loop]. rewrite E.
    destruct (samples W dir k b (seq 0 (Z.to_nat (Z.min num (Z.of_nat (List.length (ba_images b))))))) as [a r].
    destruct BO as [[Q1 Q2] BO]. cbn [fst snd] in *. destruct WL as (W1 & W2 & W3). destruct r as [e|].
    { exfalso. destruct BO as (p & d & rest & _ & [X|(k' & j & X)]); [rewrite W2 in X|rewrite W1 in X]; discriminate. }
    rewrite N4. replace (Datatypes.S (List.length bs + k)) with (List.length bs + Datatypes.S k) by lia.
    assert (X : forall pre, pre = [] \/ pre = [@Asked o i] -> ~ In Off (Called :: a ++ pre ++ l) /\
      wrote (Called :: a ++ pre ++ l) = gallery dir num k (b :: bs) /\ calls_of (Called :: a ++ pre ++ l) = Datatypes.S (List.length bs)).
    { intros pre HP. split.
      - intros [X|X]; [discriminate|]. apply in_app_or in X. destruct X as [X|X]; [exact (Q2 X)|]. apply in_app_or in X.
        destruct X as [X|X]; [|exact (N1 X)]. destruct HP as [->| ->]; [exact X|destruct X as [X|[]]; discriminate].
      - change (Called :: a ++ pre ++ l)%list with ([Called] ++ a ++ pre ++ l)%list. rewrite !wrote_app, !calls_app, BO, Q1, N2, N3.
        destruct HP as [->| ->]; split; reflexivity. }
    destruct (0 <? num)%Z eqn:N.
    + apply Z.ltb_lt in N. assert (Y : exists c, x_say W k = Ok c /\ String.eqb (lower c) "y" = true).
      { destruct (W3 k) as [H|[H|H]]; [lia|exists "y"; auto|exists "Y"; auto]. }
      destruct Y as (c & -> & ->). exists (Called :: a ++ [Asked] ++ l)%list. destruct (X [Asked] (or_intror eq_refl)) as (X1 & X2 & X3).
      split; [exact X1|]. split; [exact X2|]. split; [exact X3|].
      destruct (main_loop next W dir num fuel (List.length bs + Datatypes.S k) s2) as [[l' v] s3]. cbn [app]. rewrite <- app_assoc. reflexivity.
    + exists (Called :: a ++ [] ++ l)%list. destruct (X [] (or_introl eq_refl)) as (X1 & X2 & X3).
      split; [exact X1|]. split; [exact X2|]. split; [exact X3|].
      destruct (main_loop next W dir num fuel (List.length bs + Datatypes.S k) s2) as [[l' v] s3]. cbn [app]. rewrite <- app_assoc. reflexivity.
Qed.

(** ** What [next] answers, call by call *)

Definition after (n : nat) (s : S) : S := Nat.iter n (fun s => snd (next s)) s.

Lemma after_next : forall n s, after n (snd (next s)) = after (Datatypes.S n) s.
Proof.
  intros n s. unfold after. induction n as [|n IH]; [reflexivity|].
  change (snd (next (Nat.iter n (fun s => snd (next s)) (snd (next s)))) = snd (next (Nat.iter (Datatypes.S n) (fun s => snd (next s)) s))).
  rewrite IH. reflexivity.
Qed.

Lemma gives_calls : forall n s (R : nat -> batch o i -> Prop), (forall m, m < n -> exists b, fst (next (after m s)) = Ok b /\ R m b) ->
  exists bs, gives next s bs (after n s) /\ List.length bs = n /\ forall m b, nth_error bs m = Some b -> R m b.
Proof.
  induction n as [|n IH]; intros s R H.
  - exists []. split; [constructor|]. split; [reflexivity|]. intros [|m] b X; discriminate.
  - destruct (H 0 ltac:(lia)) as (b & E & Rb). unfold after in E. cbn [Nat.iter nat_rect] in E. destruct (IH (snd (next s)) (fun m => R (Datatypes.S m))) as (bs & G & L & Q).
    { intros m Hm. rewrite after_next. apply H. lia. }
    exists (b :: bs). split; [|split].
    + rewrite <- after_next. econstructor; [|exact G]. destruct (next s) as [r s1]. cbn [fst snd] in *. rewrite E. reflexivity.
    + cbn. rewrite L. reflexivity.
    + intros [|m] b' X; cbn in X; [injection X as <-; exact Rb|exact (Q m b' X)].
Qed.
End Loop.

(** ** The samplers *)

Lemma real_answers : forall si B n m u, m < n ->
  nth_error (fst (real_run si B n u)) m = Some (fst (real_next si B (after (real_next si B) m u))).
Proof.
  intros si B. induction n as [|n IH]; intros m u H; [lia|]. cbn [real_run]. destruct (real_next si B u) as [r u1] eqn:E.
  specialize (IH (m - 1) u1). destruct (real_run si B n u1) as [rs u2]. cbn [fst] in *. destruct m as [|m]; cbn [nth_error].
  - unfold after. cbn [Nat.iter nat_rect]. rewrite E. reflexivity.
  - cbn [Nat.sub] in IH. rewrite Nat.sub_0_r in IH. rewrite (IH ltac:(lia)). rewrite <- after_next, E. reflexivity.
Qed.

Definition obs_of {o i} (r : result (batch o i)) : @sobs o i := match r with Ok b => SBatch b | Err e => SRaise e end.

Lemma syn_answers : forall si oflow bflow img (sc : scfg si oflow bflow img) n m s, m < n ->
  nth_error (fst (srun sc (repeat SNext n) s)) m = Some (obs_of (fst (syn_next sc (after (syn_next sc) m s)))).
Proof.
  intros si oflow bflow img sc. induction n as [|n IH]; intros m s H; [lia|]. cbn [repeat srun do_sop].
  assert (E : match syn_next sc s with (Ok b, s') => (SBatch b, s') | (Err e, s') => (SRaise e, s') end = (obs_of (fst (syn_next sc s)), snd (syn_next sc s)))
    by (destruct (syn_next sc s) as [[b|e] s1]; reflexivity).
  rewrite E. specialize (IH (m - 1) (snd (syn_next sc s))). destruct (srun sc (repeat SNext n) (snd (syn_next sc s))) as [rs s2]. cbn [fst] in *.
  destruct m as [|m]; cbn [nth_error]; [reflexivity|]. cbn [Nat.sub] in IH. rewrite Nat.sub_0_r in IH. rewrite (IH ltac:(lia)). rewrite <- after_next. reflexivity.
Qed.

Lemma rrun_answers : forall si B n m u, m < n ->
  nth_error (fst (rrun si B (repeat SNext n) u)) m = Some (obs_of (fst (real_next si B (after (real_next si B) m u)))).
Proof.
  intros si B. induction n as [|n IH]; intros m s H; [lia|]. cbn [repeat rrun do_rop].
  assert (E : match real_next si B s with (Ok b, s') => (SBatch b, s') | (Err e, s') => (SRaise e, s') end = (obs_of (fst (real_next si B s)), snd (real_next si B s)))
    by (destruct (real_next si B s) as [[b|e] s1]; reflexivity).
  rewrite E. specialize (IH (m - 1) (snd (real_next si B s))). destruct (rrun si B (repeat SNext n) (snd (real_next si B s))) as [rs s2]. cbn [fst] in *.
  destruct m as [|m]; cbn [nth_error]; [reflexivity|]. cbn [Nat.sub] in IH. rewrite Nat.sub_0_r in IH. rewrite (IH ltac:(lia)). rewrite <- after_next. reflexivity.
Qed.

Lemma plays_nexts : forall {o i} (shown : nat -> nat -> nat -> batch o i -> Prop) B L e n t m obs,
  plays_as shown B L e t m (repeat SNext n) obs -> forall j, j < n ->
  (t + j < L -> exists b, nth_error obs j = Some (SBatch b) /\ shown e (t + j) (m + j) b) /\
  (L <= t + j -> t <= L -> nth_error obs j = Some (SRaise EpisodeEnd)).
Proof.
  intros o i shown B L e n. induction n as [|n IH]; intros t m obs H j Hj; [lia|]. cbn [repeat plays_as] in H. destruct obs as [|x obs]; [contradiction|].
  destruct (t <? L) eqn:T.
  - apply Nat.ltb_lt in T. destruct H as ((b & -> & S1 & _) & H). destruct j as [|j].
    + rewrite !Nat.add_0_r. split; [intros _; exists b; auto|lia].
    + destruct (IH _ _ _ H j ltac:(lia)) as [I1 I2]. cbn [nth_error]. replace (t + S j) with (S t + j) by lia. replace (m + S j) with (S m + j) by lia.
      split; [exact I1|]. intros X _. apply I2; [exact X|lia].
  - apply Nat.ltb_ge in T. destruct H as (-> & H). split; [lia|]. intros _ TL. destruct j as [|j]; [reflexivity|]. cbn [nth_error].
    destruct (IH _ _ _ H j ltac:(lia)) as [_ I2]. apply I2; lia.
Qed.
