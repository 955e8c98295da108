(** Constructors of the file schedulers; paths of picture files. *)
From Coq Require Import List Arith ZArith Lia Ascii String Bool Sorting.Permutation Sorting.Sorted.
From Verif Require Import Prelude Model.Base Model.Files Model.Loaders Spec.BaseSpec Spec.FilesSpec.
From Verif Require Import Proofs.BaseRun.
Import ListNotations.
Local Open Scope nat_scope.

Lemma str_leb_refl : forall a, str_leb a a = true.
Proof. induction a as [|x a IH]; simpl; auto. rewrite Nat.ltb_irrefl. exact IH. Qed.

Lemma str_leb_total : forall a b, str_leb a b = false -> str_leb b a = true.
Proof.
  induction a as [|x a IH]; intros [|y b] H; simpl in *; try discriminate; auto.
  destruct (Nat.ltb_spec (nat_of_ascii x) (nat_of_ascii y)); [discriminate|].
  destruct (Nat.ltb_spec (nat_of_ascii y) (nat_of_ascii x)); auto.
Qed.

Lemma insert_perm : forall x l, Permutation (insert x l) (x :: l).
Proof.
  intros x l; induction l as [|y l IH]; simpl; auto. destruct (str_leb x y); auto.
  rewrite IH. apply perm_swap.
Qed.

Lemma sorted_perm : forall l, Permutation (sorted l) l.
Proof. induction l as [|x l IH]; simpl; auto. rewrite insert_perm. auto. Qed.

Lemma insert_sorted : forall x l, Sorted str_le l -> Sorted str_le (insert x l).
Proof.
  intros x l; induction l as [|y l IH]; intros H; simpl; auto.
  destruct (str_leb x y) eqn:E; [constructor; auto|].
  apply Sorted_inv in H. destruct H as [H1 H2]. constructor; auto.
  destruct l as [|z l]; simpl.
  - constructor. apply str_leb_total; auto.
  - destruct (str_leb x z); constructor.
    + apply str_leb_total; auto.
    + inversion H2; auto.
Qed.

Lemma sorted_sorted : forall l, Sorted str_le (sorted l).
Proof. induction l; simpl; auto. apply insert_sorted; auto. Qed.

Lemma ends_with_spec : forall a b, ends_with a b = true <-> has_suffix a b.
Proof.
  induction a as [|x a IH]; intros b; cbn [ends_with].
  - rewrite orb_false_r. rewrite String.eqb_eq. split.
    + intros <-. exists ""%string. reflexivity.
    + intros [[|y c] Hc]; simpl in Hc; [auto|discriminate].
  - rewrite orb_true_iff, String.eqb_eq, IH. split.
    + intros [<-|[c Hc]]; [exists ""%string; reflexivity|].
      exists (String x c). simpl. congruence.
    + intros [[|y c] Hc]; simpl in Hc; [left; auto|]. inversion Hc; subst. right. exists c; auto.
Qed.

Lemma expand_spec : forall f suffix fl,
  exists segs, expand f suffix fl = List.concat segs /\ Forall2 (stands_for f suffix) fl segs.
Proof.
  intros f suffix fl; induction fl as [|p fl [segs [H1 H2]]].
  - exists []. split; auto.
  - exists ((if fs_isdir f p then sorted (fs_glob f p suffix) else [p]) :: segs). split.
    + simpl. rewrite <- H1. reflexivity.
    + constructor; auto. unfold stands_for. destruct (fs_isdir f p).
      * right. split; auto. split; [apply sorted_perm|apply sorted_sorted].
      * left; auto.
Qed.

Lemma construct_base_spec : forall f suffix c fl k s,
  construct_base f suffix c fl k = Ok s ->
  exists l segs, l = List.concat segs /\ Forall2 (stands_for f suffix) fl segs /\
    l <> [] /\ (forall p, In p l -> fs_isfile f p = true) /\ s = init c l k.
Proof.
  intros f suffix c fl k s H. unfold construct_base in H.
  destruct (expand_spec f suffix fl) as [segs [E1 E2]].
  exists (expand f suffix fl), segs. destruct (expand f suffix fl) as [|p l] eqn:E; [discriminate|].
  destruct (forallb (fs_isfile f) (p :: l)) eqn:EF; [|discriminate].
  inversion H; subst s. split; auto. split; auto. split; [discriminate|]. split; auto.
  apply forallb_forall. exact EF.
Qed.

Lemma constructed : forall f suffix c fl k s,
  (c_randomize c = true -> perm_ok (c_rng c)) ->
  construct_base f suffix c fl k = Ok s ->
  exists segs, Forall2 (stands_for f suffix) fl segs /\
    s_files s <> [] /\ (forall p, In p (s_files s) -> fs_isfile f p = true) /\
    Permutation (s_files s) (List.concat segs) /\
    (c_randomize c = false -> s_files s = List.concat segs).
Proof.
  intros f suffix c fl k s HP H.
  destruct (construct_base_spec f suffix c fl k s H) as [l [segs [H1 [H2 [H3 [H4 H5]]]]]].
  exists segs. split; auto. pose proof (init_perm c l k HP) as Hp. rewrite <- H5 in Hp.
  split. { intro E. rewrite E in Hp. apply Permutation_nil in Hp. auto. }
  split. { intros p Hin. apply H4. eapply Permutation_in; eauto. }
  rewrite <- H1. split; auto. intro HR. subst s. unfold init. rewrite HR. reflexivity.
Qed.

Lemma construct_mat_base : forall f c fl k s,
  construct_mat f c fl k = Ok s ->
  construct_base f "**/*.mat" c fl k = Ok s /\ forall p, In p (s_files s) -> has_suffix p ".mat".
Proof.
  intros f c fl k s H. unfold construct_mat in H.
  destruct (construct_base f "**/*.mat" c fl k) as [s0|]; [|discriminate]. simpl in H.
  destruct (forallb _ _) eqn:E; [|discriminate]. inversion H; subst. split; auto.
  intros p Hp. apply ends_with_spec. rewrite forallb_forall in E. apply E; auto.
Qed.

Lemma construct_npy_base : forall f inc c fl k s,
  construct_npy f inc c fl k = Ok s ->
  construct_base f "flow_*.npy" c fl k = Ok s /\ (forall p, In p (s_files s) -> has_suffix p ".npy") /\
  (inc = true -> forall p, In p (s_files s) -> exists t, flow_number (basename p) = Some t /\
     fs_isfile f (img_path p (Z.of_nat t - 1)) = true /\ fs_isfile f (img_path p (Z.of_nat t)) = true).
Proof.
  intros f inc c fl k s H. unfold construct_npy in H.
  destruct (construct_base f "flow_*.npy" c fl k) as [s0|]; [|discriminate]. simpl in H.
  destruct (forallb _ _) eqn:E; [|discriminate].
  assert (Hs : forall p, In p (s_files s0) -> has_suffix p ".npy").
  { intros p Hp. apply ends_with_spec. rewrite forallb_forall in E. apply E; auto. }
  destruct inc.
  - destruct (check_images f (s_files s0)) as [[]|] eqn:EC; [|discriminate]. inversion H; subst.
    split; auto. split; auto. intros _. clear - EC.
    induction (s_files s) as [|q l IH]; intros p Hp; [contradiction|].
    simpl in EC. destruct (flow_number (basename q)) as [t|] eqn:Et; [|discriminate].
    destruct (_ && _) eqn:EI; [|discriminate]. destruct Hp as [<-|Hp]; auto.
    apply andb_prop in EI. exists t. tauto.
  - inversion H; subst. split; auto. split; auto. discriminate.
Qed.

Lemma construct_h5_directory : forall f c fl k p,
  In p fl -> ~ has_suffix p ".h5" -> construct_h5 f c fl k = Err ValueError.
Proof.
  intros f c fl k p Hin Hn. unfold construct_h5.
  assert (E : forallb (fun p => ends_with p ".h5") fl = false).
  { destruct (forallb _ fl) eqn:E; auto. rewrite forallb_forall in E.
    exfalso. apply Hn. apply ends_with_spec. apply E; auto. }
  rewrite E. unfold construct_base. destruct (expand f "**/*.h5" fl) as [|q l]; [reflexivity|].
  destruct (forallb (fs_isfile f) (q :: l)); reflexivity.
Qed.

Lemma construct_h5_base : forall f c fl k s,
  construct_h5 f c fl k = Ok s ->
  construct_base f "**/*.h5" c fl k = Ok s /\ forall p, In p fl -> has_suffix p ".h5".
Proof.
  intros f c fl k s H. unfold construct_h5 in H.
  destruct (construct_base f "**/*.h5" c fl k) as [s0|]; [|discriminate]. simpl in H.
  destruct (forallb _ _) eqn:E; [|discriminate]. inversion H; subst. split; auto.
  intros p Hp. apply ends_with_spec. rewrite forallb_forall in E. apply E; auto.
Qed.

(** Conversely: construction succeeds on existing files of the right kind. *)
Lemma construct_files_ok : forall f suffix c fl k,
  fl <> [] -> (forall p, In p fl -> fs_isdir f p = false /\ fs_isfile f p = true) ->
  construct_base f suffix c fl k = Ok (init c fl k).
Proof.
  intros f suffix c fl k Hne H. unfold construct_base.
  assert (E : expand f suffix fl = fl).
  { clear Hne. induction fl as [|p fl IH]; auto. unfold expand in *. simpl.
    rewrite (proj1 (H p (or_introl eq_refl))). simpl. f_equal. apply IH.
    intros; apply H; right; auto. }
  rewrite E. destruct fl as [|p fl]; [congruence|].
  replace (forallb (fs_isfile f) (p :: fl)) with true; auto.
  symmetry. apply forallb_forall. intros q Hq. apply H; auto.
Qed.

(** ** Names of flow files and pictures *)

Lemma digit_val_char : forall d, d < 10 -> digit_val (digit_char d) = Some d.
Proof.
  intros d H. do 10 (destruct d as [|d]; [reflexivity|]). lia.
Qed.

Fixpoint digits_val (acc : nat) (s : string) : option nat :=
  match s with
  | EmptyString => Some acc
  | String a s => match digit_val a with Some d => digits_val (10 * acc + d) s | None => None end
  end.

Lemma digits_npy_app : forall s seen acc n,
  digits_val acc s = Some n -> (seen = true \/ s <> ""%string) ->
  digits_npy seen acc (s ++ ".npy") = Some n.
Proof.
  induction s as [|a s IH]; intros seen acc n H Hs; cbn [digits_val String.append] in *.
  - inversion H; subst. destruct Hs as [->|Hs]; [reflexivity|congruence].
  - cbn [digits_npy]. destruct (digit_val a) as [d|]; [|discriminate].
    apply IH; auto.
Qed.

Fixpoint slen (s : string) : nat := match s with EmptyString => 0 | String _ s => S (slen s) end.

Lemma dec_nat_val : forall fuel n acc m,
  n < fuel ->
  (forall a, exists k, digits_val a acc = Some (a * 10 ^ slen acc + m) /\ k = 0) ->
  forall a, digits_val a (dec_nat fuel n acc) =
            Some (a * 10 ^ slen (dec_nat fuel n acc) + (n * 10 ^ slen acc + m)).
Proof.
  induction fuel as [|fuel IH]; intros n acc m Hf Hacc a; [lia|].
  cbn [dec_nat]. set (acc' := String (digit_char (n mod 10)) acc).
  assert (Hm : n mod 10 < 10) by (apply Nat.mod_upper_bound; lia).
  pose proof (Nat.div_mod n 10 ltac:(lia)) as Hdm.
  assert (Hacc' : forall a, exists k, digits_val a acc' =
            Some (a * 10 ^ slen acc' + ((n mod 10) * 10 ^ slen acc + m)) /\ k = 0).
  { intro a'. exists 0. split; auto. unfold acc'. cbn [digits_val slen]. rewrite digit_val_char by exact Hm.
    destruct (Hacc (10 * a' + n mod 10)) as [_ [-> _]]. f_equal. rewrite Nat.pow_succ_r'. nia. }
  destruct (Nat.ltb_spec n 10) as [H|H].
  - destruct (Hacc' a) as [_ [-> _]]. f_equal. rewrite (Nat.mod_small n 10) by lia. reflexivity.
  - assert (Hlt : n / 10 < fuel).
    { assert (n / 10 < n) by (apply Nat.div_lt; lia). lia. }
    rewrite (IH (n / 10) acc' _ Hlt Hacc' a). f_equal. f_equal.
    unfold acc' at 1. cbn [slen]. rewrite Nat.pow_succ_r'. nia.
Qed.

Lemma dec_nat_nonempty : forall fuel n acc, 0 < fuel -> dec_nat fuel n acc <> ""%string.
Proof.
  intros fuel; induction fuel as [|fuel IH]; intros n acc H; [lia|]. cbn [dec_nat].
  destruct (n <? 10); [discriminate|]. destruct fuel; [cbn [dec_nat]; discriminate|]. apply IH; lia.
Qed.

Lemma str_of_nat_val : forall n, digits_val 0 (str_of_nat n) = Some n.
Proof.
  intro n. unfold str_of_nat. rewrite (dec_nat_val (S n) n "" 0).
  - f_equal. simpl. lia.
  - lia.
  - intro a. exists 0. simpl. split; [f_equal; lia|auto].
Qed.

Lemma substring_all : forall s m, String.length s <= m -> substring 0 m s = s.
Proof.
  induction s as [|a s IH]; intros [|m] H; cbn [substring String.length] in *; auto; try lia.
  f_equal. apply IH. lia.
Qed.

Lemma substring_drop : forall p s m, String.length s <= m ->
  substring (String.length p) m (p ++ s) = s.
Proof.
  induction p as [|a p IH]; intros s m H; cbn [substring String.length String.append].
  - apply substring_all; auto.
  - apply IH; auto.
Qed.

Lemma length_append : forall a b, String.length (a ++ b) = String.length a + String.length b.
Proof. induction a as [|x a IH]; intros b; simpl; auto. Qed.

Lemma flow_number_of : forall t,
  flow_number ("flow_" ++ str_of_nat t ++ ".npy") = Some t.
Proof.
  intro t. unfold flow_number.
  replace (prefix "flow_" ("flow_" ++ str_of_nat t ++ ".npy")) with true.
  2: { simpl. destruct (str_of_nat t ++ ".npy")%string; reflexivity. }
  change 5 with (String.length "flow_").
  rewrite substring_drop by (rewrite (length_append "flow_"); lia).
  apply digits_npy_app; [apply str_of_nat_val|]. right. apply dec_nat_nonempty. lia.
Qed.

Fixpoint no_slash (s : string) : bool :=
  match s with EmptyString => true | String a s => negb (Ascii.eqb a "/") && no_slash s end.

Lemma split_no_slash : forall s, no_slash s = true -> split_slash s = None.
Proof.
  induction s as [|a s IH]; intros H; simpl in *; auto. apply andb_prop in H. destruct H as [H1 H2].
  rewrite IH by exact H2. destruct (Ascii.eqb a "/"); [discriminate|reflexivity].
Qed.

Lemma split_join : forall d n, no_slash n = true ->
  split_slash (d ++ "/" ++ n) = Some (d ++ "/", n)%string.
Proof.
  induction d as [|a d IH]; intros n H.
  - simpl. rewrite split_no_slash by exact H. reflexivity.
  - cbn [String.append split_slash]. cbn [String.append] in IH. rewrite IH by exact H. reflexivity.
Qed.

Lemma all_slash_app : forall a b, all_slash (a ++ b) = all_slash a && all_slash b.
Proof. induction a as [|x a IH]; intros b; simpl; auto. rewrite IH. apply andb_assoc. Qed.

Lemma rstrip_no_end : forall d, d <> ""%string -> ends_with d "/" = false ->
  all_slash d = false /\ rstrip_slash (d ++ "/") = d.
Proof.
  induction d as [|a d IH]; intros Hne He; [congruence|].
  cbn [ends_with] in He. apply orb_false_iff in He. destruct He as [He1 He2].
  destruct d as [|b d].
  - cbn [all_slash String.append rstrip_slash andb]. 
    assert (Ha : Ascii.eqb a "/" = false).
    { destruct (Ascii.eqb a "/") eqn:E; auto. apply Ascii.eqb_eq in E. subst a. discriminate. }
    rewrite Ha. split; reflexivity.
  - destruct (IH ltac:(discriminate) He2) as [H1 H2].
    assert (Hs : all_slash (String a (String b d)) = false).
    { change (all_slash (String a (String b d))) with (Ascii.eqb a "/" && all_slash (String b d)).
      rewrite H1. apply andb_false_r. }
    split; [exact Hs|].
    change (String a (String b d) ++ "/")%string with (String a (String b d ++ "/")).
    cbn [rstrip_slash].
    replace (all_slash (String a (String b d ++ "/"))) with false.
    + f_equal. exact H2.
    + symmetry. change (Ascii.eqb a "/" && all_slash (String b d ++ "/") = false).
      rewrite all_slash_app, H1. apply andb_false_r.
Qed.

Lemma dirname_join : forall d n, d <> ""%string -> ends_with d "/" = false -> no_slash n = true ->
  dirname (d ++ "/" ++ n) = d /\ basename (d ++ "/" ++ n) = n.
Proof.
  intros d n Hne He Hn. unfold dirname, basename. rewrite split_join by exact Hn.
  destruct (rstrip_no_end d Hne He) as [H1 H2]. split; auto.
  replace (all_slash (d ++ "/")) with false; [exact H2|].
  symmetry. rewrite all_slash_app, H1. reflexivity.
Qed.

Lemma no_slash_app : forall a b, no_slash (a ++ b) = no_slash a && no_slash b.
Proof. induction a as [|x a IH]; intros b; simpl; auto. rewrite IH. apply andb_assoc. Qed.

Lemma digit_no_slash : forall d, d < 10 -> Ascii.eqb (digit_char d) "/" = false.
Proof. intros d H. do 10 (destruct d as [|d]; [reflexivity|]). lia. Qed.

Lemma dec_no_slash : forall fuel n acc, no_slash acc = true -> no_slash (dec_nat fuel n acc) = true.
Proof.
  induction fuel as [|fuel IH]; intros n acc H; auto. cbn [dec_nat].
  assert (G : no_slash (String (digit_char (n mod 10)) acc) = true).
  { cbn [no_slash]. rewrite digit_no_slash by (apply Nat.mod_upper_bound; lia). exact H. }
  destruct (n <? 10); auto.
Qed.

(** Pictures served with [d/flow_t.npy]. *)
Lemma picture_paths : forall d t, d <> ""%string -> ends_with d "/" = false ->
  let p := (d ++ "/" ++ "flow_" ++ str_of_nat t ++ ".npy")%string in
  flow_number (basename p) = Some t /\
  forall z, img_path p z = (d ++ "/img_" ++ str_of_Z z ++ ".jpg")%string.
Proof.
  intros d t Hne He p.
  assert (Hn : no_slash ("flow_" ++ str_of_nat t ++ ".npy") = true).
  { rewrite !no_slash_app. unfold str_of_nat. rewrite dec_no_slash; reflexivity. }
  destruct (dirname_join d ("flow_" ++ str_of_nat t ++ ".npy") Hne He Hn) as [H1 H2].
  unfold p. split.
  - rewrite H2. apply flow_number_of.
  - intro z. unfold img_path. rewrite H1. unfold path_join. rewrite He.
    destruct d as [|a d]; [congruence|]. reflexivity.
Qed.
