(** The names of flow files and pictures, C125. *)
From Coq Require Import List Arith ZArith Ascii String Bool Lia.
From Verif Require Import Prelude Model.PyVal Model.Base Model.Files Spec.FilesSpec Proofs.FilesProofs Model.Make Spec.ConstructSpec.
Import ListNotations.
Local Open Scope string_scope.
Local Open Scope nat_scope.

Lemma app_assoc_s : forall a b c : string, (a ++ b) ++ c = a ++ b ++ c.
Proof. induction a as [|x a IH]; intros b c; cbn; [reflexivity|]. now rewrite IH. Qed.
Lemma app_nil_s : forall a : string, a ++ "" = a.
Proof. induction a as [|x a IH]; cbn; [reflexivity|]. now rewrite IH. Qed.
Lemma app_inj_s : forall a b c : string, a ++ b = a ++ c -> b = c.
Proof. induction a as [|x a IH]; cbn; intros b c H; [exact H|]. injection H. apply IH. Qed.

(** ** Decimal numbers *)

Lemma digit_val_inv : forall a d, digit_val a = Some d -> d < 10 /\ a = ascii_of_nat (48 + d).
Proof.
  intros a d. unfold digit_val. destruct (Nat.leb_spec 48 (nat_of_ascii a)); cbn [andb]; [|discriminate].
  destruct (Nat.leb_spec (nat_of_ascii a) 57); [|discriminate]. intros E. injection E as <-. split; [lia|].
  replace (48 + (nat_of_ascii a - 48)) with (nat_of_ascii a) by lia. symmetry. apply ascii_nat_embedding.
Qed.

Lemma digits_val_snoc : forall s acc a,
  digits_val acc (s ++ String a "") =
  match digits_val acc s with Some n => match digit_val a with Some d => Some (10 * n + d) | None => None end | None => None end.
Proof.
  induction s as [|x s IH]; intros acc a; cbn [String.append digits_val].
  - destruct (digit_val a); reflexivity.
  - destruct (digit_val x); [apply IH|reflexivity].
Qed.

Lemma string_snoc : forall s, s = "" \/ exists t a, s = t ++ String a "".
Proof.
  induction s as [|x s IH]; [left; reflexivity|right]. destruct IH as [-> |(t & a & ->)].
  - exists "", x. reflexivity.
  - exists (String x t), a. reflexivity.
Qed.

Lemma decimal_val : forall s n, decimal s n <-> s <> "" /\ digits_val 0 s = Some n.
Proof.
  intros s n. split.
  - intro H. induction H as [d D|s n d H [NE IH] D].
    + split; [discriminate|]. cbn [digits_val]. change (ascii_of_nat (48 + d)) with (digit_char d). now rewrite digit_val_char.
    + split; [destruct s; discriminate|]. rewrite digits_val_snoc, IH. change (ascii_of_nat (48 + d)) with (digit_char d).
      now rewrite digit_val_char.
  - revert n. assert (G : forall m s, String.length s <= m -> forall n, s <> "" /\ digits_val 0 s = Some n -> decimal s n).
    2: { intro n. apply (G (String.length s)). lia. }
    induction m as [|m IH]; intros t L n [NE H].
    { destruct t; [congruence|cbn in L; lia]. }
    destruct (string_snoc t) as [-> |(r & a & ->)]; [congruence|]. rewrite digits_val_snoc in H.
    destruct (digits_val 0 r) as [v|] eqn:V; [|discriminate]. destruct (digit_val a) as [d|] eqn:A; [|discriminate].
    injection H as <-. destruct (digit_val_inv _ _ A) as [D ->]. destruct r as [|x r].
    + cbn in V. injection V as <-. apply decimal_one, D.
    + apply decimal_more; [|exact D]. apply IH; [|split; [discriminate|exact V]].
      rewrite length_append in L. cbn [String.length] in *. lia.
Qed.

Lemma digits_npy_iff : forall s seen acc n,
  digits_npy seen acc s = Some n <->
  exists ds, s = ds ++ ".npy" /\ digits_val acc ds = Some n /\ (seen = true \/ ds <> "").
Proof.
  intros s seen acc n. split.
  - revert seen acc. induction s as [|a s IH]; intros seen acc; cbn [digits_npy]; [discriminate|].
    destruct (digit_val a) as [d|] eqn:A.
    + intros H. apply IH in H. destruct H as (ds & -> & V & _). exists (String a ds). cbn [digits_val]. rewrite A.
      split; [reflexivity|]. split; [exact V|right; discriminate].
    + destruct seen; cbn [andb]; [|discriminate]. destruct (String.eqb_spec (String a s) ".npy") as [E|]; [|discriminate].
      intros H. injection H as <-. exists "". rewrite E. auto.
  - intros (ds & -> & V & O). apply digits_npy_app; assumption.
Qed.

Lemma prefix_inv : forall p s, prefix p s = true -> exists r, s = p ++ r.
Proof.
  induction p as [|a p IH]; intros s H; [exists s; reflexivity|]. destruct s as [|b s]; [discriminate|]. cbn in H.
  destruct (ascii_dec a b) as [<-|]; [|discriminate]. destruct (IH s H) as [r ->]. exists r. reflexivity.
Qed.
Lemma prefix_app : forall p r, prefix p (p ++ r) = true.
Proof. induction p as [|a p IH]; intros r; [destruct r; reflexivity|]. cbn. destruct (ascii_dec a a); [apply IH|congruence]. Qed.

Lemma flow_number_iff : forall name t, flow_number name = Some t <-> exists ds, name = "flow_" ++ ds ++ ".npy" /\ decimal ds t.
Proof.
  intros name t. unfold flow_number. split.
  - destruct (prefix "flow_" name) eqn:P; [|discriminate]. destruct (prefix_inv _ _ P) as [r ->].
    change 5 with (String.length "flow_"). rewrite substring_drop by (rewrite (length_append "flow_"); lia).
    intros H. apply digits_npy_iff in H. destruct H as (ds & -> & V & [O|O]); [discriminate|]. exists ds.
    split; [reflexivity|]. apply decimal_val. auto.
  - intros (ds & -> & D). apply decimal_val in D. destruct D as [NE V]. rewrite prefix_app.
    change 5 with (String.length "flow_"). rewrite substring_drop by (rewrite (length_append "flow_"); lia).
    apply digits_npy_iff. exists ds. auto.
Qed.

(** ** The notation of integers *)

Lemma dec_nat_app : forall fuel n acc, n < fuel -> dec_nat fuel n acc = str_of_nat n ++ acc.
Proof.
  assert (G : forall n f g acc, n < f -> n < g -> dec_nat f n acc = dec_nat g n "" ++ acc).
  2: { intros fuel n acc H. apply G; lia. }
  induction n as [n IH] using (well_founded_induction lt_wf). intros f g acc F H.
  destruct f as [|f]; [lia|]. destruct g as [|g]; [lia|]. cbn [dec_nat].
  destruct (Nat.ltb_spec n 10); [reflexivity|].
  assert (n / 10 < n) by (apply Nat.div_lt; lia).
  rewrite (IH (n / 10) ltac:(lia) f (S (n / 10)) _ ltac:(lia) ltac:(lia)).
  rewrite (IH (n / 10) ltac:(lia) g (S (n / 10)) _ ltac:(lia) ltac:(lia)).
  rewrite app_assoc_s. reflexivity.
Qed.
Lemma str_of_nat_small : forall d, d < 10 -> str_of_nat d = String (digit_char d) "".
Proof. intros d D. unfold str_of_nat. cbn [dec_nat]. rewrite (proj2 (Nat.ltb_lt d 10) D), Nat.mod_small by lia. reflexivity. Qed.
Lemma str_of_nat_snoc : forall n d, 0 < n -> d < 10 -> str_of_nat (10 * n + d) = str_of_nat n ++ String (digit_char d) "".
Proof.
  intros n d N D. unfold str_of_nat at 1. cbn [dec_nat]. rewrite (proj2 (Nat.ltb_ge (10 * n + d) 10)) by lia.
  assert (M : (10 * n + d) mod 10 = d) by (rewrite Nat.mul_comm, Nat.add_comm, Nat.mod_add by lia; apply Nat.mod_small; lia).
  assert (Q : (10 * n + d) / 10 = n) by (rewrite Nat.mul_comm, Nat.add_comm, Nat.div_add by lia; rewrite Nat.div_small; lia).
  rewrite M, Q. apply dec_nat_app. lia.
Qed.

Lemma decimal_pos : forall s n, decimal s n -> (forall r, s = "0" ++ r -> r = "") -> n = 0 -> s = "0".
Proof.
  intros s n H. induction H as [d D|s n d H IH D]; intros Z E.
  - subst d. reflexivity.
  - assert (n = 0) by lia. assert (d = 0) by lia. subst. exfalso.
    assert (NE : s <> "") by (apply decimal_val in H; tauto).
    destruct (IH) as [].
    + intros r ->. specialize (Z (r ++ String (ascii_of_nat (48 + 0)) "")). cbn in Z. specialize (Z eq_refl).
      destruct r; discriminate.
    + reflexivity.
    + specialize (Z (String (ascii_of_nat (48 + 0)) "") eq_refl). discriminate.
Qed.

Lemma plain_unique : forall s n, plain_decimal s n -> s = str_of_nat n.
Proof.
  intros s n [H P]. induction H as [d D|s n d H IH D].
  - now rewrite str_of_nat_small.
  - assert (P' : forall r, s = "0" ++ r -> r = "").
    { intros r ->. specialize (P (r ++ String (ascii_of_nat (48 + d)) "")). cbn in P. specialize (P eq_refl). destruct r; discriminate. }
    destruct n as [|n].
    + pose proof (decimal_pos _ _ H P' eq_refl) as ->. specialize (P (String (ascii_of_nat (48 + d)) "") eq_refl). discriminate.
    + rewrite str_of_nat_snoc by lia. now rewrite <- (IH P').
Qed.

Lemma plain_str : forall n, plain_decimal (str_of_nat n) n.
Proof.
  intro n. induction n as [n IH] using (well_founded_induction lt_wf). destruct (Nat.lt_ge_cases n 10) as [L|L].
  - rewrite str_of_nat_small by exact L. split; [apply decimal_one, L|]. intros r E. injection E as _ <-. reflexivity.
  - assert (E : n = 10 * (n / 10) + n mod 10) by (apply Nat.div_mod; lia).
    assert (D : n mod 10 < 10) by (apply Nat.mod_upper_bound; lia).
    assert (LT : n / 10 < n) by (apply Nat.div_lt; lia).
    assert (P : 0 < n / 10) by (apply Nat.div_str_pos; lia).
    destruct (IH _ LT) as [I1 I2].
    replace (str_of_nat n) with (str_of_nat (n / 10) ++ String (digit_char (n mod 10)) "") by (rewrite <- str_of_nat_snoc by lia; now rewrite <- E).
    split.
    + rewrite E at 3. apply decimal_more; [exact I1|exact D].
    + generalize (digit_char (n mod 10)). intros c r R. exfalso. remember (str_of_nat (n / 10)) as q eqn:Q. destruct q as [|x q].
      * apply decimal_val in I1. tauto.
      * cbn [String.append] in R. injection R as -> R. specialize (I2 q eq_refl). subst q.
        apply decimal_val in I1. destruct I1 as [_ V]. change (Some 0 = Some (n / 10)) in V. revert P V. generalize (n / 10). intros k P V. injection V as V. lia.
Qed.

Lemma notation_iff : forall s z, notation_of s z <-> s = str_of_Z z.
Proof.
  intros s z. split.
  - intros [(n & -> & P)|(n & r & N & -> & -> & P)]; apply plain_unique in P; subst.
    + unfold str_of_Z. destruct (Z.of_nat n) eqn:E; [| |lia]; rewrite <- E, Nat2Z.id; reflexivity.
    + destruct n as [|n]; [lia|]. cbn [Z.of_nat Z.opp str_of_Z]. now rewrite SuccNat2Pos.id_succ.
  - intros ->. destruct z as [|p|p]; cbn [str_of_Z].
    + left. exists 0. split; [reflexivity|apply plain_str].
    + left. exists (Pos.to_nat p). split; [symmetry; apply positive_nat_Z|]. rewrite Z2Nat.inj_pos. apply plain_str.
    + right. exists (Pos.to_nat p), (str_of_nat (Pos.to_nat p)). split; [apply Pos2Nat.is_pos|].
      split; [rewrite positive_nat_Z; reflexivity|]. split; [reflexivity|apply plain_str].
Qed.

(** ** Directories *)

Lemma split_some : forall p h t, split_slash p = Some (h, t) <-> p = h ++ t /\ has_suffix h "/" /\ no_slash t = true.
Proof.
  intros p h t. split.
  - revert h t. induction p as [|a p IH]; intros h t; cbn [split_slash]; [discriminate|].
    destruct (split_slash p) as [[h' t']|] eqn:E.
    + intros H. injection H as <- <-. destruct (IH _ _ eq_refl) as (-> & [x ->] & N). split; [reflexivity|].
      split; [exists (String a x); reflexivity|exact N].
    + destruct (Ascii.eqb_spec a "/") as [->|]; [|discriminate]. intros H. injection H as <- <-. split; [reflexivity|].
      split; [exists ""; reflexivity|]. clear IH. induction p as [|b p IH]; [reflexivity|]. cbn [split_slash] in E. cbn [no_slash].
      destruct (split_slash p) as [[]|]; [discriminate|]. destruct (Ascii.eqb b "/"); [discriminate|]. apply IH. reflexivity.
  - intros (-> & [x ->] & N). rewrite app_assoc_s. apply split_join, N.
Qed.
Lemma split_none : forall p, split_slash p = None <-> no_slash p = true.
Proof.
  intro p. split; [|apply split_no_slash]. induction p as [|b p IH]; [reflexivity|]. cbn [split_slash no_slash]. intros E.
  destruct (split_slash p) as [[]|]; [discriminate|]. destruct (Ascii.eqb b "/"); [discriminate|]. apply IH. reflexivity.
Qed.

Lemma slashes_all : forall s, slashes s <-> s <> "" /\ all_slash s = true.
Proof.
  intro s. split.
  - intro H. induction H as [|s H [_ IH]]; [split; [discriminate|reflexivity]|]. split; [discriminate|]. cbn. exact IH.
  - induction s as [|a s IH]; intros [NE A]; [congruence|]. cbn [all_slash] in A. apply andb_prop in A. destruct A as [A1 A2].
    apply Ascii.eqb_eq in A1. subst a. destruct s as [|b s]; [apply slashes_one|]. apply (slashes_more (String b s)), IH.
    split; [discriminate|exact A2].
Qed.

Lemma rstrip_app : forall d s, all_slash s = true -> d <> "" -> ends_with d "/" = false -> rstrip_slash (d ++ s) = d /\ all_slash (d ++ s) = false.
Proof.
  intros d s A NE E. destruct (rstrip_no_end d NE E) as [H1 _].
  assert (H2 : all_slash (d ++ s) = false) by (rewrite all_slash_app, H1; reflexivity). split; [|exact H2].
  clear NE H2. induction d as [|a d IH]; [discriminate|]. cbn [ends_with] in E. apply orb_false_iff in E. destruct E as [E1 E2].
  cbn [String.append rstrip_slash]. change (String a (d ++ s)) with (String a d ++ s). rewrite all_slash_app, H1. cbn [andb].
  f_equal. destruct d as [|b d].
  - cbn. clear -A. destruct s as [|x s]; [reflexivity|]. cbn [rstrip_slash]. now rewrite A.
  - apply IH; [exact E2|]. destruct (rstrip_no_end (String b d) ltac:(discriminate) E2) as [H _]. exact H.
Qed.

Lemma slashes_end : forall s, slashes s -> ends_with s "/" = true.
Proof.
  intros s H. apply ends_with_spec. induction H as [|s H [x ->]]; [exists ""; reflexivity|]. exists ("/" ++ x). reflexivity.
Qed.

Lemma same_dir_join : forall h h' n, same_dir h h' -> h <> "" -> path_join (if all_slash h then h else rstrip_slash h) n = h' ++ n.
Proof.
  intros h h' n H NE. destruct H as [|s H|d s D E H].
  - congruence.
  - rewrite (proj2 (proj1 (slashes_all s) H)). unfold path_join. destruct s as [|a s]; [congruence|]. now rewrite (slashes_end _ H).
  - apply slashes_all in H. destruct H as [_ A].
    assert (F : ends_with d "/" = false).
    { destruct (ends_with d "/") eqn:F; [|reflexivity]. apply ends_with_spec in F. contradiction. }
    destruct (rstrip_app d s A D F) as [R1 R2]. rewrite R2, R1. unfold path_join. rewrite F. destruct d; [congruence|].
    now rewrite app_assoc_s.
Qed.

Lemma strip_slashes : forall h, h <> "" -> slashes h \/ exists d s, h = d ++ s /\ d <> "" /\ ~ has_suffix d "/" /\ (s = "" \/ slashes s).
Proof.
  assert (G : forall m h, String.length h <= m -> h <> "" -> slashes h \/ exists d s, h = d ++ s /\ d <> "" /\ ~ has_suffix d "/" /\ (s = "" \/ slashes s)).
  2: { intros h. apply (G (String.length h)). lia. }
  induction m as [|m IH]; intros h L NE; [destruct h; [congruence|cbn in L; lia]|].
  destruct (string_snoc h) as [-> |(t & a & ->)]; [congruence|]. destruct (Ascii.eqb_spec a "/") as [->|A].
  - destruct t as [|b t]; [left; apply slashes_one|]. destruct (IH (String b t)) as [S|(d & s & -> & D & E & S)].
    + rewrite length_append in L. cbn [String.length] in *. lia.
    + discriminate.
    + left. apply slashes_all. apply slashes_all in S. destruct S as [_ S]. split; [discriminate|]. rewrite all_slash_app, S. reflexivity.
    + right. exists d, (s ++ "/"). rewrite app_assoc_s. split; [reflexivity|]. split; [exact D|]. split; [exact E|]. right.
      apply slashes_all. split; [destruct s; discriminate|]. rewrite all_slash_app. destruct S as [-> |S]; [reflexivity|].
      apply slashes_all in S. destruct S as [_ ->]. reflexivity.
  - right. exists (t ++ String a ""), "". rewrite app_nil_s. split; [reflexivity|]. split; [destruct t; discriminate|]. split; [|left; reflexivity].
    intros [x E]. revert x E. clear -A. induction t as [|b t IH]; intros x E.
    + destruct x as [|y x]; [injection E; intros; subst; congruence|]. cbn in E. injection E as _ E. destruct x; discriminate.
    + destruct x as [|y x]; cbn in E; [injection E as _ E; destruct t; discriminate|]. injection E as _ E. apply (IH x E).
Qed.
Lemma same_dir_total : forall h, h = "" \/ has_suffix h "/" -> exists h', same_dir h h'.
Proof.
  intros h [-> |S]; [exists ""; apply same_none|]. destruct (string_dec h "") as [->|NE]; [exists ""; apply same_none|].
  destruct (strip_slashes h NE) as [H|(d & s & -> & D & E & [-> |H])].
  - exists h. apply same_root, H.
  - rewrite app_nil_s in S. contradiction.
  - exists (d ++ "/"). apply same_named; assumption.
Qed.

(** ** Flow files and their pictures *)

Lemma decimal_no_slash : forall s n, decimal s n -> no_slash s = true.
Proof.
  intros s n H. induction H as [d D|s n d H IH D].
  - cbn [no_slash]. change (ascii_of_nat (48 + d)) with (digit_char d). now rewrite digit_no_slash.
  - rewrite no_slash_app, IH. cbn [no_slash]. change (ascii_of_nat (48 + d)) with (digit_char d). now rewrite digit_no_slash.
Qed.

Lemma flow_name_split : forall p dir t, flow_name p dir t -> exists name, no_slash name = true /\ flow_number name = Some t /\
  (dir = "" /\ split_slash p = None /\ p = name \/ dir <> "" /\ split_slash p = Some (dir, name)).
Proof.
  intros p dir t [D (ds & -> & H)]. exists ("flow_" ++ ds ++ ".npy").
  assert (N : no_slash ("flow_" ++ ds ++ ".npy") = true) by (rewrite !no_slash_app, (decimal_no_slash _ _ H); reflexivity).
  split; [exact N|]. split; [apply flow_number_iff; exists ds; auto|].
  destruct (string_dec dir "") as [->|NE]; [left|right].
  - split; [reflexivity|]. split; [apply split_none, N|reflexivity].
  - split; [exact NE|]. apply split_some. split; [reflexivity|]. split; [|exact N]. destruct D as [D|D]; [contradiction|exact D].
Qed.

Lemma numbered_iff : forall p t, numbered p t <-> flow_number (basename p) = Some t.
Proof.
  intros p t. unfold basename. split.
  - intros [dir H]. destruct (flow_name_split _ _ _ H) as (name & N & F & [(_ & -> & ->)|(_ & ->)]); exact F.
  - destruct (split_slash p) as [[h n]|] eqn:E; intros F; apply flow_number_iff in F; destruct F as (ds & -> & D).
    + apply split_some in E. destruct E as (-> & S & _). exists h. split; [right; exact S|]. exists ds. auto.
    + exists "". split; [left; reflexivity|]. exists ds. auto.
Qed.

Lemma picture_iff : forall p t z q, picture p t z q <-> flow_number (basename p) = Some t /\ q = img_path p z.
Proof.
  intros p t z q. split.
  - intros (dir & dir' & zs & F & S & Z & ->). apply notation_iff in Z. subst zs. split; [apply numbered_iff; exists dir; exact F|].
    unfold img_path, dirname. destruct (flow_name_split _ _ _ F) as (name & _ & _ & [(-> & -> & _)|(NE & ->)]).
    + inversion S as [E|s H E|d s D _ H E E']; subst; [reflexivity| |].
      * inversion H.
      * destruct d; [congruence|discriminate].
    + symmetry. apply same_dir_join; assumption.
  - intros [F ->]. apply numbered_iff in F. destruct F as [dir F]. destruct (same_dir_total dir (proj1 F)) as [dir' S].
    exists dir, dir', (str_of_Z z). split; [exact F|]. split; [exact S|]. split; [apply notation_iff; reflexivity|].
    unfold img_path, dirname. destruct (flow_name_split _ _ _ F) as (name & _ & _ & [(-> & -> & _)|(NE & ->)]).
    + inversion S as [E|s H E|d s D _ H E E']; subst; [reflexivity| |].
      * inversion H.
      * destruct d; [congruence|discriminate].
    + apply same_dir_join; assumption.
Qed.

Lemma has_images_iff : forall w p, has_images w p <-> exists t, flow_number (basename p) = Some t /\
  fs_isfile (w_fs w) (img_path p (Z.of_nat t - 1)) = true /\ fs_isfile (w_fs w) (img_path p (Z.of_nat t)) = true.
Proof.
  intros w p. split.
  - intros (t & q1 & q2 & P1 & P2 & H). apply picture_iff in P1, P2. destruct P1 as [F ->], P2 as [_ ->]. exists t. tauto.
  - intros (t & F & H). exists t, (img_path p (Z.of_nat t - 1)), (img_path p (Z.of_nat t)). rewrite !picture_iff. tauto.
Qed.
Lemma lacks_images_iff : forall w p, lacks_images w p <-> exists t, flow_number (basename p) = Some t /\
  (fs_isfile (w_fs w) (img_path p (Z.of_nat t - 1)) = false \/ fs_isfile (w_fs w) (img_path p (Z.of_nat t)) = false).
Proof.
  intros w p. split.
  - intros (t & q1 & q2 & P1 & P2 & H). apply picture_iff in P1, P2. destruct P1 as [F ->], P2 as [_ ->]. exists t. tauto.
  - intros (t & F & H). exists t, (img_path p (Z.of_nat t - 1)), (img_path p (Z.of_nat t)). rewrite !picture_iff. tauto.
Qed.
