From Coq Require Import List Arith String Bool Ascii Lia.
From Verif Require Import Prelude Model.Base Model.Scripts Spec.ScriptsSpec Spec.SplitNamesSpec Proofs.SanityText Proofs.ScriptsText Proofs.ScriptsSplit.
Import ListNotations.
Local Open Scope string_scope.
Local Open Scope nat_scope.

Lemma is_digit_spec : forall a, is_digit a = true <-> decimal_digit a.
Proof.
  intros a. unfold is_digit, decimal_digit. generalize (nat_of_ascii a) as n. intros n.
  rewrite andb_true_iff, !Nat.leb_le. cbn [In]. lia.
Qed.

Definition all_digits (s : string) : Prop := forall a, mem a s -> decimal_digit a.
Definition no_digit_first (s : string) : Prop := forall a r, s = String a r -> ~ decimal_digit a.

Lemma digits_parts : forall s d t, digits s = (d, t) -> s = d ++ t /\ all_digits d /\ no_digit_first t.
Proof.
  induction s as [|a s IH]; intros d t H; cbn [digits] in H.
  - inversion H; subst. split; [reflexivity|]. split; [intros b []|intros b r E; discriminate].
  - destruct (is_digit a) eqn:D.
    + destruct (digits s) as [d' t'] eqn:E. inversion H; subst. destruct (IH d' t eq_refl) as (-> & A & N).
      split; [reflexivity|]. split; [|exact N]. intros b [->|M]; [now apply is_digit_spec|now apply A].
    + inversion H; subst. split; [reflexivity|]. split; [intros b []|]. intros b r E. inversion E; subst.
      rewrite <- is_digit_spec. congruence.
Qed.
Lemma digits_app : forall d t, all_digits d -> no_digit_first t -> digits (d ++ t) = (d, t).
Proof.
  induction d as [|a d IH]; intros t A N; cbn [append].
  - destruct t as [|b t]; [reflexivity|]. cbn [digits]. specialize (N b t eq_refl). rewrite <- is_digit_spec in N.
    destruct (is_digit b); [congruence|reflexivity].
  - cbn [digits]. assert (is_digit a = true) as -> by (apply is_digit_spec, A; now left).
    rewrite IH; [reflexivity| |exact N]. intros b M. apply A. now right.
Qed.

Lemma match_re_0 : forall a s, a <> "_"%char -> match_re (String a s) = None.
Proof. intros [[][][][][][][][]] s N; first [reflexivity | exfalso; apply N; reflexivity]. Qed.
Lemma match_re_1 : forall a s, a <> "R"%char -> match_re (String "_" (String a s)) = None.
Proof. intros [[][][][][][][][]] s N; first [reflexivity | exfalso; apply N; reflexivity]. Qed.
Lemma match_re_2 : forall a s, a <> "e"%char -> match_re (String "_" (String "R" (String a s))) = None.
Proof. intros [[][][][][][][][]] s N; first [reflexivity | exfalso; apply N; reflexivity]. Qed.
Lemma match_re_3 : forall r, match_re ("_Re" ++ r) =
  match digits r with
  | (String a d, String b _) => if Ascii.eqb b "_" then Some ("Re" ++ String a d) else None
  | _ => None
  end.
Proof.
  intros r. cbn [append match_re]. destruct (digits r) as [[|a d] [|b t]]; try reflexivity.
  destruct b as [[][][][][][][][]]; reflexivity.
Qed.

Lemma under_no_digit : forall q, no_digit_first ("_" ++ q).
Proof. intros q a r E. inversion E; subst. unfold decimal_digit. cbn. lia. Qed.

Lemma match_re_spec : forall s g, match_re s = Some g <-> exists ds q, reynolds_at s "" ds q /\ g = "Re" ++ ds.
Proof.
  intros s g. split.
  - intros H. destruct s as [|a0 s]; [discriminate|]. destruct (ascii_dec a0 "_") as [->|N]; [|rewrite match_re_0 in H by assumption; discriminate].
    destruct s as [|a1 s]; [discriminate|]. destruct (ascii_dec a1 "R") as [->|N]; [|rewrite match_re_1 in H by assumption; discriminate].
    destruct s as [|a2 s]; [discriminate|]. destruct (ascii_dec a2 "e") as [->|N]; [|rewrite match_re_2 in H by assumption; discriminate].
    change (String "_" (String "R" (String "e" s))) with ("_Re" ++ s) in *. rewrite match_re_3 in H.
    destruct (digits s) as [d t] eqn:D. destruct (digits_parts _ _ _ D) as (-> & A & _).
    destruct d as [|a d]; [discriminate|]. destruct t as [|b t]; [discriminate|].
    destruct (Ascii.eqb_spec b "_") as [->|N]; [|discriminate]. inversion H; subst. exists (String a d), t.
    split; [|reflexivity]. split; [reflexivity|]. split; [discriminate|exact A].
  - intros (ds & q & [-> [N A]] & ->). change ("" ++ "_Re" ++ ds ++ "_" ++ q) with ("_Re" ++ (ds ++ "_" ++ q)).
    rewrite match_re_3, digits_app; [|exact A|apply under_no_digit]. destruct ds as [|a d]; [congruence|]. reflexivity.
Qed.

Lemma reynolds_tail : forall a s p ds q, reynolds_at (String a s) (String a p) ds q <-> reynolds_at s p ds q.
Proof.
  intros a s p ds q. unfold reynolds_at. split; intros [E N]; (split; [|exact N]).
  - cbn [append] in E. injection E as E. exact E.
  - rewrite E. reflexivity.
Qed.

Lemma search_re_some : forall s p ds q, reynolds_at s p ds q -> search_re s <> None.
Proof.
  induction s as [|a s IH]; intros p ds q R.
    - destruct R as [R _]. destruct p; discriminate.
    - change (search_re (String a s)) with (match match_re (String a s) with Some g => Some g | None => search_re s end).
      destruct (match_re (String a s)) as [h|] eqn:M; [discriminate|]. destruct p as [|b p].
      + assert (M' : match_re (String a s) = Some ("Re" ++ ds)) by (apply match_re_spec; eauto). congruence.
      + assert (b = a) as -> by (destruct R as [R _]; now inversion R). rewrite reynolds_tail in R. exact (IH _ _ _ R).
Qed.

Lemma search_re_spec : forall s g, search_re s = Some g <-> reynolds s g.
Proof.
  assert (X : forall s g, search_re s = Some g -> reynolds s g).
  { induction s as [|a s IH]; intros g H; [discriminate|].
    change (search_re (String a s)) with (match match_re (String a s) with Some g => Some g | None => search_re s end) in H.
    destruct (match_re (String a s)) as [h|] eqn:M.
    - inversion H; subst h. apply match_re_spec in M. destruct M as (ds & q & R & ->). exists "", ds, q.
      split; [exact R|]. split; [reflexivity|]. intros. cbn [String.length]. lia.
    - destruct (IH g H) as (p & ds & q & R & -> & L). exists (String a p), ds, q. split; [now apply reynolds_tail|].
      split; [reflexivity|]. intros p' ds' q' R'. destruct p' as [|b p'].
      + exfalso. assert (M' : match_re (String a s) = Some ("Re" ++ ds')) by (apply match_re_spec; eauto). congruence.
      + assert (b = a) as -> by (destruct R' as [R' _]; now inversion R'). rewrite reynolds_tail in R'. specialize (L _ _ _ R').
        cbn [String.length]. lia. }
  assert (U : forall s g g', reynolds s g -> reynolds s g' -> g = g').
  { intros s g g' (p & ds & q & R & -> & L) (p' & ds' & q' & R' & -> & L').
    assert (E : String.length p = String.length p') by (specialize (L _ _ _ R'); specialize (L' _ _ _ R); lia).
    clear L L'. revert p p' R R' E. induction s as [|a s IH]; intros p p' R R' E.
    - destruct R as [R _]. destruct p; discriminate.
    - destruct p as [|b p], p' as [|b' p']; try discriminate.
      + assert (M : match_re (String a s) = Some ("Re" ++ ds)) by (apply match_re_spec; eauto).
        assert (M' : match_re (String a s) = Some ("Re" ++ ds')) by (apply match_re_spec; eauto). congruence.
      + assert (b = a) as -> by (destruct R as [R _]; now inversion R). assert (b' = a) as -> by (destruct R' as [R' _]; now inversion R').
        rewrite reynolds_tail in R, R'. inversion E. exact (IH p p' R R' ltac:(assumption)). }
  intros s g. split; [apply X|]. intros R. destruct (search_re s) as [h|] eqn:H.
  - apply X in H. now rewrite (U _ _ _ H R).
  - exfalso. destruct R as (p & ds & q & R & _). exact (search_re_some _ _ _ _ R H).
Qed.

(** ** Stems *)

Lemma dot_prefix : forall a s, a <> "."%char -> prefix "." (String a s) = false.
Proof. intros a s N. cbn [prefix]. destruct (ascii_dec "." a) as [E|E]; [congruence|reflexivity]. Qed.
Lemma before_last_no_dot : forall s, ~ mem "." s -> before_last "." s = None.
Proof.
  induction s as [|a s IH]; intros N; [reflexivity|]. cbn [before_last]. rewrite IH by (intros M; apply N; now right).
  rewrite dot_prefix; [reflexivity|]. intros ->. apply N. now left.
Qed.
Lemma before_last_dot : forall x e, ~ mem "." e -> before_last "." (x ++ "." ++ e) = Some x.
Proof.
  induction x as [|a x IH]; intros e N; [|cbn [append before_last]; change (String "." e) with ("." ++ e); now rewrite IH].
  change ("" ++ "." ++ e) with (String "." e). cbn [before_last]. rewrite before_last_no_dot by exact N. destruct e; reflexivity.
Qed.
Lemma app_inv_s : forall x a b, x ++ a = x ++ b -> a = b.
Proof. induction x as [|c x IH]; intros a b E; [exact E|]. inversion E. now apply IH. Qed.

Lemma name_stem_of : forall n x, n <> "" -> stem_of n x -> name_stem n = x.
Proof.
  intros n x NE [(e & -> & X & E & N) | [-> [N | [(e & -> & N) | (y & ->)]]]]; unfold name_stem.
  - rewrite before_last_dot by exact N. destruct x as [|a x]; [congruence|].
    destruct (String.eqb_spec (String a x ++ "." ++ e) (String a x ++ ".")) as [K|_]; [|reflexivity].
    apply app_inv_s in K. inversion K. congruence.
  - now rewrite before_last_no_dot.
  - change ("." ++ e) with ("" ++ "." ++ e). rewrite before_last_dot by exact N. reflexivity.
  - change (y ++ ".") with (y ++ "." ++ ""). rewrite before_last_dot by (intros []). destruct y as [|a y]; [reflexivity|].
    change ("." ++ "") with ".". now rewrite String.eqb_refl.
Qed.

Lemma canonical_plain : forall d n x r, directory d -> word d -> word n -> slash_free n -> sample_name n -> n <> "" -> n <> "." ->
  columns r -> stem_of n x -> canonical (d ++ n ++ r) = x ++ ".mat".
Proof.
  intros d n x r D Wd Wn Sn MN N1 N2 Cr ST. unfold canonical.
  replace (d ++ n ++ r) with ((d ++ n) ++ r) by apply SanityText.app_assoc_s.
  rewrite first_token_of; [|intros a M; rewrite mem_app in M; destruct M as [M|M]; [apply Wd|apply Wn]; exact M|exact Cr].
  rewrite path_name_of by assumption.
  rewrite (before_first_absent "_img1") by (apply MN; left; reflexivity). rewrite (before_first_absent "_img2") by (apply MN; right; left; reflexivity).
  rewrite (before_first_absent "_flow") by (apply MN; right; right; reflexivity). now rewrite (name_stem_of n x N1 ST).
Qed.

Lemma mem_dec_s : forall a s, {mem a s} + {~ mem a s}.
Proof.
  intros a; induction s as [|b s [IH|IH]]; [right; intros []|left; now right|].
  destruct (ascii_dec a b) as [E|E]; [left; now left|right; intros [M|M]; contradiction].
Qed.
Lemma stem_total : forall n, exists x, stem_of n x.
Proof.
  intros n. destruct (mem_dec_s "." n) as [M|M]; [|exists n; right; auto].
  assert (L : exists x e, n = x ++ "." ++ e /\ ~ mem "." e).
  { clear -M. induction n as [|a n IH]; [destruct M|]. destruct (mem_dec_s "." n) as [M'|M'].
    - destruct (IH M') as (x & e & -> & N). exists (String a x), e. split; [reflexivity|exact N].
    - destruct M as [<-|M]; [|contradiction]. exists "", n. split; [reflexivity|exact M']. }
  destruct L as (x & e & -> & N). destruct x as [|a x].
  - eexists. right. split; [reflexivity|]. right. left. exists e. split; [reflexivity|exact N].
  - destruct e as [|b e].
    + eexists. right. split; [reflexivity|]. right. right. now exists (String a x).
    + exists (String a x). left. exists (String b e). repeat split; try discriminate. exact N.
Qed.
