(** Lists in text files, names of samples. *)
From Coq Require Import List Arith ZArith QArith String Bool Ascii Lia Permutation.
From Verif Require Import Prelude Model.Base Model.Files Model.Loaders Model.Sanity Model.Scripts
  Spec.SanitySpec Spec.ScriptsSpec Proofs.SanityText.
Import ListNotations.
Local Open Scope string_scope.
Local Open Scope nat_scope.

(** ** Characters *)

Lemma mem_app : forall a s t, mem a (s ++ t) <-> mem a s \/ mem a t.
Proof. intros a s t; induction s as [|b s IH]; cbn [append mem]; [tauto|]. rewrite IH. tauto. Qed.

Lemma is_space_blank : forall a, is_space a = true <-> blank a.
Proof.
  intros a. unfold is_space, blank. generalize (nat_of_ascii a) as n. intros n. cbn [In].
  rewrite orb_true_iff, !andb_true_iff, !Nat.leb_le. lia.
Qed.
Lemma not_space : forall a, is_space a = false <-> ~ blank a.
Proof.
  intros a. rewrite <- is_space_blank. destruct (is_space a); split; intros H; auto; congruence.
Qed.

Lemma one_line_mem : forall s, one_line s <-> ~ mem line_feed s.
Proof.
  induction s as [|b s IH].
  - split; [intros _ []|]. intros _ i. destruct i; discriminate.
  - split.
    + intros H [E|M]; [apply (H 0); cbn; rewrite <- E; reflexivity|]. apply IH in M; auto.
      intros i E. apply (H (S i)). exact E.
    + intros H i. destruct i as [|i]; cbn [String.get].
      * intros E. inversion E; subst. apply H. left. reflexivity.
      * apply IH. intros M. apply H. right. exact M.
Qed.

Lemma text_lines_lines : forall s, text_lines s = lines s.
Proof. induction s as [|a s IH]; [reflexivity|]. cbn [text_lines lines]. rewrite IH. reflexivity. Qed.

(** ** Stripping *)

Lemma lstrip_pad : forall p s, padding p -> lstrip (p ++ s) = lstrip s.
Proof.
  induction p as [|a p IH]; intros s H; [reflexivity|]. cbn [append lstrip].
  assert (E : is_space a = true) by (apply is_space_blank, H; left; reflexivity). rewrite E.
  apply IH. intros b M. apply H. right. exact M.
Qed.

Lemma rstrip_nil_pad : forall p, padding p -> rstrip p = "".
Proof.
  induction p as [|a p IH]; intros H; [reflexivity|]. cbn [rstrip]. rewrite IH by (intros b M; apply H; right; exact M).
  assert (E : is_space a = true) by (apply is_space_blank, H; left; reflexivity). rewrite E. reflexivity.
Qed.

Lemma rstrip_pad : forall s p, padding p -> rstrip (s ++ p) = rstrip s.
Proof.
  induction s as [|a s IH]; intros p H; cbn [append]; [apply rstrip_nil_pad; exact H|]. cbn [rstrip]. rewrite IH by exact H. reflexivity.
Qed.

Lemma rstrip_item : forall s, (forall r a, s = r ++ String a "" -> ~ blank a) -> rstrip s = s.
Proof.
  induction s as [|a s IH]; intros H; [reflexivity|]. cbn [rstrip].
  rewrite IH by (intros r b E; apply (H (String a r) b); rewrite E; reflexivity).
  destruct s as [|b s]; [|reflexivity]. assert (E : is_space a = false) by (apply not_space, (H "" a); reflexivity).
  rewrite E. reflexivity.
Qed.

Lemma strip_padded : forall p i q, padding p -> padding q -> item i -> strip (p ++ i ++ q) = i.
Proof.
  intros p i q Hp Hq (H1 & H2 & _). unfold strip. rewrite lstrip_pad by exact Hp.
  destruct i as [|a i].
  - cbn [append]. rewrite <- (app_empty_s q), lstrip_pad by exact Hq. reflexivity.
  - cbn [append lstrip]. assert (E : is_space a = false) by (apply not_space, (H1 a i); reflexivity). rewrite E.
    change (String a (i ++ q)) with (String a i ++ q). rewrite rstrip_pad by exact Hq. apply rstrip_item. exact H2.
Qed.

Lemma lstrip_mem : forall s a, mem a (lstrip s) -> mem a s.
Proof.
  induction s as [|b s IH]; intros a M; [exact M|]. cbn [lstrip] in M. destruct (is_space b); [right; apply IH; exact M|exact M].
Qed.
Lemma rstrip_mem : forall s a, mem a (rstrip s) -> mem a s.
Proof.
  induction s as [|b s IH]; intros a M; [exact M|]. cbn [rstrip] in M. destruct (rstrip s) as [|c r] eqn:E.
  - destruct (is_space b); [destruct M|]. destruct M as [->|[]]. left. reflexivity.
  - destruct M as [->|M]; [left; reflexivity|right; apply IH; exact M].
Qed.

Lemma lstrip_first : forall s a r, lstrip s = String a r -> ~ blank a.
Proof.
  induction s as [|b s IH]; intros a r E; [discriminate|]. cbn [lstrip] in E. destruct (is_space b) eqn:B; [apply (IH a r E)|].
  inversion E; subst. apply not_space. exact B.
Qed.
Lemma rstrip_last : forall s r a, rstrip s = r ++ String a "" -> ~ blank a.
Proof.
  induction s as [|b s IH]; intros r a E; [destruct r; discriminate|]. cbn [rstrip] in E. destruct (rstrip s) as [|c t] eqn:R.
  - destruct (is_space b) eqn:B; [destruct r; discriminate|]. destruct r as [|x r]; cbn in E; inversion E; subst; [apply not_space; exact B|].
    destruct r; discriminate.
  - destruct r as [|x r]; cbn [append] in E; [inversion E|]. inversion E; subst. apply (IH r a). congruence.
Qed.
Lemma rstrip_first : forall s a r, rstrip s = String a r -> exists r', s = String a r'.
Proof.
  intros [|b s] a r E; [discriminate|]. cbn [rstrip] in E. destruct (rstrip s); [destruct (is_space b); [discriminate|]|]; inversion E; eauto.
Qed.

Lemma strip_item : forall s, ~ mem line_feed s -> item (strip s).
Proof.
  intros s N. unfold strip. split; [|split].
  - intros a r E. apply rstrip_first in E. destruct E as [r' E]. eapply lstrip_first; eauto.
  - intros r a E. eapply rstrip_last; eauto.
  - intros M. apply N. apply lstrip_mem, rstrip_mem. exact M.
Qed.

Lemma lines_one : forall s l, In l (lines s) -> ~ mem line_feed l.
Proof.
  induction s as [|a s IH]; intros l I; [destruct I|]. cbn [lines] in I.
  destruct (Ascii.eqb_spec a (ascii_of_nat 10)) as [->|N].
  - destruct I as [<-|I]; [intros []|apply IH; exact I].
  - destruct (lines s) as [|x r].
    + destruct I as [<-|[]]. intros [E|[]]. apply N. symmetry. exact E.
    + destruct I as [<-|I]; [|apply IH; right; exact I].
      intros [E|M]; [apply N; symmetry; exact E|]. apply (IH x (or_introl eq_refl) M).
Qed.

Lemma nonempty_spec : forall s, nonempty s = true <-> s <> "".
Proof. intros s. unfold nonempty. destruct (String.eqb_spec s ""); cbn [negb]; split; intros; congruence. Qed.

(** ** Lists *)

Lemma read_items : forall text i, In i (read_list text) -> item i /\ i <> "".
Proof.
  intros text i I. unfold read_list in I. apply filter_In in I. destruct I as [I N]. apply nonempty_spec in N. split; [|exact N].
  apply in_map_iff in I. destruct I as (l & <- & I). rewrite text_lines_lines in I. apply strip_item. eapply lines_one; eauto.
Qed.

Lemma read_padded : forall l, (forall p i q, In (p, i, q) l -> padding p /\ padding q /\ item i) ->
  read_list (padded_lines l) = filter nonempty (map (fun x => snd (fst x)) l).
Proof.
  intros l H. unfold read_list, padded_lines. rewrite text_lines_lines.
  replace (map (fun x : string * string * string => fst (fst x) ++ snd (fst x) ++ snd x ++ String line_feed "") l)
    with (map (fun s => s ++ newline) (map (fun x => fst (fst x) ++ snd (fst x) ++ snd x) l)).
  2:{ rewrite map_map. apply map_ext. intros x. unfold newline, line_feed. rewrite !app_assoc_s. reflexivity. }
  rewrite lines_concat.
  - f_equal. rewrite map_map. apply map_ext_in. intros [[p i] q] I. cbn [fst snd].
    destruct (H p i q I) as (Hp & Hq & Hi). apply strip_padded; assumption.
  - intros s I. apply in_map_iff in I. destruct I as ([[p i] q] & <- & I). cbn [fst snd].
    destruct (H p i q I) as (Hp & Hq & (_ & _ & Hi)). apply one_line_mem. rewrite !mem_app.
    intros [M|[M|M]]; [apply (Hp _ M); reflexivity|contradiction|apply (Hq _ M); reflexivity].
Qed.

Lemma filter_all : forall {A} (f : A -> bool) l, (forall x, In x l -> f x = true) -> filter f l = l.
Proof.
  intros A f l; induction l as [|x l IH]; intros H; [reflexivity|]. cbn [filter]. rewrite (H x (or_introl eq_refl)), IH; [reflexivity|].
  intros y I. apply H. right. exact I.
Qed.

Lemma read_written : forall l, (forall i, In i l -> item i /\ i <> "") -> read_list (write_list l) = l.
Proof.
  intros l H. unfold write_list.
  replace (map (fun i => i ++ String (ascii_of_nat 10) "") l)
    with (map (fun x : string * string * string => fst (fst x) ++ snd (fst x) ++ snd x ++ String line_feed "") (map (fun i => ("", i, "")) l)).
  2:{ rewrite map_map. apply map_ext. intros i. reflexivity. }
  fold (padded_lines (map (fun i => ("", i, "")) l)). rewrite read_padded.
  - rewrite map_map. cbn [fst snd]. rewrite map_id. apply filter_all. intros i I. apply nonempty_spec, H, I.
  - intros p i q I. apply in_map_iff in I. destruct I as (j & E & I). inversion E; subst.
    split; [intros a []|]. split; [intros a []|]. apply H, I.
Qed.

Lemma sublist_back : forall text l, (forall i, In i l -> In i (read_list text)) -> read_list (write_list l) = l.
Proof. intros text l H. apply read_written. intros i I. apply (read_items text), H, I. Qed.

(** ** Markers *)

Definition underscore_free (s : string) : Prop := ~ mem "_"%char s.

Lemma prefix_under : forall m s z, underscore_free m -> prefix m (s ++ String "_" z) = true -> prefix m s = true.
Proof.
  induction m as [|a m IH]; intros s z U P; [apply prefix_nil|]. destruct s as [|b s]; cbn [append] in P; rewrite prefix_cons in P.
  - destruct (ascii_dec a "_") as [->|]; [|discriminate]. exfalso. apply U. left. reflexivity.
  - rewrite prefix_cons. destruct (ascii_dec a b); [|discriminate]. apply (IH s z); [|exact P]. intros M. apply U. right. exact M.
Qed.

Lemma prefix_app : forall m s t, prefix m s = true -> prefix m (s ++ t) = true.
Proof.
  induction m as [|a m IH]; intros s t P; [apply prefix_nil|]. destruct s as [|b s]; [discriminate|]. cbn [append].
  rewrite prefix_cons in *. destruct (ascii_dec a b); [apply IH; exact P|discriminate].
Qed.

Lemma before_first_eq : forall m s, before_first m s =
  if prefix m s then Some "" else match s with "" => None | String a r => option_map (String a) (before_first m r) end.
Proof. intros m [|a s]; reflexivity. Qed.

Lemma before_first_app : forall m s z, underscore_free m ->
  before_first (String "_" m) (s ++ String "_" z) =
  match before_first (String "_" m) s with
  | Some p => Some p
  | None => option_map (append s) (before_first (String "_" m) (String "_" z))
  end.
Proof.
  intros m s z U; induction s as [|a s IH].
  - cbn [append]. change (before_first (String "_" m) "") with (@None string). cbn [option_map].
    destruct (before_first (String "_" m) (String "_" z)); reflexivity.
  - cbn [append]. rewrite before_first_eq, (before_first_eq _ (String a s)).
    destruct (prefix (String "_" m) (String a s)) eqn:P.
    + apply (prefix_app _ _ (String "_" z)) in P. cbn [append] in P. rewrite P. reflexivity.
    + assert (P' : prefix (String "_" m) (String a (s ++ String "_" z)) = false).
      { destruct (prefix (String "_" m) (String a (s ++ String "_" z))) eqn:P'; [|reflexivity].
        rewrite prefix_cons in *. destruct (ascii_dec "_" a); [|congruence]. apply prefix_under in P'; [congruence|exact U]. }
      rewrite P', IH. destruct (before_first (String "_" m) s); [reflexivity|].
      destruct (before_first (String "_" m) (String "_" z)); reflexivity.
Qed.

Lemma before_first_none : forall m s, underscore_free s -> before_first (String "_" m) s = None.
Proof.
  intros m s; induction s as [|a s IH]; intros U; [reflexivity|]. rewrite before_first_eq, prefix_cons.
  destruct (ascii_dec "_" a) as [<-|N]; [exfalso; apply U; left; reflexivity|].
  rewrite IH; [reflexivity|]. intros M. apply U. right. exact M.
Qed.

Lemma prefix_occurs : forall m s, prefix m s = true -> exists b, s = m ++ b.
Proof.
  induction m as [|a m IH]; intros s P; [exists s; reflexivity|]. destruct s as [|b s]; [discriminate|]. rewrite prefix_cons in P.
  destruct (ascii_dec a b) as [<-|]; [|discriminate]. destruct (IH s P) as [r ->]. exists r. reflexivity.
Qed.

Lemma before_first_absent : forall m s, ~ occurs m s -> before_first m s = None.
Proof.
  intros m s; induction s as [|a s IH]; intros N.
  - rewrite before_first_eq. destruct (prefix m "") eqn:P; [|reflexivity]. exfalso. apply N. apply prefix_occurs in P.
    destruct P as [b E]. exists "", b. exact E.
  - rewrite before_first_eq. destruct (prefix m (String a s)) eqn:P.
    + exfalso. apply N. apply prefix_occurs in P. destruct P as [b E]. exists "", b. exact E.
    + rewrite IH; [reflexivity|]. intros (x & b & E). apply N. exists (String a x), b. cbn [append]. rewrite E. reflexivity.
Qed.

Lemma before_last_none : forall m s, underscore_free s -> before_last (String "_" m) s = None.
Proof.
  intros m s; induction s as [|a s IH]; intros U; [reflexivity|]. cbn [before_last].
  rewrite IH by (intros M; apply U; right; exact M). rewrite prefix_cons.
  destruct (ascii_dec "_" a) as [<-|N]; [exfalso; apply U; left; reflexivity|reflexivity].
Qed.

Lemma prefix_self : forall m s, prefix m (m ++ s) = true.
Proof. induction m as [|a m IH]; intros s; [apply prefix_nil|]. cbn [append]. rewrite prefix_cons. destruct (ascii_dec a a); [apply IH|congruence]. Qed.

Lemma before_last_app : forall m x e, underscore_free m -> underscore_free e ->
  before_last (String "_" m) (x ++ String "_" m ++ e) = Some x.
Proof.
  intros m x e Um Ue; induction x as [|a x IH].
  - cbn [append before_last]. rewrite before_last_none.
    + change (String "_" (m ++ e)) with (String "_" m ++ e). rewrite prefix_self. reflexivity.
    + intros M. apply mem_app in M. unfold underscore_free in *. tauto.
  - change (String a x ++ String "_" m ++ e) with (String a (x ++ String "_" m ++ e)).
    cbn [before_last]. rewrite IH. reflexivity.
Qed.

(** ** Paths *)

Definition slash_free (s : string) : Prop := ~ mem "/"%char s.

Lemma components_word : forall n, slash_free n -> components n = [n].
Proof.
  induction n as [|a n IH]; intros H; [reflexivity|]. cbn [components].
  destruct (Ascii.eqb_spec a "/") as [->|N]; [exfalso; apply H; left; reflexivity|].
  rewrite IH; [reflexivity|]. intros M. apply H. right. exact M.
Qed.

Lemma components_dir : forall d n, slash_free n -> components (d ++ "/" ++ n) = (components d ++ [n])%list.
Proof.
  induction d as [|a d IH]; intros n H.
  - cbn [append components Ascii.eqb Bool.eqb]. rewrite components_word by exact H. reflexivity.
  - change (String a d ++ "/" ++ n) with (String a (d ++ "/" ++ n)). cbn [components]. rewrite IH by exact H.
    destruct (Ascii.eqb a "/"); [reflexivity|]. destruct (components d) as [|c cs] eqn:E; [|reflexivity].
    exfalso. destruct d as [|b d]; cbn [components] in E; [discriminate|]. destruct (Ascii.eqb b "/"); [discriminate|].
    destruct (components d); discriminate.
Qed.

Lemma path_name_of : forall d n, directory d -> slash_free n -> n <> "" -> n <> "." -> path_name (d ++ n) = n.
Proof.
  intros d n D S N1 N2.
  assert (F : nonempty n && negb (String.eqb n ".") = true).
  { apply andb_true_iff. split; [apply nonempty_spec; exact N1|]. apply negb_true_iff, String.eqb_neq. exact N2. }
  unfold path_name. destruct D as [->|[e ->]].
  - cbn [append]. rewrite components_word by exact S. cbn [filter]. rewrite F. reflexivity.
  - rewrite app_assoc_s, components_dir by exact S. rewrite filter_app. cbn [filter]. rewrite F. apply last_last.
Qed.

Lemma first_token_of : forall t r, word t -> columns r -> first_token (t ++ r) = t.
Proof.
  induction t as [|a t IH]; intros r W C; cbn [append].
  - destruct C as [->|(a & s & -> & B)]; [reflexivity|]. cbn [first_token]. apply is_space_blank in B. rewrite B. reflexivity.
  - cbn [first_token]. assert (E : is_space a = false) by (apply not_space, W; left; reflexivity). rewrite E, IH; auto.
    intros b M. apply W. right. exact M.
Qed.

Lemma marker_under : forall m, marker m -> exists k, m = String "_" k /\ underscore_free k.
Proof.
  intros m [ -> | [ -> | -> ] ]; eexists; (split; [reflexivity|]); unfold underscore_free; cbn; intuition discriminate.
Qed.

Lemma canonical_listed : forall d x m e r, directory d -> word d -> sample_name x -> word x -> slash_free x ->
  marker m -> word e -> slash_free e -> underscore_free e -> columns r ->
  canonical (d ++ x ++ m ++ e ++ r) = x ++ ".mat".
Proof.
  intros d x m e r D Wd SX Wx Sx Mm We Se Ue Cr. unfold canonical.
  assert (Wm : word m /\ slash_free m).
  { destruct Mm as [ -> | [ -> | -> ] ]; (split; [intros a M; cbn in M; intuition (subst; cbn in *; lia)|unfold slash_free; cbn; intuition discriminate]). }
  replace (d ++ x ++ m ++ e ++ r) with ((d ++ x ++ m ++ e) ++ r) by (rewrite !app_assoc_s; reflexivity).
  rewrite first_token_of; [|intros a M; rewrite !mem_app in M; destruct M as [M|[M|[M|M]]]; [apply Wd|apply Wx|apply Wm|apply We]; exact M|exact Cr].
  rewrite path_name_of; [|exact D|intros M; rewrite !mem_app in M; destruct M as [M|[M|M]]; [apply Sx|apply Wm|apply Se]; exact M| |].
  2:{ destruct Mm as [ -> | [ -> | -> ] ]; destruct x; discriminate. }
  2:{ destruct Mm as [ -> | [ -> | -> ] ]; destruct x as [|? []]; discriminate. }
  assert (Z : forall k, marker k -> before_first k (x ++ m ++ e) = if String.eqb k m then Some x else None).
  { intros k Mk. destruct (marker_under k Mk) as (k' & -> & Uk). destruct (marker_under m Mm) as (m' & -> & Um).
    change (String "_" m' ++ e) with (String "_" (m' ++ e)). rewrite before_first_app by exact Uk.
    rewrite before_first_absent by (apply SX; exact Mk).
    rewrite before_first_eq. assert (NU : before_first (String "_" k') (m' ++ e) = None).
    { apply before_first_none. intros M. apply mem_app in M. unfold underscore_free in *. tauto. }
    rewrite NU.
    assert (E : prefix (String "_" k') (String "_" (m' ++ e)) = String.eqb (String "_" k') (String "_" m')).
    { destruct Mk as [Ek|[Ek|Ek]], Mm as [Em|[Em|Em]]; inversion Ek; inversion Em; subst; 
        first [reflexivity | exact (prefix_self "_img1" e) | exact (prefix_self "_img2" e) | exact (prefix_self "_flow" e)]. }
    rewrite E. destruct (String.eqb (String "_" k') (String "_" m')); cbn [option_map]; [rewrite app_empty_s; reflexivity|reflexivity]. }
  rewrite (Z "_img1") by (left; reflexivity). rewrite (Z "_img2") by (right; left; reflexivity). rewrite (Z "_flow") by (right; right; reflexivity).
  destruct Mm as [ -> | [ -> | -> ] ]; reflexivity.
Qed.
