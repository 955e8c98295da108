(** Proofs for C122: trees of HDF5 files and their dictionaries. *)
From Coq Require Import List Arith ZArith String Ascii Bool QArith Lia.
From Verif Require Import Prelude Model.Base Model.Files Model.Loaders Model.MatFile.
From Verif Require Import Spec.LoaderSpec Spec.MatFileSpec Proofs.LoaderProofs.
Import ListNotations.
Local Open Scope string_scope.
Local Open Scope nat_scope.

Lemma h5_induction : forall P : h5item -> Prop,
  (forall v, P (HData v)) ->
  (forall items, Forall (fun p => P (snd p)) items -> P (HGroup items)) -> forall i, P i.
Proof.
  intros P HD HG. fix IH 1. intros [v|items]; [apply HD|]. apply HG.
  induction items as [|[n i] items IHl]; constructor; [apply IH|exact IHl].
Qed.

Lemma lookup_put : forall A (d : list (string * A)) k k' v,
  lookup k (put d k' v) = if String.eqb k k' then Some v else lookup k d.
Proof.
  intros A d k k' v. induction d as [|[k1 v1] d IH]; cbn [put lookup].
  - reflexivity.
  - destruct (String.eqb_spec k' k1) as [E|E]; cbn [lookup].
    + subst k1. destruct (String.eqb k k'); reflexivity.
    + rewrite IH. destruct (String.eqb_spec k k1) as [E1|E1]; [|reflexivity].
      destruct (String.eqb_spec k k') as [E2|E2]; [congruence|reflexivity].
Qed.

Lemma put_keys : forall A (d : list (string * A)) k v, NoDup (map fst d) -> NoDup (map fst (put d k v)).
Proof.
  intros A d k v. assert (I : forall d k' , In k' (map fst (put d k v)) -> k' = k \/ In k' (map fst d)).
  { clear d. induction d as [|[k1 v1] d IH]; cbn [put map fst]; intros k' H.
    - destruct H as [H|[]]; auto.
    - destruct (String.eqb_spec k k1) as [E|E]; cbn [map fst In] in *.
      + destruct H as [H|H]; auto.
      + destruct H as [H|H]; [right; left; exact H|]. destruct (IH _ H) as [X|X]; auto. }
  induction d as [|[k1 v1] d IH]; cbn [put map fst]; intros N; [constructor; [intros []|constructor]|].
  inversion N as [|? ? N1 N2]; subst. destruct (String.eqb_spec k k1) as [E|E]; cbn [map fst].
  - subst. constructor; assumption.
  - constructor; [|exact (IH N2)]. intro X. destruct (I _ _ X) as [Y|Y]; [congruence|contradiction].
Qed.

Lemma merge_keys : forall A (e d : list (string * A)), NoDup (map fst d) -> NoDup (map fst (merge d e)).
Proof.
  intros A e. unfold merge. induction e as [|[k v] e IH]; intros d N; cbn [fold_left fst snd]; [exact N|].
  apply IH, put_keys, N.
Qed.

Lemma lookup_notin : forall A (d : list (string * A)) k, ~ In k (map fst d) -> lookup k d = None.
Proof.
  intros A d k. induction d as [|[k1 v1] d IH]; intros N; [reflexivity|]. cbn [lookup].
  destruct (String.eqb_spec k k1) as [E|E]; [exfalso; apply N; left; auto|].
  apply IH. intro X. apply N. right; exact X.
Qed.

Lemma lookup_in : forall A (d : list (string * A)) k v, NoDup (map fst d) -> (lookup k d = Some v <-> In (k, v) d).
Proof.
  intros A d k v. induction d as [|[k1 v1] d IH]; intros N; cbn [lookup In].
  - split; [discriminate|intros []].
  - inversion N as [|? ? N1 N2]; subst. specialize (IH N2). destruct (String.eqb_spec k k1) as [E|E].
    + subst k1. split.
      * intro H. inversion H; subst. left; reflexivity.
      * intros [H|H]; [inversion H; reflexivity|]. exfalso. apply N1. exact (in_map fst _ _ H).
    + rewrite IH. split; [auto|]. intros [H|H]; [inversion H; congruence|exact H].
Qed.

Lemma lookup_merge : forall A (e d : list (string * A)) k, NoDup (map fst e) ->
  lookup k (merge d e) = match lookup k e with Some v => Some v | None => lookup k d end.
Proof.
  intros A e. unfold merge. induction e as [|[k1 v1] e IH]; intros d k N; cbn [fold_left fst snd lookup]; [reflexivity|].
  inversion N as [|? ? N1 N2]; subst. rewrite (IH _ _ N2), lookup_put.
  destruct (String.eqb_spec k k1) as [E|E]; [|reflexivity].
  subst k1. rewrite (lookup_notin _ e k N1). reflexivity.
Qed.

(** The loop of [item_dict], as a function of its own. *)
Fixpoint members (pre : string) (out : mat_dict) (items : list (string * h5item)) : mat_dict :=
  match items with
  | [] => out
  | (n, i) :: items => members pre (merge out (item_dict (child pre n) i)) items
  end.

Lemma item_dict_group : forall pre items, item_dict pre (HGroup items) = members pre [] items.
Proof.
  intros pre items. cbn [item_dict]. generalize (@nil (string * mat_val)) as out.
  induction items as [|[n i] items IH]; intro out; [reflexivity|]. cbn [members]. apply IH.
Qed.

Lemma members_keys : forall pre items out, NoDup (map fst out) -> NoDup (map fst (members pre out items)).
Proof.
  intros pre items. induction items as [|[n i] items IH]; intros out N; cbn [members]; [exact N|].
  apply IH, merge_keys, N.
Qed.

Lemma item_keys : forall pre i, NoDup (map fst (item_dict pre i)).
Proof.
  intros pre [v|items].
  - cbn. constructor; [intros []|constructor].
  - rewrite item_dict_group. apply members_keys. constructor.
Qed.

(** ** Paths *)
Fixpoint tail_of (ns : list string) : string :=
  match ns with [] => "" | n :: ns => "/" ++ n ++ tail_of ns end.

Lemma append_assoc : forall a b c, (a ++ b) ++ c = a ++ (b ++ c).
Proof. induction a as [|x a IH]; intros; cbn; [reflexivity|]. rewrite IH. reflexivity. Qed.

Lemma append_nil : forall a, a ++ "" = a.
Proof. induction a as [|x a IH]; cbn; [reflexivity|]. rewrite IH. reflexivity. Qed.

Lemma append_nonempty : forall a b, a <> "" -> a ++ b <> "".
Proof. intros [|x a] b H; [contradiction|discriminate]. Qed.

Lemma path_tail : forall ns p, p <> "" -> fold_left child ns p = p ++ tail_of ns.
Proof.
  induction ns as [|n ns IH]; intros p H; cbn [fold_left tail_of]; [symmetry; apply append_nil|].
  assert (E : child p n = p ++ "/" ++ n).
  { unfold child. destruct (String.eqb_spec p ""); [contradiction|reflexivity]. }
  rewrite E, IH by (apply append_nonempty; exact H). rewrite append_assoc. f_equal.
Qed.

Lemma child_nonempty : forall p n, n <> "" -> child p n <> "".
Proof.
  intros p n H. unfold child. destruct (String.eqb_spec p ""); [exact H|].
  apply append_nonempty. assumption.
Qed.

Lemma concat_tail : forall n ns, String.concat "/" (n :: ns) = n ++ tail_of ns.
Proof.
  intros n ns. revert n. induction ns as [|m ns IH]; intro n.
  - cbn. symmetry. apply append_nil.
  - change (String.concat "/" (n :: m :: ns)) with (n ++ "/" ++ String.concat "/" (m :: ns)).
    rewrite IH. reflexivity.
Qed.

(** What follows a name is nothing or starts with a slash. *)
Lemma tail_head : forall ns, tail_of ns = "" \/ exists t, tail_of ns = String "/" t.
Proof. intros [|n ns]; cbn; [left; reflexivity|right; eexists; reflexivity]. Qed.

Lemma no_slash_tail : forall a s, no_slash (String a s) -> a <> "/"%char /\ no_slash s.
Proof.
  intros a s H. split.
  - intro E. apply (H 0). cbn. rewrite E. reflexivity.
  - intro i. exact (H (S i)).
Qed.

Lemma split_name : forall n1 n2 t1 t2, no_slash n1 -> no_slash n2 ->
  (t1 = "" \/ exists t, t1 = String "/" t) -> (t2 = "" \/ exists t, t2 = String "/" t) ->
  n1 ++ t1 = n2 ++ t2 -> n1 = n2 /\ t1 = t2.
Proof.
  induction n1 as [|a n1 IH]; intros [|b n2] t1 t2 H1 H2 T1 T2 E; cbn in E.
  - auto.
  - exfalso. destruct (no_slash_tail _ _ H2) as [N _]. destruct T1 as [T1|[t T1]]; subst t1; [discriminate|].
    inversion E. congruence.
  - exfalso. destruct (no_slash_tail _ _ H1) as [N _]. destruct T2 as [T2|[t T2]]; subst t2; [discriminate|].
    inversion E. congruence.
  - inversion E as [[Ea Er]]. subst b.
    destruct (IH n2 t1 t2 (proj2 (no_slash_tail _ _ H1)) (proj2 (no_slash_tail _ _ H2)) T1 T2 Er). subst; auto.
Qed.

Lemma append_cancel : forall p a b, p ++ a = p ++ b -> a = b.
Proof. induction p as [|x p IH]; intros a b H; cbn in H; [exact H|]. inversion H. auto. Qed.

Lemma paths_differ : forall pre n1 n2 ns1 ns2, name_ok n1 -> name_ok n2 ->
  fold_left child ns1 (child pre n1) = fold_left child ns2 (child pre n2) -> n1 = n2.
Proof.
  intros pre n1 n2 ns1 ns2 [E1 S1] [E2 S2] H.
  rewrite !path_tail in H by (apply child_nonempty; assumption).
  assert (X : n1 ++ tail_of ns1 = n2 ++ tail_of ns2).
  { unfold child in H. destruct (String.eqb pre ""); [exact H|]. rewrite !append_assoc in H.
    apply append_cancel in H. cbn in H. injection H as H'. exact H'. }
  exact (proj1 (split_name _ _ _ _ S1 S2 (tail_head ns1) (tail_head ns2) X)).
Qed.

(** ** The dictionary of a tree *)
Definition under (pre : string) (items : list (string * h5item)) (k : string) (v : mat_val) : Prop :=
  exists n i ns, In (n, i) items /\ reaches i ns v /\ k = fold_left child ns (child pre n).

Lemma members_spec : forall pre items,
  NoDup (map fst items) -> (forall n i, In (n, i) items -> name_ok n) ->
  Forall (fun p => forall pre k v, lookup k (item_dict pre (snd p)) = Some v <->
                     exists ns, reaches (snd p) ns v /\ k = fold_left child ns pre) items ->
  forall out k v, lookup k (members pre out items) = Some v <->
    under pre items k v \/ (lookup k out = Some v /\ forall v', ~ under pre items k v').
Proof.
  intros pre items. induction items as [|[n i] items IH]; intros N O F out k v; cbn [members].
  - split.
    + intro H. right. split; [exact H|]. intros v' [n [i [ns [[] _]]]].
    + intros [[n [i [ns [[] _]]]]|[H _]]. exact H.
  - cbn [map fst] in N. inversion N as [|? ? N1 N2]; subst. inversion F as [|? ? F1 F2]; subst. cbn [snd] in F1.
    specialize (IH N2 (fun n i H => O n i (or_intror H)) F2).
    assert (L : lookup k (merge out (item_dict (child pre n) i)) = Some v <->
      (exists ns, reaches i ns v /\ k = fold_left child ns (child pre n)) \/
      (lookup k out = Some v /\ lookup k (item_dict (child pre n) i) = None)).
    { rewrite (lookup_merge _ _ _ _ (item_keys _ _)), <- (F1 (child pre n) k v).
      destruct (lookup k (item_dict (child pre n) i)) as [w|]; intuition congruence. }
    assert (NH : forall v', (lookup k (item_dict (child pre n) i) = None) ->
      ~ exists ns, reaches i ns v' /\ k = fold_left child ns (child pre n)).
    { intros v' H X. apply F1 in X. congruence. }
    rewrite IH, L. split.
    + intros [[n' [i' [ns [I [R K]]]]]|[[[ns [R K]]|[H1 H2]] NI]].
      * left. exists n', i', ns. split; [right; exact I|auto].
      * left. exists n, i, ns. split; [left; reflexivity|auto].
      * right. split; [exact H1|]. intros v' [n' [i' [ns [[I|I] [R K]]]]].
        -- inversion I; subst n' i'. apply (NH v' H2). exists ns; auto.
        -- apply (NI v'). exists n', i', ns; auto.
    + intros [[n' [i' [ns [[I|I] [R K]]]]]|[H1 H2]].
      * inversion I; subst n' i'. right. split; [left; exists ns; auto|].
        intros v' [n2 [i2 [ns2 [I2 [R2 K2]]]]].
        assert (E : n = n2).
        { apply (paths_differ pre n n2 ns ns2 (O n i (or_introl eq_refl)) (O n2 i2 (or_intror I2))). congruence. }
        subst n2. apply N1. exact (in_map fst _ _ I2).
      * left. exists n', i', ns; auto.
      * right. split.
        -- right. split; [exact H1|]. destruct (lookup k (item_dict (child pre n) i)) as [w|] eqn:E; [|reflexivity].
           exfalso. apply F1 in E. destruct E as [ns [R K]]. apply (H2 w). exists n, i, ns. split; [left; reflexivity|auto].
        -- intros v' [n2 [i2 [ns2 [I2 X]]]]. apply (H2 v'). exists n2, i2, ns2. split; [right; exact I2|exact X].
Qed.

Lemma dict_spec : forall i, tree_ok i -> forall pre k v,
  lookup k (item_dict pre i) = Some v <-> exists ns, reaches i ns v /\ k = fold_left child ns pre.
Proof.
  intro i. induction i as [w|items IH] using h5_induction; intros T pre k v.
  - cbn [item_dict lookup]. destruct (String.eqb_spec k pre) as [E|E].
    + split.
      * intro H. inversion H; subst. exists []. split; [constructor|reflexivity].
      * intros [ns [R K]]. inversion R; subst. reflexivity.
    + split; [discriminate|]. intros [ns [R K]]. inversion R; subst. contradiction.
  - inversion T as [|its ND HI]; subst its.
    rewrite item_dict_group, members_spec.
    + unfold under. split.
      * intros [[n [j [ns [I [R K]]]]]|[H _]]; [|discriminate].
        exists (n :: ns). split; [econstructor; eassumption|exact K].
      * intros [ns [R K]]. inversion R as [|its n j ns' v' I R']; subst. left. exists n, j, ns'. auto.
    + exact ND.
    + intros n j I. exact (proj1 (HI n j I)).
    + rewrite Forall_forall in IH |- *. intros [n j] I. apply IH; [exact I|]. exact (proj2 (HI n j I)).
Qed.

Lemma reaches_names : forall i ns v, tree_ok i -> reaches i ns v -> Forall name_ok ns.
Proof.
  intros i ns v T R. revert T. induction R as [w|items n j ns v I R IH]; intro T; constructor.
  - inversion T as [|its ND HI]; subst. exact (proj1 (HI n j I)).
  - apply IH. inversion T as [|its ND HI]; subst. exact (proj2 (HI n j I)).
Qed.

Lemma tree_lookup : forall root k v, tree_ok (HGroup root) ->
  (lookup k (h5_dict root) = Some v <-> exists ns, reaches (HGroup root) ns v /\ k = String.concat "/" ns).
Proof.
  intros root k v T. unfold h5_dict. rewrite (dict_spec _ T).
  assert (E : forall ns, reaches (HGroup root) ns v -> fold_left child ns "" = String.concat "/" ns).
  { intros ns R. pose proof (reaches_names _ _ _ T R) as F. inversion R as [|its n j ns' v' I R']; subst.
    inversion F as [|? ? [E1 E2] _]; subst. rewrite concat_tail.
    change (fold_left child (n :: ns') "") with (fold_left child ns' n). apply path_tail, E1. }
  split; intros [ns [R K]]; exists ns; (split; [exact R|]); rewrite K; [apply E|symmetry; apply E]; exact R.
Qed.

(** A name without slashes is looked up among the members of the root. *)
Lemma top_lookup : forall root k v, tree_ok (HGroup root) -> no_slash k ->
  (lookup k (h5_dict root) = Some v <-> In (k, HData v) root).
Proof.
  intros root k v T S. rewrite (tree_lookup _ _ _ T). split.
  - intros [ns [R K]]. pose proof (reaches_names _ _ _ T R) as F. inversion R as [|its n j ns' v' I R']; subst its ns v'.
    pose proof (Forall_inv F) as [_ E2]. rewrite concat_tail in K.
    destruct (split_name k n "" (tail_of ns') S E2 (or_introl eq_refl) (tail_head ns')) as [X Y].
    { rewrite append_nil. exact K. }
    subst n. destruct ns' as [|m ns']; [|discriminate Y]. inversion R'; subst. exact I.
  - intro I. exists [k]. split; [econstructor; [exact I|constructor]|]. reflexivity.
Qed.

(** ** Variables of older files *)
Lemma lookup_filter : forall (d : mat_dict) k, prefix "__" k = false ->
  lookup k (filter (fun p => negb (prefix "__" (fst p))) d) = lookup k d.
Proof.
  intros d k P. induction d as [|[k1 v1] d IH]; [reflexivity|]. cbn [filter fst lookup].
  destruct (prefix "__" k1) eqn:E; cbn [negb lookup].
  - destruct (String.eqb_spec k k1) as [X|X]; [congruence|exact IH].
  - rewrite IH. reflexivity.
Qed.

Lemma lookup_squeezed : forall vars k, lookup k (map (fun p => (fst p, squeeze (snd p))) vars) = option_map squeeze (lookup k vars).
Proof.
  induction vars as [|[k1 v1] vars IH]; intro k; cbn [map lookup fst snd]; [reflexivity|].
  destruct (String.eqb k k1); [reflexivity|apply IH].
Qed.

Lemma legacy_lookup : forall vars k v, NoDup (map fst vars) -> prefix "__" k = false ->
  In (k, v) vars -> lookup k (legacy_dict vars) = Some (squeeze v).
Proof.
  intros vars k v N P I. unfold legacy_dict. rewrite lookup_filter by exact P.
  assert (Q : forall s, prefix "__" s = true -> String.eqb k s = false).
  { intros s Hs. destruct (String.eqb_spec k s); [congruence|reflexivity]. }
  cbn [app lookup]. rewrite !Q by reflexivity. rewrite lookup_squeezed.
  rewrite (proj2 (lookup_in _ vars k v N) I). reflexivity.
Qed.

Lemma squeeze_id : forall a, Forall (fun n => 1 < n) (shape a) -> shape a <> [] -> squeeze (MArr a) = MArr a.
Proof.
  intros [s d] F N. cbn [shape] in *. unfold squeeze. cbn [shape data].
  assert (P : 0 < size s).
  { clear N. unfold size. induction F as [|n s Hn F IH]; cbn [fold_right]; [lia|]. nia. }
  assert (E : filter (fun n => negb (n =? 1)) s = s).
  { clear N P. induction F as [|n s Hn F IH]; [reflexivity|]. cbn [filter].
    destruct (Nat.eqb_spec n 1); [lia|]. cbn [negb]. rewrite IH. reflexivity. }
  destruct (Nat.eqb_spec (size s) 0); [lia|]. rewrite E. destruct s; [contradiction|reflexivity].
Qed.
