(** Rewriting the configuration file. *)
From Coq Require Import List Arith ZArith QArith String Bool Ascii Lia.
From Verif Require Import Prelude Model.PyVal Model.Files Model.Sanity Spec.SanitySpec.
Import ListNotations.
Local Open Scope string_scope.
Local Open Scope nat_scope.

(** ** Strings *)

Lemma app_assoc_s : forall a b c : string, (a ++ b) ++ c = a ++ b ++ c.
Proof. induction a; intros; simpl; congruence. Qed.

Lemma app_empty_s : forall a : string, a ++ "" = a.
Proof. induction a; simpl; congruence. Qed.

Lemma one_line_cons : forall a s, one_line (String a s) -> Ascii.eqb a (ascii_of_nat 10) = false /\ one_line s.
Proof.
  intros a s H. split.
  - apply Ascii.eqb_neq. intros ->. exact (H 0 eq_refl).
  - intros i. exact (H (S i)).
Qed.

Lemma lines_app : forall s r, one_line s -> lines (s ++ newline ++ r) = s :: lines r.
Proof.
  induction s as [|a s IH]; intros r H.
  - reflexivity.
  - apply one_line_cons in H. destruct H as [Ha H]. cbn [String.append lines]. rewrite Ha, IH; auto.
Qed.

Lemma concat_cons : forall x l, String.concat "" (x :: l) = x ++ String.concat "" l.
Proof. intros x [|y l]; simpl; [symmetry; apply app_empty_s|reflexivity]. Qed.

Lemma lines_concat : forall ls, (forall s, In s ls -> one_line s) ->
  lines (String.concat "" (map (fun s => s ++ newline) ls)) = ls.
Proof.
  induction ls as [|s ls IH]; intros H; [reflexivity|].
  cbn [map]. rewrite concat_cons, app_assoc_s, lines_app by (apply H; left; auto).
  f_equal. apply IH. intros; apply H; right; auto.
Qed.

Lemma one_line_app : forall a b, one_line a -> one_line b -> one_line (a ++ b).
Proof.
  induction a as [|c a IH]; intros b Ha Hb; [exact Hb|].
  intros [|i].
  - exact (Ha 0).
  - cbn. apply IH; auto. intros j. exact (Ha (S j)).
Qed.

Lemma one_line_lit : forall s, forallb (fun a => negb (Ascii.eqb a (ascii_of_nat 10))) (list_ascii_of_string s) = true ->
  one_line s.
Proof.
  induction s as [|a s IH]; intros H i.
  - destruct i; discriminate.
  - cbn in H. apply andb_true_iff in H. destruct H as [H1 H2]. destruct i as [|i].
    + cbn. intros E. inversion E; subst. discriminate.
    + cbn. apply IH; auto.
Qed.

Lemma prefix_cons : forall a s b r, prefix (String a s) (String b r) = if ascii_dec a b then prefix s r else false.
Proof. reflexivity. Qed.

Lemma prefix_short : forall k r, prefix "  - " k = false -> prefix "  - " (k ++ ": " ++ r) = false.
Proof.
  intros k r H. destruct k as [|a k]; [reflexivity|]. cbn [String.append] in *. rewrite prefix_cons in *.
  destruct (ascii_dec " " a); [|reflexivity].
  destruct k as [|b k]; [reflexivity|]. cbn [String.append] in *. rewrite prefix_cons in *. destruct (ascii_dec " " b); [|reflexivity].
  destruct k as [|c k]; [reflexivity|]. cbn [String.append] in *. rewrite prefix_cons in *. destruct (ascii_dec "-" c); [|reflexivity].
  destruct k as [|x k]; [reflexivity|]. cbn [String.append] in *. rewrite prefix_cons in *. destruct (ascii_dec " " x); [|reflexivity].
  destruct k; discriminate.
Qed.

Lemma prefix_nil : forall s, prefix "" s = true.
Proof. destruct s; reflexivity. Qed.

Lemma cut_sep_app : forall k r, cut_sep k = None -> cut_sep (k ++ ": " ++ r) = Some (k, r).
Proof.
  induction k as [|a k IH]; intros r H.
  - destruct r; reflexivity.
  - change (String a k ++ ": " ++ r) with (String a (k ++ ": " ++ r)).
    assert (E : prefix ": " (String a (k ++ ": " ++ r)) = false).
    { rewrite prefix_cons. destruct (ascii_dec ":" a); [|reflexivity]. destruct k as [|b k].
      - reflexivity.
      - cbn [String.append]. rewrite prefix_cons. destruct (ascii_dec " " b); [|reflexivity].
        exfalso. subst. clear IH. cbn [cut_sep] in H. rewrite !prefix_cons, prefix_nil in H.
        destruct (ascii_dec ":" ":"); [|congruence]. destruct (ascii_dec " " " "); [discriminate|congruence]. }
    assert (H' : cut_sep k = None).
    { clear IH E. cbn [cut_sep] in H. destruct (prefix ": " (String a k)) eqn:P.
      - destruct k; [reflexivity|discriminate].
      - destruct (cut_sep k) as [[? ?]|]; [discriminate|reflexivity]. }
    cbn [cut_sep]. rewrite E, IH; auto.
Qed.

Lemma line_entry : forall k t, plain_key k -> line_of (k ++ ": " ++ t) = LEntry k t.
Proof.
  intros k t (_ & H1 & H2). unfold line_of. rewrite prefix_short, cut_sep_app; auto.
Qed.

Lemma substring_all : forall s, substring 0 (String.length s) s = s.
Proof. induction s as [|a s IH]; [reflexivity|]. cbn. f_equal. exact IH. Qed.

Lemma line_item : forall t, line_of ("  - " ++ t) = LItem t.
Proof.
  intros t. unfold line_of. cbn [String.append]. rewrite !prefix_cons, prefix_nil.
  cbn. rewrite Nat.sub_0_r, substring_all. reflexivity.
Qed.

(** ** Reading the written lines *)

(** The lines without their ends. *)
Definition entry_lines (t : pytext) (d : list (string * pyval)) : list string :=
  map (fun p => fst p ++ ": " ++ to_text t (snd p)) d.
Definition item_lines (t : pytext) (l : list pyval) : list string := map (fun v => "  - " ++ to_text t v) l.

Lemma entries_items : forall rd t l, entries rd (item_lines t l) = Some (map (fun v => rd (to_text t v)) l, []).
Proof.
  intros rd t l; induction l as [|v l IH]; [reflexivity|].
  cbn [item_lines map entries]. fold (item_lines t l). rewrite IH, line_item. destruct l; reflexivity.
Qed.

(** The entries as they are read back. *)
Definition reread (rd : string -> pyval) (t : pytext) (d : list (string * pyval)) : list (string * pyval) :=
  map (fun p => (fst p, rd (to_text t (snd p)))) d.

Lemma entries_entries : forall rd t d more r,
  (forall k v, In (k, v) d -> plain_key k) ->
  entries rd more = Some ([], r) ->
  entries rd (entry_lines t d ++ more)%list = Some ([], (reread rd t d ++ r)%list).
Proof.
  intros rd t d more r; induction d as [|[k v] d IH]; intros H E; [exact E|].
  assert (HK := H k v (or_introl eq_refl)).
  cbn [entry_lines map entries app fst snd]. fold (entry_lines t d).
  rewrite IH; auto. 2:{ intros k' v' I; apply (H k' v'); right; auto. }
  rewrite line_entry; auto.
Qed.

(** ** Dictionaries *)

Lemma value_get : forall k d dflt, dict_get d k dflt = match value_of k d with Some v => v | None => dflt end.
Proof.
  intros k d dflt; induction d as [|[k' v] d IH]; [reflexivity|]. cbn. destruct (String.eqb k k'); auto.
Qed.

Lemma value_set : forall k k' v d, value_of k (dict_set d k' v) = if String.eqb k k' then Some v else value_of k d.
Proof.
  intros k k' v d; induction d as [|[k1 v1] d IH]; cbn.
  - destruct (String.eqb k k'); reflexivity.
  - destruct (String.eqb k' k1) eqn:E1; cbn.
    + apply String.eqb_eq in E1. subst k1. destruct (String.eqb k k'); reflexivity.
    + rewrite IH. destruct (String.eqb k k1) eqn:E2; [|reflexivity].
      apply String.eqb_eq in E2. subst k1. destruct (String.eqb k k') eqn:E3; [|reflexivity].
      apply String.eqb_eq in E3. subst. rewrite String.eqb_refl in E1. discriminate.
Qed.

Lemma value_none : forall k d, value_of k d = None <-> ~ has_key k d.
Proof.
  intros k d; unfold has_key; induction d as [|[k' v] d IH]; cbn; [tauto|].
  destruct (String.eqb_spec k k') as [->|N]; [split; [discriminate|tauto]|].
  rewrite IH. split; intros H; [intros [E|E]; congruence|tauto].
Qed.

Lemma absent_spec : forall d k, absent d k = true <-> ~ has_key k d.
Proof.
  intros d k. unfold absent, has_key. rewrite negb_true_iff, <- not_true_iff_false, existsb_exists.
  split; intros H I; apply H; [exists k; rewrite String.eqb_refl; auto|].
  destruct I as [x [I E]]. apply String.eqb_eq in E. subst. exact I.
Qed.

Lemma keys_set : forall d k v, map fst (dict_set d k v) = (map fst d ++ (if absent d k then [k] else []))%list.
Proof.
  intros d k v; induction d as [|[k' v'] d IH]; [reflexivity|].
  cbn [dict_set map fst]. unfold absent. cbn [map fst existsb].
  destruct (String.eqb k k') eqn:E; cbn [map fst app].
  - rewrite app_nil_r. reflexivity.
  - rewrite IH. reflexivity.
Qed.

Lemma updated_value : forall upd d k, NoDup (map fst upd) ->
  value_of k (updated d upd) = or_else (value_of k upd) (value_of k d).
Proof.
  unfold updated. induction upd as [|[k1 v1] upd IH]; intros d k H; [reflexivity|].
  inversion H as [|? ? H1 H2]; subst. cbn [fold_left fst snd value_of]. rewrite IH, value_set by auto.
  destruct (String.eqb_spec k k1) as [->|N].
  - cbn [map fst] in H1. rewrite (proj2 (value_none k1 upd)) by exact H1. reflexivity.
  - reflexivity.
Qed.

Lemma updated_keys : forall upd d, NoDup (map fst upd) ->
  map fst (updated d upd) = (map fst d ++ filter (absent d) (map fst upd))%list.
Proof.
  unfold updated. induction upd as [|[k1 v1] upd IH]; intros d H; [symmetry; apply app_nil_r|].
  inversion H as [|? ? H1 H2]; subst. cbn [fold_left fst snd map filter]. rewrite IH, keys_set by auto.
  assert (F : filter (absent (dict_set d k1 v1)) (map fst upd) = filter (absent d) (map fst upd)).
  { cbn [map fst] in H1. clear - H1. assert (G : forall l, ~ In k1 l -> filter (absent (dict_set d k1 v1)) l = filter (absent d) l).
    { induction l as [|x l IHl]; intros N; [reflexivity|]. cbn. rewrite IHl by (intros I; apply N; right; exact I).
      assert (E : absent (dict_set d k1 v1) x = absent d x).
      { unfold absent. rewrite keys_set, existsb_app. destruct (absent d k1); cbn; [|rewrite orb_false_r; reflexivity].
        destruct (String.eqb_spec x k1); [exfalso; apply N; left; auto|rewrite !orb_false_r; reflexivity]. }
      rewrite E. reflexivity. }
    apply G. exact H1. }
  rewrite F. destruct (absent d k1); rewrite <- app_assoc; reflexivity.
Qed.

Lemma nodup_snoc : forall (l : list string) x, NoDup l -> ~ In x l -> NoDup (l ++ [x])%list.
Proof.
  induction l as [|y l IH]; intros x H N; cbn.
  - constructor; [intros [] | constructor].
  - inversion H; subst. constructor.
    + rewrite in_app_iff. cbn. intros [I|[E|[]]]; [auto|subst; apply N; left; auto].
    + apply IH; auto. intros I; apply N; right; exact I.
Qed.

Lemma updated_nodup : forall upd d, NoDup (map fst d) -> NoDup (map fst (updated d upd)).
Proof.
  unfold updated. induction upd as [|[k v] upd IH]; intros d H1; [exact H1|].
  cbn [fold_left]. apply IH; auto. cbn [fst snd]. rewrite keys_set.
  destruct (absent d k) eqn:E; [|rewrite app_nil_r; exact H1].
  apply absent_spec in E. apply nodup_snoc; auto.
Qed.

Lemma value_in : forall d k v, NoDup (map fst d) -> In (k, v) d -> value_of k d = Some v.
Proof.
  induction d as [|[k' v'] d IH]; intros k v H I; [destruct I|].
  inversion H; subst. cbn. destruct I as [E|I].
  - inversion E; subst. rewrite String.eqb_refl. reflexivity.
  - destruct (String.eqb_spec k k') as [->|N]; [|apply IH; auto].
    exfalso. apply H2. cbn [fst]. apply (in_map fst) in I. exact I.
Qed.

Lemma value_in' : forall d k v, value_of k d = Some v -> In (k, v) d.
Proof.
  induction d as [|[k' v'] d IH]; intros k v H; [discriminate|]. cbn in H.
  destruct (String.eqb_spec k k') as [->|N]; [inversion H; subst; left; auto|right; auto].
Qed.

Lemma dict_del_cons : forall k1 v1 d k,
  dict_del ((k1, v1) :: d) k = if String.eqb k k1 then dict_del d k else (k1, v1) :: dict_del d k.
Proof. intros. unfold dict_del. cbn [filter fst]. destruct (String.eqb k k1); reflexivity. Qed.

Lemma value_del : forall d k k', value_of k (dict_del d k') = if String.eqb k k' then None else value_of k d.
Proof.
  intros d k k'; induction d as [|[k1 v1] d IH].
  - cbn. destruct (String.eqb k k'); reflexivity.
  - rewrite dict_del_cons. cbn [value_of]. destruct (String.eqb_spec k' k1) as [->|N].
    + rewrite IH. destruct (String.eqb k k1); reflexivity.
    + cbn [value_of]. rewrite IH. destruct (String.eqb_spec k k1) as [->|]; [|reflexivity].
      destruct (String.eqb_spec k1 k'); [congruence|reflexivity].
Qed.

Lemma keys_del : forall d k, map fst (dict_del d k) = filter (fun k' => negb (String.eqb k k')) (map fst d).
Proof.
  intros d k; induction d as [|[k1 v1] d IH]; [reflexivity|]. rewrite dict_del_cons. cbn [map fst filter].
  destruct (String.eqb k k1); cbn [map fst negb]; rewrite IH; reflexivity.
Qed.

Lemma value_app : forall d d' k, value_of k (d ++ d')%list = or_else (value_of k d) (value_of k d').
Proof.
  intros d d' k; induction d as [|[k1 v1] d IH]; [reflexivity|]. cbn. destruct (String.eqb k k1); auto.
Qed.

(** ** The file is read back as expected *)

Definition file_list_entry (f : pyval -> pyval) (v : option pyval) : list (string * pyval) :=
  match v with Some (PList (x :: l)) => [("file_list", PList (map f (x :: l)))] | _ => [] end.

Lemma read_back_all : forall rd t d upd, NoDup (map fst d) -> NoDup (map fst upd) ->
  (forall k, has_key k d \/ has_key k upd -> plain_key k) ->
  (forall k v, k <> "file_list" -> or_else (value_of k upd) (value_of k d) = Some v -> one_line (to_text t v)) ->
  (forall l v, or_else (value_of "file_list" upd) (value_of "file_list" d) = Some (PList l) -> In v l -> one_line (to_text t v)) ->
  yaml_read rd (new_text t d upd) =
  Some (reread rd t (dict_del (updated d upd) "file_list")
        ++ file_list_entry (fun v => rd (to_text t v)) (or_else (value_of "file_list" upd) (value_of "file_list" d)))%list.
Proof.
  intros rd t d upd ND NU HK HV HL. unfold yaml_read, new_text, written.
  set (fl := or_else (value_of "file_list" upd) (value_of "file_list" d)) in *.
  set (D := dict_del (updated d upd) "file_list").
  assert (EFL : dict_get (updated d upd) "file_list" (PList []) = match fl with Some v => v | None => PList [] end).
  { rewrite value_get, updated_value; auto. }
  assert (HD : forall k v, In (k, v) D -> plain_key k /\ one_line (to_text t v)).
  { intros k v I. assert (ND' : NoDup (map fst D)).
    { unfold D. rewrite keys_del. apply NoDup_filter, updated_nodup, ND. }
    pose proof (value_in D k v ND' I) as E. unfold D in E. rewrite value_del, updated_value in E; auto.
    destruct (String.eqb_spec k "file_list") as [->|N]; [discriminate|].
    split; [|apply (HV k v); auto].
    apply HK. destruct (value_of k upd) eqn:E1.
    - right. apply value_in' in E1. apply (in_map fst) in E1. exact E1.
    - left. cbn in E. apply value_in' in E. apply (in_map fst) in E. exact E. }
  set (L := match fl with Some (PList (x :: l)) => x :: l | _ => [] end).
  assert (HLL : forall v, In v L -> one_line (to_text t v)).
  { intros v I. unfold L in I. destruct fl as [[]|]; try (destruct I; fail). destruct l; [destruct I|]. eapply HL; [reflexivity|exact I]. }
  set (ls := (entry_lines t D ++ match L with [] => [] | _ => "file_list:" :: item_lines t L end)%list).
  match goal with |- context [String.concat "" ?W] =>
    assert (EW : W = map (fun s => s ++ newline) ls) end.
  { unfold ls. rewrite map_app. f_equal.
    - unfold entry_lines. rewrite map_map. apply map_ext. intros p. rewrite !app_assoc_s. reflexivity.
    - rewrite EFL. unfold L. destruct fl as [[]|]; try reflexivity. destruct l; [reflexivity|].
      cbn [map]. f_equal. unfold item_lines. rewrite map_map.
      apply (map_ext (fun v => "  - " ++ to_text t v ++ newline) (fun v => ("  - " ++ to_text t v) ++ newline)) with (l := p :: l).
      intros v. rewrite !app_assoc_s. reflexivity. }
  rewrite EW. clear EW. rewrite lines_concat.
  2:{ intros s I. unfold ls in I. apply in_app_iff in I. destruct I as [I|I].
      - unfold entry_lines in I. apply in_map_iff in I. destruct I as [[k v] [<- I]].
        destruct (HD k v I) as [(P & _) R]. cbn [fst snd].
        apply one_line_app; auto. apply one_line_app; auto. apply one_line_lit. reflexivity.
      - destruct L as [|x l] eqn:EL; [destruct I|]. destruct I as [<-|I]; [apply one_line_lit; reflexivity|].
        unfold item_lines in I. apply in_map_iff in I. destruct I as [v [<- I]].
        apply one_line_app; [apply one_line_lit; reflexivity|]. apply HLL. exact I. }
  assert (ER : entries rd (match L with [] => [] | _ => "file_list:" :: item_lines t L end) =
               Some ([], file_list_entry (fun v => rd (to_text t v)) fl)).
  { assert (EI := entries_items rd t L).
    unfold L in *. destruct fl as [[]|]; try reflexivity. destruct l; [reflexivity|].
    cbn [entries]. rewrite EI. reflexivity. }
  unfold ls. rewrite (entries_entries rd t D _ _) with (1 := fun k v I => proj1 (HD k v I)) (2 := ER).
  reflexivity.
Qed.

Lemma value_reread : forall rd t d k, value_of k (reread rd t d) = option_map (fun v => rd (to_text t v)) (value_of k d).
Proof.
  intros rd t d k; induction d as [|[k' v] d IH]; [reflexivity|]. cbn. destruct (String.eqb k k'); auto.
Qed.

Lemma keys_reread : forall rd t d, map fst (reread rd t d) = map fst d.
Proof. intros. unfold reread. rewrite map_map. reflexivity. Qed.

(** Whatever the reader makes of the values. *)
Lemma rewritten_text : forall rd t d upd, NoDup (map fst d) -> NoDup (map fst upd) ->
  (forall k, has_key k d \/ has_key k upd -> plain_key k) ->
  (forall k v, k <> "file_list" -> or_else (value_of k upd) (value_of k d) = Some v -> one_line (to_text t v)) ->
  (forall l v, or_else (value_of "file_list" upd) (value_of "file_list" d) = Some (PList l) -> In v l -> one_line (to_text t v)) ->
  exists d', yaml_read rd (new_text t d upd) = Some d' /\
    (forall k, k <> "file_list" ->
       value_of k d' = option_map (fun v => rd (to_text t v)) (or_else (value_of k upd) (value_of k d))) /\
    (forall l, l <> [] -> or_else (value_of "file_list" upd) (value_of "file_list" d) = Some (PList l) ->
       value_of "file_list" d' = Some (PList (map (fun v => rd (to_text t v)) l))) /\
    ((forall l, l <> [] -> or_else (value_of "file_list" upd) (value_of "file_list" d) <> Some (PList l)) ->
       value_of "file_list" d' = None) /\
    exists last, map fst d' = (filter (fun k => negb (String.eqb "file_list" k)) (map fst d) ++
                              filter (fun k => negb (String.eqb "file_list" k) && absent d k) (map fst upd) ++ last)%list /\
                 (last = [] \/ last = ["file_list"]).
Proof.
  intros rd t d upd ND NU HK HV HL. eexists. split; [apply read_back_all; auto|].
  set (fl := or_else (value_of "file_list" upd) (value_of "file_list" d)) in *.
  split; [|split; [|split]].
  - intros k N. rewrite value_app, value_reread, value_del, updated_value by auto.
    assert (E : String.eqb k "file_list" = false) by (apply String.eqb_neq; auto). rewrite E.
    destruct (or_else (value_of k upd) (value_of k d)); [reflexivity|]. cbn.
    unfold file_list_entry. destruct fl as [[]|]; try reflexivity. destruct l; [reflexivity|]. cbn [value_of]. rewrite E. reflexivity.
  - intros l N E. rewrite value_app, value_reread, value_del. cbn [or_else String.eqb option_map]. rewrite E. destruct l; [congruence|]. reflexivity.
  - intros N. rewrite value_app, value_reread, value_del. cbn [or_else String.eqb option_map].
    unfold file_list_entry. destruct fl as [[]|]; try reflexivity. destruct l; [reflexivity|]. exfalso. eapply (N (p :: l)); [discriminate|reflexivity].
  - exists (map fst (file_list_entry (fun v => rd (to_text t v)) fl)). split.
    + rewrite map_app, keys_reread, keys_del, updated_keys by auto. rewrite filter_app, <- app_assoc. f_equal. f_equal.
      generalize (map fst upd) as l. induction l as [|x l IH]; [reflexivity|]. cbn [filter].
      destruct (absent d x); cbn [filter]; rewrite ?andb_true_r, ?andb_false_r, IH; reflexivity.
    + unfold file_list_entry. destruct fl as [[]|]; auto. destruct l; auto.
Qed.

Lemma rewritten : forall rd t d upd, NoDup (map fst d) -> NoDup (map fst upd) ->
  (forall k, has_key k d \/ has_key k upd -> plain_key k) ->
  (forall k v, k <> "file_list" -> or_else (value_of k upd) (value_of k d) = Some v -> read_back rd t v) ->
  (forall l v, or_else (value_of "file_list" upd) (value_of "file_list" d) = Some (PList l) -> In v l -> read_back rd t v) ->
  exists d', yaml_read rd (new_text t d upd) = Some d' /\
    (forall k, k <> "file_list" -> value_of k d' = or_else (value_of k upd) (value_of k d)) /\
    (forall l, l <> [] -> or_else (value_of "file_list" upd) (value_of "file_list" d) = Some (PList l) ->
       value_of "file_list" d' = Some (PList l)) /\
    ((forall l, l <> [] -> or_else (value_of "file_list" upd) (value_of "file_list" d) <> Some (PList l)) ->
       value_of "file_list" d' = None) /\
    exists last, map fst d' = (filter (fun k => negb (String.eqb "file_list" k)) (map fst d) ++
                              filter (fun k => negb (String.eqb "file_list" k) && absent d k) (map fst upd) ++ last)%list /\
                 (last = [] \/ last = ["file_list"]).
Proof.
  intros rd t d upd ND NU HK HV HL.
  destruct (rewritten_text rd t d upd ND NU HK) as (d' & Y & V & F & N & K).
  - intros k v NE E. apply (HV k v NE E).
  - intros l v E I. apply (HL l v E I).
  - exists d'. split; [exact Y|]. split; [|split; [|split; [exact N|exact K]]].
    + intros k NE. rewrite V by exact NE. destruct (or_else (value_of k upd) (value_of k d)) as [v|] eqn:E; [|reflexivity].
      cbn. f_equal. apply (HV k v NE E).
    + intros l NE E. rewrite (F l NE E). do 2 f_equal. rewrite <- (map_id l) at 2. apply map_ext_in. intros v I. apply (HL l v E I).
Qed.

(** ** Crashes *)

Lemma steps_trans : forall a b, wsteps a b -> forall c, wsteps b c -> wsteps a c.
Proof. intros a b H; induction H; intros c H'; auto. econstructor; eauto. Qed.

Fixpoint pending_text (o : list wop) : string :=
  match o with
  | [] => ""
  | WWrite s :: o => s ++ pending_text o
  | _ :: o => pending_text o
  end.
Definition no_open (o : list wop) : Prop := ~ In WOpen o.

Lemma pending_writes : forall ls, pending_text (map WWrite ls ++ [WClose])%list = String.concat "" ls.
Proof. induction ls as [|s ls IH]; [reflexivity|]. rewrite concat_cons. cbn. rewrite IH. reflexivity. Qed.

Lemma opened_inv : forall a b, wstep a b -> no_open (w_todo a) ->
  no_open (w_todo b) /\
  w_disk b ++ w_buf b ++ pending_text (w_todo b) = w_disk a ++ w_buf a ++ pending_text (w_todo a).
Proof.
  intros a b H N. inversion H; subst; cbn [w_disk w_buf w_todo pending_text] in *.
  - exfalso. apply N. left; auto.
  - split; [intros I; apply N; right; exact I|]. rewrite !app_assoc_s. reflexivity.
  - split; [exact N|]. rewrite !app_assoc_s. reflexivity.
  - split; [intros I; apply N; right; exact I|]. rewrite !app_assoc_s. reflexivity.
Qed.

Lemma opened_steps : forall a b, wsteps a b -> no_open (w_todo a) ->
  no_open (w_todo b) /\
  w_disk b ++ w_buf b ++ pending_text (w_todo b) = w_disk a ++ w_buf a ++ pending_text (w_todo a).
Proof.
  intros a b H; induction H as [|a b c H1 H2 IH]; intros N; auto.
  destruct (opened_inv _ _ H1 N) as [N' E]. destruct (IH N') as [N2 E2]. split; auto. congruence.
Qed.

Lemma before_open : forall s1 s2, wsteps s1 s2 -> forall old o, s1 = mkWs old "" (WOpen :: o) ->
  s2 = s1 \/ wsteps (mkWs "" "" o) s2.
Proof.
  intros s1 s2 H; induction H as [|a b c H1 H2 IH]; intros old o E; auto. subst a.
  inversion H1; subst.
  - right. exact H2.
  - assert (b1 = "" /\ b2 = "").
    { match goal with E : _ = "" |- _ => destruct b1; [destruct b2; [auto|discriminate]|discriminate] | _ => idtac end. }
    destruct H as [-> ->]. rewrite app_empty_s in *.
    destruct (IH old o eq_refl) as [E2|E2]; auto.
Qed.

Lemma shows_prefix : forall t old d upd disk, shows t old d upd disk ->
  disk = old \/ exists rest, new_text t d upd = disk ++ rest.
Proof.
  intros t old d upd disk (buf & todo & H).
  apply (fun H => before_open _ _ H old _ eq_refl) in H. destruct H as [H|H].
  - inversion H. auto.
  - right. apply opened_steps in H.
    + destruct H as [_ H]. cbn [w_disk w_buf w_todo] in H. rewrite pending_writes in H. cbn in H.
      exists (buf ++ pending_text todo). unfold new_text. symmetry. exact H.
    + cbn. intros I. apply in_app_iff in I. destruct I as [I|[I|[]]]; [|discriminate].
      apply in_map_iff in I. destruct I as (? & ? & _). discriminate.
Qed.

Lemma finished : forall t old d upd buf disk,
  wsteps (mkWs old "" (rewrite_ops t d upd)) (mkWs disk buf []) -> disk ++ buf = new_text t d upd.
Proof.
  intros t old d upd buf disk H. apply (fun H => before_open _ _ H old _ eq_refl) in H.
  destruct H as [H|H]; [inversion H|]. apply opened_steps in H.
  - destruct H as [_ H]. cbn in H. rewrite app_empty_s in H. rewrite pending_writes in H. exact H.
  - cbn. intros I. apply in_app_iff in I. destruct I as [I|[I|[]]]; [|discriminate].
    apply in_map_iff in I. destruct I as (? & ? & _). discriminate.
Qed.

(** A process that is not interrupted writes everything. *)
Lemma writes_reach : forall ls d b, wsteps (mkWs d b (map WWrite ls ++ [WClose])) (mkWs (d ++ b ++ String.concat "" ls) "" []).
Proof.
  induction ls as [|s ls IH]; intros d b.
  - cbn. rewrite app_empty_s. eapply StepsCons; [apply StepClose|apply StepsRefl].
  - rewrite concat_cons, <- (app_assoc_s b). eapply StepsCons; [apply StepWrite|]. apply IH.
Qed.

Lemma completes : forall t old d upd,
  wsteps (mkWs old "" (rewrite_ops t d upd)) (mkWs (new_text t d upd) "" []).
Proof.
  intros. eapply StepsCons; [apply StepOpen|]. pose proof (writes_reach (written t d upd) "" "") as H. exact H.
Qed.

Lemma emptied : forall t old d upd, shows t old d upd "".
Proof. intros. exists "", (map WWrite (written t d upd) ++ [WClose])%list. eapply StepsCons; [apply StepOpen|apply StepsRefl]. Qed.

(** After the line number [n] has been written out. *)
Lemma partial_shown : forall t old d upd n, shows t old d upd (String.concat "" (firstn n (written t d upd))).
Proof.
  intros t old d upd n. unfold shows, rewrite_ops.
  assert (G : forall ls k dk b, exists todo, wsteps (mkWs dk b (map WWrite ls ++ [WClose])) (mkWs dk (b ++ String.concat "" (firstn k ls)) todo)).
  { induction ls as [|s ls IH]; intros k dk b.
    - exists [WClose]. destruct k; cbn; rewrite app_empty_s; apply StepsRefl.
    - destruct k as [|k].
      + eexists. cbn [firstn String.concat]. rewrite app_empty_s. apply StepsRefl.
      + destruct (IH k dk (b ++ s)) as [todo H]. exists todo. cbn [firstn]. rewrite concat_cons.
        eapply StepsCons; [apply StepWrite|]. rewrite <- app_assoc_s. exact H. }
  destruct (G (written t d upd) n "" "") as [todo H]. exists "", todo.
  eapply StepsCons; [apply StepOpen|]. eapply steps_trans; [exact H|].
  cbn [String.append]. eapply StepsCons; [|apply StepsRefl].
  pose proof (StepFlush "" (String.concat "" (firstn n (written t d upd))) "" todo) as F.
  rewrite app_empty_s in F. exact F.
Qed.
