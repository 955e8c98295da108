(** Splits, distribution of the packed files, conversion. *)
From Coq Require Import List Arith ZArith QArith String Bool Ascii Lia Permutation.
From Verif Require Import Prelude Model.Base Model.Files Model.Loaders Model.Scripts
  Spec.BaseSpec Spec.LoaderSpec Spec.ScriptsSpec Proofs.ScriptsText.
Import ListNotations.
Local Open Scope string_scope.
Local Open Scope nat_scope.

(** ** Splits *)

Lemma skipn_skipn' : forall {A} (l : list A) a b, skipn a (skipn b l) = skipn (a + b) l.
Proof.
  intros A l a b; revert l; induction b as [|b IH]; intros l; [rewrite Nat.add_0_r; reflexivity|].
  rewrite Nat.add_succ_r. destruct l as [|x l]; [rewrite !skipn_nil; reflexivity|]. cbn [skipn]. apply IH.
Qed.

Lemma slice_parts : forall {A} (l : list A) a b, a <= b -> b <= List.length l ->
  pyslice l (Z.of_nat a) (Z.of_nat b) = firstn (b - a) (skipn a l).
Proof.
  intros A l a b H1 H2. unfold pyslice, slice_bound.
  destruct (Z.ltb_spec (Z.of_nat a) 0) as [E|_]; [lia|]. destruct (Z.ltb_spec (Z.of_nat b) 0) as [E|_]; [lia|].
  rewrite !Nat2Z.id, !Nat.min_r by lia. reflexivity.
Qed.

Lemma percent_nonneg : forall n r, (0 <= r)%Z -> percent n r = Z.of_nat (n * Z.to_nat r / 100).
Proof.
  intros n r H. unfold percent. rewrite Z.quot_div_nonneg by lia. rewrite Nat2Z.inj_div, Nat2Z.inj_mul, Z2Nat.id by lia. reflexivity.
Qed.

Lemma percent_sum : forall n a b, a + b <= 100 -> n * a / 100 + n * b / 100 <= n.
Proof.
  intros n a b H. assert (E1 := Nat.mul_div_le (n * a) 100 ltac:(lia)). assert (E2 := Nat.mul_div_le (n * b) 100 ltac:(lia)). nia.
Qed.

Lemma split_partition : forall l r1 r2, (0 <= r1)%Z -> (0 <= r2)%Z -> (r1 + r2 <= 100)%Z ->
  let '(tr, va, tu) := split_lists l r1 r2 in
  (tr ++ va ++ tu)%list = l /\
  List.length va = List.length l * Z.to_nat r1 / 100 /\ List.length tu = List.length l * Z.to_nat r2 / 100.
Proof.
  intros l r1 r2 H1 H2 H3. unfold split_lists. rewrite !percent_nonneg by assumption.
  set (n := List.length l). set (v := n * Z.to_nat r1 / 100). set (t := n * Z.to_nat r2 / 100).
  assert (S : v + t <= n) by (apply percent_sum; lia).
  replace (Z.of_nat n - Z.of_nat v - Z.of_nat t)%Z with (Z.of_nat (n - v - t)) by lia.
  replace (Z.of_nat (n - v - t) + Z.of_nat v)%Z with (Z.of_nat (n - t)) by lia.
  change 0%Z with (Z.of_nat 0). rewrite !slice_parts by (subst n; lia). rewrite !Nat.sub_0_r. cbn [skipn].
  replace (n - (n - t)) with t by lia. replace (n - t - (n - v - t)) with v by lia.
  split; [|split].
  - rewrite (firstn_all2 (n := t)) by (rewrite skipn_length; fold n; lia).
    rewrite <- (firstn_skipn (n - v - t) l) at 4. f_equal.
    rewrite <- (firstn_skipn v (skipn (n - v - t) l)) at 2. f_equal. rewrite skipn_skipn'. f_equal. lia.
  - rewrite firstn_length, skipn_length. fold n. lia.
  - rewrite firstn_length, skipn_length. fold n. lia.
Qed.

Lemma split_files_ok : forall train test shuffle r0 r1 r2 old, Permutation (shuffle (read_list train)) (read_list train) ->
  (0 <= r1)%Z -> (0 <= r2)%Z -> (r1 + r2 <= 100)%Z ->
  exists t v u, fetch_splits (Some train) test shuffle [r0; r1; r2] old =
      Ok (mkSplits (Some t) (Some v) (match test with Some x => Some x | None => f_test old end) (Some u)) /\
    Permutation (read_list t ++ read_list v ++ read_list u) (read_list train) /\
    List.length (read_list v) = List.length (read_list train) * Z.to_nat r1 / 100 /\
    List.length (read_list u) = List.length (read_list train) * Z.to_nat r2 / 100.
Proof.
  intros train test shuffle r0 r1 r2 old P H1 H2 H3.
  assert (S := split_partition (shuffle (read_list train)) r1 r2 H1 H2 H3).
  unfold fetch_splits. destruct (split_lists (shuffle (read_list train)) r1 r2) as [[tr va] tu] eqn:E.
  destruct S as (S1 & S2 & S3).
  assert (I : forall x, In x (tr ++ va ++ tu)%list -> In x (read_list train)).
  { intros x I. rewrite S1 in I. eapply Permutation_in; eauto. }
  exists (write_list tr), (write_list va), (write_list tu). split; [reflexivity|].
  rewrite (sublist_back train tr) by (intros; apply I; rewrite !in_app_iff; auto).
  rewrite (sublist_back train va) by (intros; apply I; rewrite !in_app_iff; auto).
  rewrite (sublist_back train tu) by (intros; apply I; rewrite !in_app_iff; auto).
  rewrite (Permutation_length P) in S2, S3. split; [rewrite S1; exact P|]. auto.
Qed.

(** ** Distribution *)

Lemma in_list_spec : forall x l, in_list x l = true <-> In x l.
Proof.
  intros x l. unfold in_list. rewrite existsb_exists. split.
  - intros (y & I & E). apply String.eqb_eq in E. subst. exact I.
  - intros I. exists x. split; [exact I|apply String.eqb_refl].
Qed.

Lemma target_inj : forall s f s' f', target s f = target s' f' -> s = s' /\ f = f'.
Proof.
  intros s [p n] s' [p' n'] E. unfold target in E. cbn [fst snd] in E. inversion E as [[E1 E2]]. subst s'. split; [reflexivity|].
  rewrite !app_assoc in E2. apply app_inj_tail in E2. destruct E2 as [E2 ->].
  destruct (search_re n'); [apply app_inj_tail in E2; destruct E2 as [-> _]; reflexivity|].
  rewrite !app_nil_r in E2. subst. reflexivity.
Qed.

Definition text_of (sf : split_files) (s : string) : option string :=
  if String.eqb s "train" then f_train sf
  else if String.eqb s "val" then f_val sf
  else if String.eqb s "test" then f_test sf
  else if String.eqb s "tune" then f_tune sf
  else None.

Lemma split_copies : forall sf files copies, perform_split sf files = Ok copies ->
  forall f t, In (f, t) copies <->
    In f files /\ exists s text line, In (s, Some text) [("train", f_train sf); ("val", f_val sf); ("test", f_test sf); ("tune", f_tune sf)] /\
      In line (read_list text) /\ canonical line = snd f /\ t = target s f.
Proof.
  intros [tr va te tu] files copies H f t. unfold perform_split in H. cbn [f_train f_val f_test f_tune] in *.
  destruct tr as [tr|]; [|discriminate]. destruct va as [va|]; [|discriminate]. destruct te as [te|]; [|discriminate].
  destruct tu as [tu|]; [|discriminate]. 
  remember [("train", load_split tr); ("val", load_split va); ("test", load_split te); ("tune", load_split tu)] as ls eqn:LS.
  injection H as <-. rewrite in_flat_map. split.
  - intros (g & G & I). apply in_map_iff in I. destruct I as ([s l] & E & I). injection E as -> <-. split; [exact G|].
    apply filter_In in I. destruct I as [I B]. apply in_list_spec in B. cbn [fst snd] in *.
    assert (Q : exists text, l = load_split text /\ In (s, Some text) [("train", Some tr); ("val", Some va); ("test", Some te); ("tune", Some tu)]).
    { rewrite LS in I. cbn [In] in I. destruct I as [I|[I|[I|[I|[]]]]]; inversion I; subst; eexists; (split; [reflexivity|]); cbn; auto. }
    destruct Q as (text & -> & Q). unfold load_split in B. apply in_map_iff in B. destruct B as (line & B & L).
    exists s, text, line. auto.
  - intros (G & s & text & line & Q & L & C & ->). exists f. split; [exact G|]. apply in_map_iff. exists (s, load_split text).
    split; [reflexivity|]. apply filter_In. split.
    + rewrite LS. cbn [In] in Q. destruct Q as [Q|[Q|[Q|[Q|[]]]]]; inversion Q; subst; cbn; auto.
    + apply in_list_spec. cbn [snd]. rewrite <- C. apply in_map. exact L.
Qed.

Lemma nodup_map_inj : forall {A B} (f : A -> B) l, (forall x y, f x = f y -> x = y) -> NoDup l -> NoDup (map f l).
Proof.
  intros A B f l I ND; induction ND as [|x l N ND IH]; [constructor|]. cbn. constructor; [|exact IH].
  rewrite in_map_iff. intros (y & E & J). apply I in E. subst. contradiction.
Qed.

Lemma nodup_filter : forall {A} (f : A -> bool) l, NoDup l -> NoDup (filter f l).
Proof. intros. apply NoDup_filter. assumption. Qed.

Lemma split_no_overwrite : forall sf files copies, perform_split sf files = Ok copies -> NoDup files -> NoDup (map snd copies).
Proof.
  intros [tr va te tu] files copies H ND. unfold perform_split in H. cbn [f_train f_val f_test f_tune] in *.
  destruct tr as [tr|]; [|discriminate]. destruct va as [va|]; [|discriminate]. destruct te as [te|]; [|discriminate].
  destruct tu as [tu|]; [|discriminate]. 
  remember [("train", load_split tr); ("val", load_split va); ("test", load_split te); ("tune", load_split tu)] as ls eqn:LS.
  injection H as <-.
  assert (NK : NoDup (map fst ls)) by (subst ls; cbn; repeat constructor; cbn; intuition discriminate).
  induction ND as [|f files N ND IH]; [constructor|]. cbn [flat_map]. rewrite map_app, map_map. cbn [snd].
  assert (D : forall t, In t (map (fun s => target (fst s) f) (filter (fun s => in_list (snd f) (snd s)) ls)) -> exists s, t = target s f).
  { intros t I. apply in_map_iff in I. destruct I as (s & <- & _). eauto. }
  assert (D' : forall t, In t (map snd (flat_map (fun f => map (fun s => (f, target (fst s) f)) (filter (fun s => in_list (snd f) (snd s)) ls)) files)) ->
    exists s g, In g files /\ t = target s g).
  { intros t I. apply in_map_iff in I. destruct I as ([g t'] & <- & I). apply in_flat_map in I. destruct I as (g' & G & I).
    apply in_map_iff in I. destruct I as (s & E & _). injection E as -> <-. exists (fst s), g. split; [exact G|reflexivity]. }
  assert (A : NoDup (map (fun s => target (fst s) f) (filter (fun s => in_list (snd f) (snd s)) ls))).
  { rewrite <- (map_map fst (fun s => target s f)). apply nodup_map_inj.
    - intros x y E. apply target_inj in E. tauto.
    - clear - NK. induction ls as [|x ls IH]; [constructor|]. cbn [map] in NK. inversion NK; subst. cbn [filter].
      destruct (in_list (snd f) (snd x)); [|apply IH; assumption]. cbn [map]. constructor; [|apply IH; assumption].
      rewrite in_map_iff. intros (y & E & I). apply filter_In in I. apply H1. rewrite <- E. apply in_map, I. }
  clear - A IH D D' N. revert A D. generalize (map (fun s => target (fst s) f) (filter (fun s => in_list (snd f) (snd s)) ls)) as k.
  induction k as [|t k IHk]; intros A D; [exact IH|]. inversion A; subst. cbn [app]. constructor.
  - rewrite in_app_iff. intros [I|I]; [contradiction|]. destruct (D t (or_introl eq_refl)) as [s ->].
    destruct (D' _ I) as (s' & g & G & E). apply target_inj in E. destruct E as [_ <-]. contradiction.
  - apply IHk; [assumption|]. intros t' I. apply D. right. exact I.
Qed.

Lemma nodup_parts : forall {A} (x : A) a b, NoDup (a ++ b)%list -> In x a -> In x b -> False.
Proof.
  intros A x a b ND Ia Ib. induction a as [|y a IH]; [destruct Ia|]. inversion ND; subst. destruct Ia as [->|Ia]; [|auto].
  apply H1. apply in_or_app. right. exact Ib.
Qed.

(** With distinct names in the downloaded list, a sample of the list goes to
    exactly one of the three splits. *)
Lemma one_split : forall train test shuffle r0 r1 r2 old sf files copies f,
  Permutation (shuffle (read_list train)) (read_list train) -> (0 <= r1)%Z -> (0 <= r2)%Z -> (r1 + r2 <= 100)%Z ->
  NoDup (map canonical (read_list train)) ->
  fetch_splits (Some train) test shuffle [r0; r1; r2] old = Ok sf -> perform_split sf files = Ok copies ->
  In f files -> In (snd f) (map canonical (read_list train)) ->
  exists s, In s ["train"; "val"; "tune"] /\
    forall s', In s' ["train"; "val"; "tune"] -> (In (f, target s' f) copies <-> s' = s).
Proof.
  intros train test shuffle r0 r1 r2 old sf files copies f P H1 H2 H3 ND F C I L.
  destruct (split_files_ok train test shuffle r0 r1 r2 old P H1 H2 H3) as (t & v & u & E & Q & _).
  rewrite E in F. inversion F; subst sf. clear F E.
  assert (Q' := Permutation_map canonical Q). rewrite !map_app in Q'.
  assert (ND' : NoDup (map canonical (read_list t) ++ map canonical (read_list v) ++ map canonical (read_list u))).
  { eapply Permutation_NoDup; [apply Permutation_sym; exact Q'|exact ND]. }
  assert (L' : In (snd f) (map canonical (read_list t) ++ map canonical (read_list v) ++ map canonical (read_list u))%list).
  { eapply Permutation_in; [apply Permutation_sym; exact Q'|exact L]. }
  assert (K : forall s' text, In (s', text) [("train", t); ("val", v); ("tune", u)] ->
            (In (f, target s' f) copies <-> In (snd f) (map canonical (read_list text)))).
  { intros s' text S'. rewrite (split_copies _ _ _ C). split.
    - intros (_ & s & tx & line & A & B & D & T). apply target_inj in T. destruct T as [<- _]. rewrite <- D. apply in_map.
      cbn [f_train f_val f_test f_tune] in A. cbn [In] in S', A. destruct S' as [S'|[S'|[S'|[]]]]; inversion S'; subst;
      destruct A as [A|[A|[A|[A|[]]]]]; inversion A; subst; exact B.
    - intros J. split; [exact I|]. apply in_map_iff in J. destruct J as (line & D & B). exists s', text, line.
      split; [|auto]. cbn [f_train f_val f_test f_tune]. cbn [In] in *.
      destruct S' as [S'|[S'|[S'|[]]]]; inversion S'; subst; auto. }
  assert (Kt := K "train" t (or_introl eq_refl)). assert (Kv := K "val" v (or_intror (or_introl eq_refl))).
  assert (Ku := K "tune" u (or_intror (or_intror (or_introl eq_refl)))).
  assert (Dt : In (snd f) (map canonical (read_list t)) -> In (snd f) (map canonical (read_list v) ++ map canonical (read_list u))%list -> False)
    by (intros; eapply nodup_parts; eauto).
  assert (Dv : In (snd f) (map canonical (read_list v)) -> In (snd f) (map canonical (read_list u)) -> False).
  { intros Jv Ju. apply (nodup_parts (snd f) (map canonical (read_list v)) (map canonical (read_list u))); auto.
    clear - ND'. induction (map canonical (read_list t)) as [|x l IH]; [exact ND'|]. inversion ND'; auto. }
  rewrite in_app_iff in Dt. rewrite !in_app_iff in L'.
  destruct L' as [J|[J|J]]; [exists "train"|exists "val"|exists "tune"]; (split; [cbn; tauto|]);
    intros s' S'; cbn [In] in S'; destruct S' as [<-|[<-|[<-|[]]]]; (split; [intros B|try discriminate; intros _; tauto]);
    try reflexivity; exfalso; tauto.
Qed.

(** ** Conversion *)

Lemma convert_named : forall ex ok flows d x e, In (d, x ++ "_flow" ++ e) flows -> ~ mem "_" e ->
  ex (d, x ++ "_img1.tif") = true -> ex (d, x ++ "_img2.tif") = true ->
  ok (d, x ++ "_flow" ++ e) (d, x ++ "_img1.tif") (d, x ++ "_img2.tif") = true ->
  In ((d, x ++ ".mat"), ((d, x ++ "_flow" ++ e), (d, x ++ "_img1.tif"), (d, x ++ "_img2.tif"))) (convert ex ok flows).
Proof.
  intros ex ok flows d x e I U E1 E2 E3.
  assert (B : before_last "_flow" (x ++ "_flow" ++ e) = Some x).
  { apply (before_last_app "flow" x e); [|exact U]. intros M; cbn in M; intuition discriminate. }
  induction flows as [|[d' n] flows IH]; [destruct I|]. cbn [convert]. destruct I as [I|I].
  - apply pair_equal_spec in I. destruct I as [-> ->]. rewrite B, E1, E2, E3. left. reflexivity.
  - specialize (IH I). destruct (before_last "_flow" n); [|exact IH]. destruct (ex _ && ex _ && ok _ _ _); [right|]; exact IH.
Qed.

Lemma before_last_some : forall m s p, before_last m s = Some p -> exists e, s = p ++ m ++ e.
Proof.
  intros m; induction s as [|a s IH]; intros p H; cbn [before_last] in H.
  - destruct (prefix m "") eqn:P; [|discriminate]. inversion H; subst. apply prefix_occurs in P. exact P.
  - destruct (before_last m s) as [q|] eqn:E.
    + inversion H; subst. destruct (IH q eq_refl) as [e ->]. exists e. reflexivity.
    + destruct (prefix m (String a s)) eqn:P; [|discriminate]. inversion H; subst. apply prefix_occurs in P. exact P.
Qed.

(** Every packed file comes from the triplet of its name. *)
Lemma convert_origin : forall ex ok flows d n t, In ((d, n), t) (convert ex ok flows) ->
  exists x e, n = x ++ ".mat" /\ t = ((d, x ++ "_flow" ++ e), (d, x ++ "_img1.tif"), (d, x ++ "_img2.tif")) /\
    In (d, x ++ "_flow" ++ e) flows /\ ex (d, x ++ "_img1.tif") = true /\ ex (d, x ++ "_img2.tif") = true.
Proof.
  intros ex ok flows d n t; induction flows as [|[d' n'] flows IH]; cbn [convert]; [intros []|].
  assert (G : In (d, n, t) (convert ex ok flows) -> exists x e, n = x ++ ".mat" /\ t = ((d, x ++ "_flow" ++ e), (d, x ++ "_img1.tif"), (d, x ++ "_img2.tif")) /\
    In (d, x ++ "_flow" ++ e) ((d', n') :: flows) /\ ex (d, x ++ "_img1.tif") = true /\ ex (d, x ++ "_img2.tif") = true).
  { intros I. destruct (IH I) as (x & e & A & B & C & D). exists x, e. split; [exact A|]. split; [exact B|]. split; [right; exact C|exact D]. }
  destruct (before_last "_flow" n') as [p|] eqn:E; [|exact G].
  destruct (ex (d', p ++ "_img1.tif")) eqn:E1; [|exact G]. destruct (ex (d', p ++ "_img2.tif")) eqn:E2; [|exact G].
  destruct (ok (d', n') (d', p ++ "_img1.tif") (d', p ++ "_img2.tif")); [|exact G]. cbn [andb].
  intros [I|I]; [|exact (G I)]. inversion I; subst. destruct (before_last_some _ _ _ E) as [e ->]. exists p, e.
  split; [reflexivity|]. split; [reflexivity|]. split; [left; reflexivity|auto].
Qed.

(** ** .flo *)

Lemma i32_le : forall z, (0 <= z < 2147483648)%Z ->
  i32 (z mod 256) (z / 256 mod 256) (z / 65536 mod 256) (z / 16777216) = z.
Proof.
  intros z H. unfold i32, u32.
  replace (z / 65536)%Z with (z / 256 / 256)%Z by (rewrite Z.div_div by lia; reflexivity).
  replace (z / 16777216)%Z with (z / 256 / 256 / 256)%Z by (rewrite !Z.div_div by lia; reflexivity).
  assert (E1 := Z_div_mod_eq_full z 256). assert (E2 := Z_div_mod_eq_full (z / 256) 256). assert (E3 := Z_div_mod_eq_full (z / 256 / 256) 256).
  replace (z mod 256 + 256 * ((z / 256) mod 256 + 256 * ((z / 256 / 256) mod 256 + 256 * (z / 256 / 256 / 256))))%Z with z by lia.
  destruct (Z.ltb_spec z 2147483648); lia.
Qed.

Lemma floats_back : forall vs rest n, n = List.length vs ->
  floats n (flat_map (fun v => let '(a, b, c, d) := v in [a; b; c; d]) vs ++ rest)%list = vs.
Proof.
  induction vs as [|[[[a b] c] d] vs IH]; intros rest n ->; [destruct rest; reflexivity|]. cbn [List.length flat_map app floats].
  rewrite IH; reflexivity.
Qed.

Lemma flo_read : forall h w (vs : list f32) rest, List.length vs = 2 * w * h ->
  (Z.of_nat w < 2147483648)%Z -> (Z.of_nat h < 2147483648)%Z ->
  read_flo (flo_file h w vs ++ rest) = Ok (h, w, vs).
Proof.
  intros h w vs rest L W H. unfold flo_file, le_bytes. rewrite <- !app_assoc. cbn [app]. unfold read_flo. cbn [firstn skipn].
  destruct (list_eq_dec Z.eq_dec [80; 73; 69; 72]%Z [80; 73; 69; 72]%Z) as [_|N]; [|congruence].
  rewrite !i32_le by lia. unfold fromfile. destruct (Z.ltb_spec (2 * Z.of_nat w * Z.of_nat h) 0); [lia|].
  replace (Z.to_nat (2 * Z.of_nat w * Z.of_nat h)) with (2 * w * h) by lia.
  rewrite (floats_back vs rest) by (symmetry; exact L). unfold flo_shape.
  destruct (Z.ltb_spec (Z.of_nat h) 0); [lia|]. destruct (Z.ltb_spec (Z.of_nat w) 0); [lia|].
  rewrite !Nat2Z.id, L, Nat.eqb_refl. reflexivity.
Qed.

Lemma floats_length : forall n b, List.length (floats n b) = Nat.min n (List.length b / 4).
Proof.
  induction n as [|n IH]; intros b; [reflexivity|]. destruct b as [|b0 [|b1 [|b2 [|b3 b]]]]; cbn [floats]; try reflexivity.
  cbn [List.length]. rewrite IH. replace (S (S (S (S (List.length b))))) with (List.length b + 1 * 4) by lia.
  rewrite Nat.div_add by lia. lia.
Qed.

(** What is accepted. *)
Lemma flo_accepted : forall bytes h w vs, read_flo bytes = Ok (h, w, vs) ->
  firstn 4 bytes = [80; 73; 69; 72]%Z /\ List.length vs = 2 * w * h /\ 12 + 8 * (w * h) <= List.length bytes.
Proof.
  intros bytes h w vs H. unfold read_flo in H.
  destruct (list_eq_dec Z.eq_dec (firstn 4 bytes) [80; 73; 69; 72]%Z) as [E|]; [|discriminate]. split; [exact E|].
  assert (L : List.length bytes = 4 + List.length (skipn 4 bytes)).
  { assert (L := f_equal (@List.length Z) E). rewrite firstn_length in L. cbn [List.length] in L. rewrite skipn_length. lia. }
  destruct (skipn 4 bytes) as [|a0 [|a1 [|a2 [|a3 [|b0 [|b1 [|b2 [|b3 body]]]]]]]]; try discriminate.
  cbv zeta in H. set (d := fromfile (2 * i32 a0 a1 a2 a3 * i32 b0 b1 b2 b3) body) in *.
  assert (K : 4 * List.length d <= List.length body).
  { assert (D := Nat.mul_div_le (List.length body) 4 ltac:(lia)). unfold d, fromfile.
    destruct (_ <? 0)%Z; rewrite floats_length; lia. }
  destruct (flo_shape (i32 b0 b1 b2 b3) (i32 a0 a1 a2 a3) (List.length d)) as [[h' w']|] eqn:S; [|discriminate].
  injection H as <- <- <-. rewrite L. cbn [List.length].
  assert (N : List.length d = 2 * w' * h'); [|split; [exact N | nia]].
  unfold flo_shape in S. destruct (i32 b0 b1 b2 b3 <? 0)%Z; destruct (i32 a0 a1 a2 a3 <? 0)%Z; try discriminate.
  - destruct (Nat.eqb_spec (2 * Z.to_nat (i32 a0 a1 a2 a3)) 0) as [|Z0]; [discriminate|]. cbn [negb andb] in S.
    destruct (Nat.eqb_spec (List.length d mod (2 * Z.to_nat (i32 a0 a1 a2 a3))) 0) as [M|]; [|discriminate].
    injection S as <- <-. pose proof (Nat.div_mod (List.length d) _ Z0) as X. rewrite M, Nat.add_0_r in X. exact X.
  - destruct (Nat.eqb_spec (2 * Z.to_nat (i32 b0 b1 b2 b3)) 0) as [|Z0]; [discriminate|]. cbn [negb andb] in S.
    destruct (Nat.eqb_spec (List.length d mod (2 * Z.to_nat (i32 b0 b1 b2 b3))) 0) as [M|]; [|discriminate].
    injection S as <- <-. pose proof (Nat.div_mod (List.length d) _ Z0) as X. rewrite M, Nat.add_0_r in X. clear -X. set (q := List.length d / _) in *. rewrite X. ring.
  - destruct (Nat.eqb_spec (List.length d) (2 * Z.to_nat (i32 a0 a1 a2 a3) * Z.to_nat (i32 b0 b1 b2 b3))) as [M|]; [|discriminate].
    injection S as <- <-. exact M.
Qed.
