(** What [make] accepts and builds. *)
From Coq Require Import List Arith ZArith QArith String Bool Lia Permutation Sorted.
From Verif Require Import Prelude Model.PyVal Model.Types Spec.TypesSpec Proofs.TypesProofs Model.Base Model.Files
  Spec.FilesSpec Proofs.FilesProofs Model.Loaders Model.Episodic Model.Prefetch Model.Sampler Model.Stack Model.Geometry
  Model.Make Spec.MakeSpec.
Import ListNotations.
Local Open Scope string_scope.
Local Open Scope nat_scope.

(** ** Results *)

Lemma bind_ok : forall {A B} (r : result A) (f : A -> result B) b,
  bind r f = Ok b <-> exists a, r = Ok a /\ f a = Ok b.
Proof.
  intros A B [a|e] f b; cbn; split.
  - intros H. exists a. auto.
  - intros (a' & E & H). inversion E. subst. exact H.
  - discriminate.
  - intros (a' & E & _). discriminate.
Qed.

Lemma check_ok : forall c u, check c = Ok u <-> c = true.
Proof. intros [] []; cbn; split; intros H; try discriminate; reflexivity. Qed.

(** ** Dictionary entries *)

Lemma given_cons : forall {A} k k' (v : A) d, given k ((k', v) :: d) = if String.eqb k k' then Some v else given k d.
Proof. intros A k k' v d. unfold given. cbn [find fst]. destruct (String.eqb k k'); reflexivity. Qed.

Lemma dict_get_given : forall d k def, dict_get d k def = match given k d with Some v => v | None => def end.
Proof.
  intros d k def. induction d as [|[k' v] d IH]; [reflexivity|].
  rewrite given_cons. cbn [dict_get]. destruct (String.eqb k k'); auto.
Qed.
Lemma dict_in_given : forall d k, dict_in d k = match given k d with Some _ => true | None => false end.
Proof.
  intros d k. induction d as [|[k' v] d IH]; [reflexivity|].
  rewrite given_cons. unfold dict_in in *. cbn [existsb fst]. destruct (String.eqb k k'); auto.
Qed.
Lemma dict_item_ok : forall d k v, dict_item d k = Ok v <-> given k d = Some v.
Proof.
  intros d k v. unfold dict_item. rewrite dict_in_given, dict_get_given. destruct (given k d); split; intros H; inversion H; auto.
Qed.
Lemma dict_item_err : forall d k e, dict_item d k = Err e -> given k d = None /\ e = KeyError.
Proof. intros d k e. unfold dict_item. rewrite dict_in_given. destruct (given k d); intros H; inversion H; auto. Qed.
Lemma setting_get : forall d k def v, setting d k def v <-> dict_get d k def = v.
Proof.
  intros d k def v. rewrite dict_get_given. unfold setting. destruct (given k d) as [x|]; split.
  - intros [H|[H _]]; [inversion H; auto | discriminate].
  - intros ->. auto.
  - intros [H|[_ H]]; [discriminate | auto].
  - intros <-. auto.
Qed.

(** ** Integers *)

Lemma int_of_integer : forall v z, int_of v = Some z <-> integer v z.
Proof.
  intros v z. split.
  - destruct v as [ | [] | | | | | | ]; cbn; intros H; inversion H; constructor.
  - intros H. destruct H; reflexivity.
Qed.
Lemma integer_fun : forall v y z, integer v y -> integer v z -> y = z.
Proof. intros v y z. rewrite <- !int_of_integer. congruence. Qed.

Lemma pos_int_ok : forall v n, pos_int v = Ok n <-> integer v (Z.of_nat n) /\ 0 < n.
Proof.
  intros v n. unfold pos_int. split.
  - destruct (int_of v) as [z|] eqn:E; [|discriminate]. destruct (0 <? z)%Z eqn:P; [|discriminate].
    intros H. inversion H. subst. apply Z.ltb_lt in P. rewrite Z2Nat.id by lia. split; [apply int_of_integer, E | lia].
  - intros [H P]. apply int_of_integer in H. rewrite H. replace (0 <? Z.of_nat n)%Z with true by (symmetry; apply Z.ltb_lt; lia).
    now rewrite Nat2Z.id.
Qed.
Lemma pos_int_err : forall v e, pos_int v = Err e -> e = ValueError.
Proof. intros v e. unfold pos_int. destruct (int_of v) as [z|]; [destruct (0 <? z)%Z|]; congruence. Qed.
Lemma nonneg_int_ok : forall v n, nonneg_int v = Ok n <-> integer v (Z.of_nat n).
Proof.
  intros v n. unfold nonneg_int. split.
  - destruct (int_of v) as [z|] eqn:E; [|discriminate]. destruct (0 <=? z)%Z eqn:P; [|discriminate].
    intros H. inversion H. subst. apply Z.leb_le in P. rewrite Z2Nat.id by lia. apply int_of_integer, E.
  - intros H. apply int_of_integer in H. rewrite H. replace (0 <=? Z.of_nat n)%Z with true by (symmetry; apply Z.leb_le; lia).
    now rewrite Nat2Z.id.
Qed.
Lemma nonneg_int_err : forall v e, nonneg_int v = Err e -> e = ValueError.
Proof. intros v e. unfold nonneg_int. destruct (int_of v) as [z|]; [destruct (0 <=? z)%Z|]; congruence. Qed.

Lemma prng_key_ok : forall v k, prng_key v = Ok k <-> exists z, integer v z /\ (- 2 ^ 63 <= z < 2 ^ 63)%Z /\ k = Seed z.
Proof.
  intros v k. unfold prng_key. split.
  - destruct (int_of v) as [z|] eqn:E; [|discriminate]. destruct ((_ <=? z)%Z && _) eqn:P; [|discriminate].
    intros H. inversion H. exists z. apply andb_prop in P. destruct P as [P1 P2]. apply Z.leb_le in P1. apply Z.ltb_lt in P2.
    split; [apply int_of_integer, E | auto].
  - intros (z & H & [P1 P2] & ->). apply int_of_integer in H. rewrite H. apply Z.leb_le in P1. apply Z.ltb_lt in P2.
    rewrite P1, P2. reflexivity.
Qed.

(** ** The file scheduler *)

Lemma extension_inj : forall c c', extension c = extension c' -> c = c'.
Proof. intros [] []; cbn; congruence. Qed.

Lemma get_base_scheduler_ok : forall v c, get_base_scheduler v = Ok c <-> v = PStr (extension c).
Proof.
  intros v c. unfold get_base_scheduler. split.
  - destruct (negb (hashable v)); [discriminate|]. destruct v as [ | | | | s | | | ]; try discriminate.
    destruct (String.eqb s ".h5") eqn:E1; [intros H; inversion H; apply String.eqb_eq in E1; subst; reflexivity|].
    destruct (String.eqb s ".mat") eqn:E2; [intros H; inversion H; apply String.eqb_eq in E2; subst; reflexivity|].
    destruct (String.eqb s ".npy") eqn:E3; [intros H; inversion H; apply String.eqb_eq in E3; subst; reflexivity|discriminate].
  - intros ->. destruct c; reflexivity.
Qed.
Lemma get_base_scheduler_err : forall v e, get_base_scheduler v = Err e -> e = ValueError \/ e = TypeError.
Proof.
  intros v e. unfold get_base_scheduler. destruct (negb (hashable v)); [intros H; inversion H; auto|].
  destruct v as [ | | | | s | | | ]; try (intros H; inversion H; auto; fail).
  destruct (String.eqb s ".h5"); [discriminate|]. destruct (String.eqb s ".mat"); [discriminate|].
  destruct (String.eqb s ".npy"); [discriminate|]. intros H; inversion H; auto.
Qed.

Lemma strings_ok : forall l fl, strings l = Some fl <-> l = map PStr fl.
Proof.
  intros l. induction l as [|v l IH]; intros fl.
  - cbn. split; [intros H; inversion H; reflexivity | destruct fl; [reflexivity | discriminate]].
  - destruct v; cbn [strings]; try (split; [discriminate | destruct fl; discriminate]).
    split.
    + destruct (strings l) as [fl'|]; [|discriminate]. intros H. cbn in H. inversion H. cbn. f_equal. apply IH. reflexivity.
    + destruct fl as [|f fl]; [discriminate|]. cbn. intros H. inversion H. subst. rewrite (proj2 (IH fl) eq_refl). reflexivity.
Qed.

Lemma str_leb_trans : forall a b c, str_leb a b = true -> str_leb b c = true -> str_leb a c = true.
Proof.
  induction a as [|x a IH]; intros [|y b] [|z c]; cbn [str_leb]; intros H1 H2; auto; try discriminate.
  destruct (Nat.ltb_spec (Ascii.nat_of_ascii x) (Ascii.nat_of_ascii y)); destruct (Nat.ltb_spec (Ascii.nat_of_ascii y) (Ascii.nat_of_ascii z));
  destruct (Nat.ltb_spec (Ascii.nat_of_ascii x) (Ascii.nat_of_ascii z)); auto; try lia;
  destruct (Nat.ltb_spec (Ascii.nat_of_ascii y) (Ascii.nat_of_ascii x)); try discriminate; try lia;
  destruct (Nat.ltb_spec (Ascii.nat_of_ascii z) (Ascii.nat_of_ascii y)); try discriminate; try lia;
  destruct (Nat.ltb_spec (Ascii.nat_of_ascii z) (Ascii.nat_of_ascii x)); try lia; eauto.
Qed.
Lemma str_leb_antisym : forall a b, str_leb a b = true -> str_leb b a = true -> a = b.
Proof.
  induction a as [|x a IH]; intros [|y b]; cbn [str_leb]; intros H1 H2; auto; try discriminate.
  destruct (Nat.ltb_spec (Ascii.nat_of_ascii x) (Ascii.nat_of_ascii y)); destruct (Nat.ltb_spec (Ascii.nat_of_ascii y) (Ascii.nat_of_ascii x)); try lia; try discriminate.
  f_equal; [|apply IH; auto].
  rewrite <- (Ascii.ascii_nat_embedding x), <- (Ascii.ascii_nat_embedding y). f_equal. lia.
Qed.

Lemma sorted_unique : forall l l', Permutation l l' -> Sorted str_le l -> Sorted str_le l' -> l = l'.
Proof.
  assert (T : Relations_1.Transitive str_le) by (intros a b c; apply str_leb_trans).
  induction l as [|x l IH]; intros l' P S S'.
  - apply Permutation_nil in P. auto.
  - destruct l' as [|y l']; [apply Permutation_sym, Permutation_nil in P; discriminate|].
    pose proof (Sorted_StronglySorted T S) as SS. pose proof (Sorted_StronglySorted T S') as SS'.
    inversion SS as [|? ? _ F]; subst. inversion SS' as [|? ? _ F']; subst. rewrite Forall_forall in F, F'.
    assert (E : x = y).
    { assert (Ix : In x (y :: l')) by (eapply Permutation_in; [exact P | left; auto]).
      assert (Iy : In y (x :: l)) by (eapply Permutation_in; [apply Permutation_sym, P | left; auto]).
      destruct Ix as [<-|Ix]; [reflexivity|]. destruct Iy as [<-|Iy]; [reflexivity|].
      apply str_leb_antisym; [apply F, Iy | apply F', Ix]. }
    subst y. f_equal. apply IH.
    + eapply Permutation_cons_inv, P.
    + inversion S; auto.
    + inversion S'; auto.
Qed.

Lemma expand_unique : forall f pat fl segs, Forall2 (stands_for f pat) fl segs -> expand f pat fl = List.concat segs.
Proof.
  intros f pat fl segs H. induction H as [|p seg fl segs H _ IH]; [reflexivity|].
  unfold expand in *. cbn [flat_map List.concat]. rewrite IH. f_equal.
  destruct H as [[-> ->]|(-> & P & S)]; [reflexivity|].
  symmetry. apply sorted_unique; [|exact S|apply sorted_sorted].
  eapply perm_trans; [exact P | apply Permutation_sym, sorted_perm].
Qed.

Lemma construct_base_ok : forall f pat c fl k s,
  construct_base f pat c fl k = Ok s <->
  exists segs, Forall2 (stands_for f pat) fl segs /\ List.concat segs <> [] /\
    (forall p, In p (List.concat segs) -> fs_isfile f p = true) /\ s = init c (List.concat segs) k.
Proof.
  intros f pat c fl k s. split.
  - intros H. apply construct_base_spec in H. destruct H as (l & segs & -> & H2 & H3 & H4 & H5). exists segs. auto.
  - intros (segs & H & NE & F & ->). unfold construct_base. rewrite (expand_unique _ _ _ _ H).
    destruct (List.concat segs) as [|p l] eqn:E; [congruence|].
    replace (forallb (fs_isfile f) (p :: l)) with true; [reflexivity|]. symmetry. apply forallb_forall, F.
Qed.

Lemma forallb_suffix : forall e l, forallb (fun p => ends_with p e) l = true <-> forall p, In p l -> has_suffix p e.
Proof. intros e l. rewrite forallb_forall. split; intros H p Hp; apply ends_with_spec; auto. Qed.

(** The file list argument after the class-specific check. *)
Definition class_check (cls : fclass) (fl : list string) (s : st) : Prop :=
  match cls with
  | H5 => forall p, In p fl -> has_suffix p ".h5"
  | Mat => forall p, In p (s_files s) -> has_suffix p ".mat"
  | Npy => forall p, In p (s_files s) -> has_suffix p ".npy"
  end.
Definition construct_class (w : world) (a : fattrs) (c : cfg) (fl : list string) : result st :=
  match fa_class a with
  | H5 => construct_h5 (w_fs w) c fl (Seed 0)
  | Mat => construct_mat (w_fs w) c fl (Seed 0)
  | Npy => construct_npy (w_fs w) (fa_images a) c fl (Seed 0)
  end.

Lemma construct_class_ok : forall w a c fl s, (fa_images a = true -> fa_class a = Mat) ->
  (construct_class w a c fl = Ok s <->
   construct_base (w_fs w) (search (fa_class a)) c fl (Seed 0) = Ok s /\ class_check (fa_class a) fl s).
Proof.
  intros w a c fl s HI. unfold construct_class, class_check. destruct a as [cls inc sh]. cbn [fa_class fa_images] in *.
  destruct cls; cbn [search].
  - unfold construct_h5. rewrite bind_ok. rewrite <- forallb_suffix. split.
    + intros (s0 & A & H). destruct (forallb _ fl) eqn:E; [|discriminate]. inversion H. subst. auto.
    + intros (A & H). exists s. rewrite H. auto.
  - unfold construct_mat. rewrite bind_ok. rewrite <- forallb_suffix. split.
    + intros (s0 & A & H). destruct (forallb _ (s_files s0)) eqn:E; [|discriminate]. inversion H. subst. auto.
    + intros (A & H). exists s. rewrite H. auto.
  - unfold construct_npy. rewrite bind_ok. rewrite <- forallb_suffix. destruct inc; [specialize (HI eq_refl); discriminate|]. split.
    + intros (s0 & A & H). destruct (forallb _ (s_files s0)) eqn:E; [|discriminate]. inversion H. subst. auto.
    + intros (A & H). exists s. rewrite H. auto.
Qed.

Lemma construct_base_err : forall f pat c fl k e, construct_base f pat c fl k = Err e -> e = ValueError.
Proof.
  intros f pat c fl k e. unfold construct_base. destruct (expand f pat fl); [congruence|]. destruct (forallb _ _); congruence.
Qed.
Lemma construct_class_err : forall w a c fl e, (fa_images a = true -> fa_class a = Mat) ->
  construct_class w a c fl = Err e -> e = ValueError.
Proof.
  intros w a c fl e HI. unfold construct_class. destruct a as [cls inc sh]. cbn [fa_class fa_images] in *.
  destruct cls; unfold construct_h5, construct_mat, construct_npy.
  1,2: destruct (construct_base _ _ _ _ _) eqn:E; cbn [bind]; [|apply construct_base_err in E; congruence];
       match goal with |- context [forallb ?f ?l] => destruct (forallb f l) end; congruence.
  destruct inc; [specialize (HI eq_refl); discriminate|].
  destruct (construct_base _ _ _ _ _) eqn:E; cbn [bind]; [|apply construct_base_err in E; congruence].
  match goal with |- context [forallb ?f ?l] => destruct (forallb f l) end; congruence.
Qed.

Definition kwargs_of (d : list (string * pyval)) (inc : bool) : list (string * pyval) :=
  [("file_list", dict_get d "file_list" (PList [])); ("randomize", dict_get d "randomize" (PBool false));
   ("loop", dict_get d "loop" (PBool true)); ("include_images", PBool inc)].

Lemma file_scheduler_ok : forall w d a sch, (fa_images a = true -> fa_class a = Mat) ->
  image_setting d (fa_images a) (fa_shape a) ->
  (file_scheduler w a (kwargs_of d (fa_images a)) = Ok sch <-> exists c s, sch = SFile a c s /\ file_stage w d a c s).
Proof.
  intros w d a sch HI HS. unfold file_scheduler, kwargs_of. cbn [dict_get String.eqb Ascii.eqb Bool.eqb].
  split.
  - destruct (dict_get d "file_list" (PList [])) as [ | | | | | l | | ] eqn:E1; try discriminate.
    destruct (strings l) as [fl|] eqn:E2; [|discriminate].
    destruct (dict_get d "randomize" (PBool false)) as [ | rand | | | | | | ] eqn:E3; try discriminate.
    destruct (dict_get d "loop" (PBool true)) as [ | loop | | | | | | ] eqn:E4; try discriminate.
    set (c := mkCfg (loader_for w a) (w_rng w) rand loop). intros H. apply bind_ok in H. destruct H as (s & H & E). inversion E. subst sch.
    exists c, s. split; [reflexivity|].
    apply (construct_class_ok w a c fl s HI) in H. destruct H as [H HC]. apply construct_base_ok in H.
    destruct H as (segs & A1 & A2 & A3 & A4). apply strings_ok in E2. subst l.
    constructor; [exact HS | split; reflexivity |]. exists fl, segs. split.
    { unfold file_settings. rewrite !setting_get. cbn [c c_randomize c_loop]. auto. }
    repeat (split; [assumption|]). exact HC.
  - intros (c & s & -> & [_ [L1 L2] (fl & segs & (F1 & F2 & F3) & A1 & A2 & A3 & A4 & A5)]).
    apply setting_get in F1, F2, F3. rewrite F1, F2, F3. rewrite (proj2 (strings_ok _ fl) eq_refl).
    assert (E : c = mkCfg (loader_for w a) (w_rng w) (c_randomize c) (c_loop c)).
    { destruct c as [x1 x2 x3 x4]. cbn in *. subst. reflexivity. }
    rewrite <- E. apply bind_ok. exists s. split; [|reflexivity].
    apply (construct_class_ok w a c fl s HI). split; [|exact A5]. apply construct_base_ok. exists segs. auto.
Qed.

Lemma file_scheduler_err : forall w d a e, (fa_images a = true -> fa_class a = Mat) ->
  file_scheduler w a (kwargs_of d (fa_images a)) = Err e -> e = ValueError.
Proof.
  intros w d a e HI. unfold file_scheduler, kwargs_of. cbn [dict_get String.eqb Ascii.eqb Bool.eqb].
  destruct (dict_get d "file_list" (PList [])) as [ | | | | | l | | ] eqn:E1; try congruence.
  destruct (strings l) as [fl|] eqn:E2; [|congruence].
  destruct (dict_get d "randomize" (PBool false)) as [ | rand | | | | | | ] eqn:E3; try congruence.
  destruct (dict_get d "loop" (PBool true)) as [ | loop | | | | | | ] eqn:E4; try congruence.
  fold (construct_class w a (mkCfg (loader_for w a) (w_rng w) rand loop) fl).
  destruct (construct_class _ _ _ _) eqn:E; cbn [bind]; [discriminate|]. intros H. inversion H. subst.
  eapply construct_class_err; eauto.
Qed.

(** ** The configured image shape *)

Definition shape_arg (d : list (string * pyval)) (cls : fclass) (inc : bool) : result (nat * nat) :=
  if inc then
    match cls with
    | Mat =>
        bind (py_iter (dict_get d "image_shape" (PTuple [PInt 256; PInt 256]))) (fun l =>
        match l with
        | [a; b] => bind (pos_int a) (fun h => bind (pos_int b) (fun x => Ok (h, x)))
        | _ => Err ValueError
        end)
    | _ => Err ValueError
    end
  else Ok (256, 256).

Lemma pos_int_str : forall s, pos_int (PStr s) = Err ValueError.
Proof. reflexivity. Qed.

Lemma shape_arg_ok : forall d cls inc sh,
  shape_arg d cls inc = Ok sh <-> (inc = true -> cls = Mat) /\ image_setting d inc sh.
Proof.
  intros d cls inc sh. unfold shape_arg, image_setting. destruct inc.
  - split.
    + destruct cls; try discriminate. intros H. split; [auto|]. apply bind_ok in H. destruct H as (l & Hi & H).
      destruct l as [|a [|b [|? l]]]; try discriminate.
      apply bind_ok in H. destruct H as (h & Ha & H). apply bind_ok in H. destruct H as (x & Hb & H). inversion H. subst sh.
      exists (dict_get d "image_shape" (PTuple [PInt 256; PInt 256])), a, b. cbn [fst snd].
      split; [apply setting_get; reflexivity|].
      pose proof Ha as Ha'. pose proof Hb as Hb'.
      apply pos_int_ok in Ha, Hb. split; [|tauto].
      destruct (dict_get d "image_shape" (PTuple [PInt 256; PInt 256])) as [ | | | | s | l | l | l ]; cbn [py_iter] in Hi; try discriminate.
      * inversion Hi as [E]. destruct (list_ascii_of_string s) as [|q [|r ?]]; cbn in E; try discriminate.
        inversion E; subst. rewrite pos_int_str in Ha'. discriminate.
      * inversion Hi. auto.
      * inversion Hi. auto.
      * inversion Hi as [E]. destruct l as [|q l]; cbn in E; [discriminate|]. inversion E; subst. rewrite pos_int_str in Ha'. discriminate.
    + intros [HC (v & a & b & HS & HV & Ia & Ib & Pa & Pb)]. rewrite (HC eq_refl). apply setting_get in HS. rewrite HS.
      assert (E : py_iter v = Ok [a; b]) by (destruct HV as [-> | ->]; reflexivity). rewrite E. cbn [bind].
      rewrite (proj2 (pos_int_ok a (fst sh))) by auto. cbn [bind]. rewrite (proj2 (pos_int_ok b (snd sh))) by auto. cbn [bind].
      destruct sh; reflexivity.
  - split; [intros H; inversion H; split; [discriminate | reflexivity] | intros [_ ->]; reflexivity].
Qed.

(** ** The schedulers *)

Definition wrap_episodes (w : world) (B L : nat) (k : key) (file : scheduler) : result scheduler :=
  if 0 <? L then
    match file with
    | SFile a c s =>
        let (_, epi_key) := split2 k in
        bind (ep_construct (w_dirs w) c (w_rng w) s B L epi_key) (fun r => Ok (SEpisodic a (fst r) (snd r)))
    | _ => Ok file
    end
  else Ok file.

Definition build (w : world) (d : list (string * pyval)) : result (fclass * nat * bool * nat * nat * scheduler) :=
  if negb (dict_in d "scheduler_class") then Err ValueError else
  bind (get_base_scheduler (dict_get d "scheduler_class" PNone)) (fun cls =>
  if negb (dict_in d "batch_size") then Err ValueError else
  bind (pos_int (dict_get d "batch_size" PNone)) (fun B =>
  match dict_get d "include_images" (PBool false) with
  | PBool inc =>
      bind (nonneg_int (dict_get d "buffer_size" (PInt 0))) (fun N =>
      bind (nonneg_int (dict_get d "episode_length" (PInt 0))) (fun L =>
      if negb (dict_in d "flow_fields_per_batch") then Err ValueError else
      bind (prng_key (dict_get d "seed" (PInt 0))) (fun k0 =>
      let (k, sched_key) := split2 k0 in
      bind (shape_arg d cls inc) (fun shape =>
      bind (file_scheduler w (mkFattrs cls inc shape) (kwargs_of d inc)) (fun file =>
      bind (wrap_episodes w B L k file) (fun sch =>
      Ok (cls, B, inc, N, L, if 0 <? N then SPrefetch B N sch else sch)))))))
  | _ => Err TypeError
  end)).

(** The last part of [make]. *)
Definition finish (w : world) (d : list (string * pyval)) (r : fclass * nat * bool * nat * nat * scheduler) : result (sampler w) :=
  let '(cls, B, inc, N, L, sch) := r in
  if inc then bind (real_init_ok (stack_of sch)) (fun _ => Ok (RealSampler B sch))
  else
    match dict_get d "batches_per_flow_batch" PNone with
    | PNone => Err ValueError
    | v =>
        bind (if 0 <? L then py_lt one v else Ok false) (fun _ =>
        bind (synthetic_from_config w d sch) (fun p => Ok (SyntheticSampler p sch)))
    end.

Lemma make_dict_build : forall w d, make_dict w d = bind (build w d) (finish w d).
Proof.
  intros w d. unfold make_dict, build.
  destruct (negb (dict_in d "scheduler_class")); [reflexivity|].
  destruct (get_base_scheduler _) as [cls|]; [|reflexivity]. cbn [bind].
  destruct (negb (dict_in d "batch_size")); [reflexivity|].
  destruct (pos_int _) as [B|]; [|reflexivity]. cbn [bind].
  destruct (dict_get d "include_images" (PBool false)) as [ | inc | | | | | | ]; try reflexivity.
  destruct (nonneg_int (dict_get d "buffer_size" _)) as [N|]; [|reflexivity]. cbn [bind].
  destruct (nonneg_int (dict_get d "episode_length" _)) as [L|]; [|reflexivity]. cbn [bind].
  destruct (negb (dict_in d "flow_fields_per_batch")); [reflexivity|].
  destruct (prng_key _) as [k0|]; [|reflexivity]. cbn [bind].
  destruct (split2 k0) as [k sk]. fold (kwargs_of d inc). fold (shape_arg d cls inc).
  destruct (shape_arg d cls inc) as [sh|]; [|reflexivity]. cbn [bind].
  destruct (file_scheduler _ _ _) as [file|]; [|reflexivity]. cbn [bind].
  fold (wrap_episodes w B L k file).
  destruct (wrap_episodes w B L k file) as [sch|]; [|reflexivity]. cbn [bind]. reflexivity.
Qed.

Lemma wrap_ok : forall w B N L seed a c s sch,
  (exists core, wrap_episodes w B L (Child (Seed seed) 0) (SFile a c s) = Ok core /\ sch = if 0 <? N then SPrefetch B N core else core)
  <-> wrapped w B N L (Child (Child (Seed seed) 0) 1) a c s sch.
Proof.
  intros w B N L seed a c s sch. unfold wrapped, wrap_episodes. cbn [split2]. split.
  - intros (core & H & E). exists core. split.
    + destruct (Nat.ltb_spec 0 L).
      * right. split; [lia|]. apply bind_ok in H. destruct H as ([ec es] & H & E2). exists ec, es. cbn [fst snd] in E2. inversion E2. auto.
      * left. split; [lia|]. inversion H. auto.
    + destruct (Nat.ltb_spec 0 N); [right | left]; (split; [lia | auto]).
  - intros (core & HL & HN). exists core. split.
    + destruct HL as [[-> ->]|(P & ec & es & H & ->)]; [reflexivity|].
      replace (0 <? L) with true by (symmetry; apply Nat.ltb_lt; lia). rewrite H. reflexivity.
    + destruct HN as [[-> ->]|[P ->]]; [reflexivity|]. replace (0 <? N) with true by (symmetry; apply Nat.ltb_lt; lia). reflexivity.
Qed.

Lemma dict_in_true : forall d k, dict_in d k = true <-> given k d <> None.
Proof. intros d k. rewrite dict_in_given. destruct (given k d); split; congruence. Qed.

Lemma build_ok : forall w d cls B inc N L sch,
  build w d = Ok (cls, B, inc, N, L, sch) <->
  exists seed a c s, stack_settings d cls B N L inc seed /\ fa_class a = cls /\ fa_images a = inc /\
    file_stage w d a c s /\ wrapped w B N L (Child (Child (Seed seed) 0) 1) a c s sch.
Proof.
  intros w d cls B inc N L sch. unfold build. split.
  - destruct (dict_in d "scheduler_class") eqn:E1; [|discriminate]. cbn [negb]. intros H.
    apply bind_ok in H. destruct H as (cls' & Hc & H).
    destruct (dict_in d "batch_size") eqn:E2; [|discriminate]. cbn [negb] in H.
    apply bind_ok in H. destruct H as (B' & HB & H).
    destruct (dict_get d "include_images" (PBool false)) as [ | inc' | | | | | | ] eqn:E3; try discriminate.
    apply bind_ok in H. destruct H as (N' & HN & H). apply bind_ok in H. destruct H as (L' & HL & H).
    destruct (dict_in d "flow_fields_per_batch") eqn:E4; [|discriminate]. cbn [negb] in H.
    apply bind_ok in H. destruct H as (k0 & Hk & H). cbn [split2] in H.
    apply bind_ok in H. destruct H as (sh & Hs & H). apply bind_ok in H. destruct H as (file & Hf & H).
    apply bind_ok in H. destruct H as (core & Hw & H). injection H as <- <- <- <- <- <-.
    apply get_base_scheduler_ok in Hc. apply pos_int_ok in HB. apply nonneg_int_ok in HN, HL. apply prng_key_ok in Hk.
    destruct Hk as (seed & Sk & Bk & ->). apply shape_arg_ok in Hs. destruct Hs as [HI HS].
    set (a := mkFattrs cls' inc' sh) in *.
    change (kwargs_of d inc') with (kwargs_of d (fa_images a)) in Hf.
    apply file_scheduler_ok in Hf; [|exact HI|exact HS]. destruct Hf as (c & s & -> & FS).
    exists seed, a, c, s. split; [|split; [reflexivity|]; split; [reflexivity|]; split; [exact FS|]].
    + rewrite dict_get_given in Hc, HB. rewrite dict_in_given in E1, E2.
      destruct (given "scheduler_class" d) as [vc|] eqn:G1; [|discriminate]. destruct (given "batch_size" d) as [vb|] eqn:G2; [|discriminate].
      constructor.
      * rewrite G1. congruence.
      * exists vb. tauto.
      * exists (dict_get d "buffer_size" (PInt 0)). split; [apply setting_get; reflexivity | exact HN].
      * exists (dict_get d "episode_length" (PInt 0)). split; [apply setting_get; reflexivity | exact HL].
      * apply setting_get, E3.
      * apply dict_in_true, E4.
      * exists (dict_get d "seed" (PInt 0)). split; [apply setting_get; reflexivity | auto].
      * exact HI.
    + apply wrap_ok. exists core. auto.
  - intros (seed & a & c & s & [S1 (vb & S2 & S2i & S2p) (vn & S3 & S3i) (vl & S4 & S4i) S5 S6 (vs & S7 & S7i & S7b) S8] & <- & <- & FS & HW).
    rewrite !dict_in_given, S1, S2. cbn [negb]. rewrite !dict_get_given, S1, S2. rewrite (proj2 (get_base_scheduler_ok _ (fa_class a)) eq_refl). cbn [bind].
    rewrite (proj2 (pos_int_ok vb B) (conj S2i S2p)). cbn [bind].
    rewrite <- !dict_get_given. apply setting_get in S5. rewrite S5. apply setting_get in S3, S4, S7. rewrite S3, S4, S7.
    rewrite (proj2 (nonneg_int_ok _ _) S3i), (proj2 (nonneg_int_ok _ _) S4i). cbn [bind].
    destruct (given "flow_fields_per_batch" d); [|congruence]. cbn [negb].
    rewrite (proj2 (prng_key_ok vs (Seed seed))) by (exists seed; auto). cbn [bind split2].
    pose proof (fst_shape _ _ _ _ _ FS) as HS.
    rewrite (proj2 (shape_arg_ok d (fa_class a) (fa_images a) (fa_shape a)) (conj S8 HS)). cbn [bind].
    replace (mkFattrs (fa_class a) (fa_images a) (fa_shape a)) with a by (destruct a; reflexivity).
    rewrite (proj2 (file_scheduler_ok w d a (SFile a c s) S8 HS)) by (exists c, s; auto). cbn [bind].
    apply wrap_ok in HW. destruct HW as (core & -> & ->). cbn [bind]. reflexivity.
Qed.

Lemma stack_images_ok : forall w B N L k a c s sch, wrapped w B N L k a c s sch ->
  real_init_ok (stack_of sch) = if fa_images a then Ok tt else Err ValueError.
Proof.
  intros w B N L k a c s sch (core & HL & HN).
  assert (E : real_init_ok (stack_of core) = if fa_images a then Ok tt else Err ValueError).
  { destruct HL as [[_ ->]|(_ & ec & es & _ & ->)]; cbn; destruct (fa_images a); reflexivity. }
  destruct HN as [[_ ->]|[_ ->]]; [exact E | cbn; exact E].
Qed.

Lemma make_ok : forall w d smp,
  make w (PDict d) = Ok smp <->
  exists cls B N L inc seed a c s sch,
    stack_settings d cls B N L inc seed /\ fa_class a = cls /\ fa_images a = inc /\ file_stage w d a c s /\
    wrapped w B N L (Child (Child (Seed seed) 0) 1) a c s sch /\
    (if inc then smp = RealSampler B sch
     else exists p v, given "batches_per_flow_batch" d = Some v /\ v <> PNone /\
            (0 < L -> exists x, num_of v = Some x) /\
            synthetic_from_config w d sch = Ok p /\ smp = SyntheticSampler p sch).
Proof.
  intros w d smp. unfold make. cbn [load_config bind]. rewrite make_dict_build, bind_ok. split.
  - intros ([[[[[cls B] inc] N] L] sch] & HB & HF). apply build_ok in HB. destruct HB as (seed & a & c & s & H1 & H2 & H3 & H4 & H5).
    exists cls, B, N, L, inc, seed, a, c, s, sch. repeat (split; [assumption|]). unfold finish in HF. destruct inc.
    + rewrite (stack_images_ok _ _ _ _ _ _ _ _ _ H5), H3 in HF. cbn in HF. inversion HF. reflexivity.
    + rewrite dict_get_given in HF. destruct (given "batches_per_flow_batch" d) as [v|] eqn:G; [|discriminate].
      assert (Hv : v <> PNone) by (intros ->; discriminate).
      assert (HF' : bind (if 0 <? L then py_lt one v else Ok false)
        (fun _ => bind (synthetic_from_config w d sch) (fun p => Ok (SyntheticSampler p sch))) = Ok smp) by (destruct v; [congruence|exact HF..]).
      apply bind_ok in HF'. destruct HF' as (b & Hb & H). apply bind_ok in H. destruct H as (p & Hp & H). inversion H.
      exists p, v. split; [auto|]. split; [auto|]. split; [|auto].
      intros P. replace (0 <? L) with true in Hb by (symmetry; apply Nat.ltb_lt; lia).
      unfold py_lt, py_cmp in Hb. destruct (num_of one); [|discriminate]. destruct (num_of v) as [x|]; [eauto | discriminate].
  - intros (cls & B & N & L & inc & seed & a & c & s & sch & H1 & H2 & H3 & H4 & H5 & H6).
    exists (cls, B, inc, N, L, sch). split; [apply build_ok; eauto 10|]. unfold finish. destruct inc.
    + rewrite (stack_images_ok _ _ _ _ _ _ _ _ _ H5), H3. cbn. congruence.
    + destruct H6 as (p & v & G & Hv & Hx & Hp & ->). rewrite dict_get_given, G.
      assert (E : bind (if 0 <? L then py_lt one v else Ok false)
        (fun _ => bind (synthetic_from_config w d sch) (fun p => Ok (SyntheticSampler p sch))) = Ok (SyntheticSampler p sch)).
      { apply bind_ok. rewrite Hp. cbn [bind]. destruct (Nat.ltb_spec 0 L) as [P|P]; [|eauto].
        destruct (Hx P) as (x & E). unfold py_lt, py_cmp. rewrite E. cbn. eauto. }
      destruct v; [congruence|exact E..].
Qed.

(** ** The synthetic image sampler *)

Lemma is_num_of : forall v x, num_of v = Some x <-> is_num v x.
Proof.
  intros v x. unfold is_num. destruct v as [ | [] | | | | | | ]; cbn; split; intros H; try contradiction; try congruence; try (inversion H; reflexivity).
Qed.
Lemma number_setting_ok : forall d k x, number_setting d k x <-> exists v, given k d = Some v /\ num_of v = Some x.
Proof. intros d k x. unfold number_setting. split; intros (v & G & H); exists v; (split; [exact G|]); apply is_num_of in H || apply is_num_of; exact H. Qed.
Lemma number_is_num : forall v a, number v a -> exists x, is_num v x /\ to_ext x = Some a.
Proof. intros v a H. apply number_num in H. destruct H as (x & H & E). exists x. split; [apply is_num_of, H | exact E]. Qed.
Lemma number_float : forall x a, number (PFloat x) a <-> to_ext x = Some a.
Proof.
  intros x a. rewrite number_num. cbn. split; [intros (y & H & E); inversion H; subst; exact E | intros H; eauto].
Qed.

(** Iterating over something that holds a number. *)
Lemma py_iter_number : forall c l v x, py_iter c = Ok l -> In v l -> num_of v = Some x -> sequence c l.
Proof.
  intros c l v x H Hi Hn. unfold sequence. destruct c as [ | | | | s | l' | l' | l' ]; cbn [py_iter] in H; try discriminate.
  - inversion H. subst l. apply in_map_iff in Hi. destruct Hi as (q & <- & _). discriminate.
  - inversion H. auto.
  - inversion H. auto.
  - inversion H. subst l. apply in_map_iff in Hi. destruct Hi as (q & <- & _). discriminate.
Qed.
Lemma py_tuple_pair : forall c a b x, py_tuple c = Ok (PTuple [a; b]) -> num_of a = Some x -> as_pair c (PTuple [a; b]).
Proof.
  intros c a b x H Hn. apply bind_ok in H. destruct H as (l & H & E). inversion E. subst l. exists a, b. split; [|reflexivity].
  eapply py_iter_number; [exact H | left; reflexivity | exact Hn].
Qed.

Lemma mapM_ok : forall {A B} (f : A -> result B) l r, mapM f l = Ok r <-> Forall2 (fun x y => f x = Ok y) l r.
Proof.
  intros A B f l. induction l as [|x l IH]; intros r; cbn [mapM].
  - split; [intros H; inversion H; constructor | intros H; inversion H; reflexivity].
  - rewrite bind_ok. split.
    + intros (y & Hy & H). apply bind_ok in H. destruct H as (r' & H & E). inversion E. subst. constructor; [exact Hy | apply IH, H].
    + intros H. inversion H as [|? y ? r' Hy H']; subst. exists y. split; [exact Hy|]. apply bind_ok. exists r'. split; [apply IH, H' | reflexivity].
Qed.

Lemma pair_number_num : forall v ab, pair_of number v ab -> exists a b x y, v = PTuple [a; b] /\ num_of a = Some x /\ num_of b = Some y /\
  to_ext x = Some (fst ab) /\ to_ext y = Some (snd ab).
Proof.
  intros v ab H. destruct H as [u v a b Ha Hb]. apply number_num in Ha, Hb. destruct Ha as (x & Ha & Ex). destruct Hb as (y & Hb & Ey).
  exists u, v, x, y. auto.
Qed.

Lemma tuples_pairs : forall c v l, tuples c = Ok v -> list_of (pair_of number) v l -> l <> [] -> as_pairs c v.
Proof.
  intros c v l H HL NE. unfold tuples in H. apply bind_ok in H. destruct H as (cs & Hi & H). apply bind_ok in H. destruct H as (vs & Hm & E).
  inversion E. subst v. inversion HL as [us l' F]; subst. apply mapM_ok in Hm.
  assert (FP : Forall2 as_pair cs vs /\ Forall2 (fun c v => exists a b, v = PTuple [a; b] /\ py_iter c = Ok [a; b]) cs vs).
  { clear - Hm F. revert l F. induction Hm as [|c v cs vs Hc Hm IH]; intros l F; [split; constructor|].
    inversion F as [|? r ? l' Hr F']; subst. destruct (IH _ F') as [I1 I2].
    apply pair_number_num in Hr. destruct Hr as (a & b & x & y & -> & Ha & Hb & _). split; constructor; auto.
    - eapply py_tuple_pair; eauto.
    - apply bind_ok in Hc. destruct Hc as (l & Hc & E). inversion E. subst. eauto. }
  destruct FP as [F1 F2]. exists cs, vs. split; [|auto].
  destruct c as [ | | | | s | cs' | cs' | cs' ]; cbn [py_iter] in Hi; try discriminate; inversion Hi; subst; unfold sequence; auto; exfalso.
  - destruct (list_ascii_of_string s) as [|q r]; cbn in *.
    + inversion F1; subst. inversion F; subst. congruence.
    + inversion F1 as [|? ? ? ? Hp]; subst. destruct Hp as (a & b & [Hp|Hp] & _); discriminate.
  - destruct cs' as [|q r]; cbn in *.
    + inversion F1; subst. inversion F; subst. congruence.
    + inversion F1 as [|? ? ? ? Hp]; subst. destruct Hp as (a & b & [Hp|Hp] & _); discriminate.
Qed.

(** What validation says about the fields whose form matters. *)
Record shaped (gs : ispec) : Prop := mkShaped {
  sh_batch : exists z, integer (i_batch_size gs) z /\ (0 < z)%Z;
  sh_image : exists hw, pair_of integer (i_image_shape gs) hw /\ (0 < fst hw)%Z /\ (0 < snd hw)%Z;
  sh_offset : exists r, pair_of number (i_img_offset gs) r;
  sh_density : exists r, pair_of number (i_seeding_density_range gs) r /\ le (fst r) (snd r);
  sh_hide1 : exists a, number (i_p_hide_img1 gs) a;
  sh_hide2 : exists a, number (i_p_hide_img2 gs) a;
  sh_diameters : exists l, list_of (pair_of number) (i_diameter_ranges gs) l /\ l <> [];
  sh_intensities : exists l, list_of (pair_of number) (i_intensity_ranges gs) l /\ l <> [];
  sh_rhos : exists l, list_of (pair_of number) (i_rho_ranges gs) l /\ l <> [];
  sh_dt : exists x, is_num (i_dt gs) x
}.

Lemma post_init_shaped : forall gs, post_init gs = Ok tt -> shaped gs.
Proof.
  intros gs H. unfold post_init in H.
  apply require_ok in H. destruct H as [H1 H]. apply require_ok in H. destruct H as [H2 H]. apply require_ok in H. destruct H as [H3 H].
  apply require_ok in H. destruct H as [H4 H]. apply require_ok in H. destruct H as [_ H]. apply require_ok in H. destruct H as [H5 H].
  apply require_ok in H. destruct H as [H6 H]. apply require_ok in H. destruct H as [H7 H]. apply require_ok in H. destruct H as [H8 H].
  apply require_ok in H. destruct H as [H9 H]. apply require_ok in H. destruct H as [H10 H]. apply require_ok in H. destruct H as [H11 H].
  apply require_ok in H. destruct H as [H12 H]. apply require_ok in H. destruct H as [H13 H].
  apply require_ok in H. destruct H as [_ H]. apply require_ok in H. destruct H as [_ H]. apply require_ok in H. destruct H as [_ H].
  apply require_ok in H. destruct H as [_ H]. apply require_ok in H. destruct H as [_ H]. apply require_ok in H. destruct H as [_ H].
  apply require_ok in H. destruct H as [H14 _].
  constructor.
  - apply positive_int_ok, H1.
  - apply (tuple2_ok integer (fun z => (0 < z)%Z) positive_int positive_int_ok) in H2. exact H2.
  - apply (tuple2_ok number non_negative non_negative_number non_negative_ok) in H5. destruct H5 as (r & H5 & _). eauto.
  - apply density_ok in H7; [|exact H6]. destruct H7 as (r & Hr & _ & Hl). eauto.
  - apply probability_ok in H3. destruct H3 as (a & Ha & _). eauto.
  - apply probability_ok in H4. destruct H4 as (a & Ha & _). eauto.
  - destruct (proj1 (ranges_ok positive_range _ (i_diameter_ranges gs) positive_range_ok) (conj H8 H9)) as (l & A & B & _). eauto.
  - destruct (proj1 (ranges_ok positive_range _ (i_intensity_ranges gs) positive_range_ok) (conj H10 H11)) as (l & A & B & _). eauto.
  - destruct (proj1 (ranges_ok correlation_range _ (i_rho_ranges gs) correlation_range_ok) (conj H12 H13)) as (l & A & B & _). eauto.
  - unfold dt_ok in H14. destruct (is_number (i_dt gs)) eqn:E; [|discriminate].
    assert (N : exists x, num_of (i_dt gs) = Some x) by (destruct (i_dt gs); try discriminate; cbn; eauto).
    destruct N as (x & N). exists x. apply is_num_of, N.
Qed.

Lemma pair_integer_number : forall v hw, pair_of integer v hw -> pair_of number v (Num (inject_Z (fst hw)), Num (inject_Z (snd hw))).
Proof. intros v hw H. destruct H. cbn. constructor; apply integer_number; assumption. Qed.

Lemma spec_of_config_ok : forall d gs, spec_of_config d = Ok gs -> spec_settings d gs /\ post_init gs = Ok tt.
Proof.
  intros d gs H. unfold spec_of_config in H.
  repeat match type of H with
  | bind (dict_item _ _) _ = _ => apply bind_ok in H; let v := fresh "v" in let G := fresh "G" in destruct H as (v & G & H); apply dict_item_ok in G
  | bind (bind (dict_item _ _) _) _ = _ => apply bind_ok in H; let t := fresh "t" in let T := fresh "T" in destruct H as (t & T & H);
      apply bind_ok in T; let v := fresh "v" in let G := fresh "G" in destruct T as (v & G & T); apply dict_item_ok in G
  end.
  apply bind_ok in H. destruct H as ([] & HP & E). inversion E. subst gs. split; [|exact HP].
  pose proof (post_init_shaped _ HP) as [_ (hw & S1 & _) (ro & S2) (rd & S3 & _) _ _ (ld & S4 & NE4) (li & S5 & NE5) (lr & S6 & NE6) _]. cbn in *.
  apply pair_integer_number in S1.
  assert (P : forall t v r, py_tuple v = Ok t -> pair_of number t r -> as_pair v t).
  { intros t' v' r' HT Hr. apply pair_number_num in Hr. destruct Hr as (a & b & x & y & -> & Ha & _). eapply py_tuple_pair; eauto. }
  intros name v' Hf. unfold field in Hf. cbn [find fst snd i_batch_size i_image_shape i_img_offset i_seeding_density_range i_p_hide_img1 i_p_hide_img2 i_diameter_ranges
    i_diameter_var i_intensity_ranges i_intensity_var i_rho_ranges i_rho_var i_dt i_noise_uniform i_noise_gaussian_mean i_noise_gaussian_std] in Hf.
  repeat match type of Hf with context [String.eqb name ?k] =>
    destruct (String.eqb_spec name k) as [->|_];
    [cbn in Hf; inversion Hf; subst v'; eexists; (split; [eassumption|]); unfold read_field;
     cbn [existsb String.eqb Ascii.eqb Bool.eqb orb]; first [reflexivity | eapply P; eassumption | eapply tuples_pairs; eassumption] |] end.
  discriminate.
Qed.

Lemma array_file_ok : forall w d k ok m, array_file w (dict_get d k PNone) ok = Ok m ->
  array_setting w d k m /\ match m with Some a => ok a = true | None => True end.
Proof.
  intros w d k ok m H. unfold array_setting. rewrite dict_get_given in H. unfold setting. destruct (given k d) as [v|].
  - destruct v; cbn in H; try discriminate.
    + inversion H. auto.
    + destruct (fs_isfile (w_fs w) s) eqn:E; [|discriminate]. apply bind_ok in H. destruct H as (a & Ha & H).
      destruct (ok a) eqn:Eo; inversion H. split; [exists s; auto | exact Eo].
  - cbn in H. inversion H. auto.
Qed.

Lemma devices_from_ok : forall n l r, devices_from n l = Ok r -> chosen n l r /\ forall v, In v l -> exists x, num_of v = Some x.
Proof.
  intros n l. induction l as [|v l IH]; intros r H; cbn [devices_from] in H.
  - inversion H. split; [constructor | intros v []].
  - apply bind_ok in H. destruct H as (b & Hb & H).
    assert (NV : exists x, num_of v = Some x).
    { unfold py_lt, py_cmp in Hb. destruct (num_of v) as [x|]; [eauto | discriminate]. }
    destruct b.
    + apply bind_ok in H. destruct H as (i & Hi & H). apply bind_ok in H. destruct H as (r' & Hr & E). inversion E. subst r.
      destruct (IH _ Hr) as [IC IN]. split; [|intros u [<-|Hu]; auto].
      constructor; [|exact IC]. unfold device in Hi. destruct (int_of v) as [z|] eqn:Ez; [|discriminate].
      apply int_of_integer in Ez. exists z. split; [exact Ez|].
      apply py_lt_ok in Hb. destruct Hb as (a & b & Na & Nb & Hlt). apply integer_number in Ez. rewrite (number_fun _ _ _ Na Ez) in Hlt.
      apply number_z in Nb. subst b. destruct Hlt as [_ Hlt]. cbn in Hlt. rewrite <- Zle_Qle in Hlt.
      split; [lia|]. destruct (Z.leb_spec 0 z); [inversion Hi; subst; left; lia|].
      destruct (Z.leb_spec 0 (z + Z.of_nat n)); [inversion Hi; subst; right; lia | discriminate].
    + destruct (IH _ H) as [IC IN]. split; [|intros u [<-|Hu]; auto].
      destruct NV as (x & NV). unfold py_lt, py_cmp in Hb. rewrite NV in Hb. cbn in Hb. destruct x as [|[]|q].
      * assert (Ev : v = nan) by (destruct v as [ | [] | | | | | | ]; cbn in NV; inversion NV; reflexivity). subst v. constructor. exact IC.
      * discriminate.
      * apply (chosen_skip n v l r PosInf); [apply number_num; exists (Inf false); auto | exact I | exact IC].
      * inversion Hb as [E]. apply negb_false_iff in E. apply Qle_bool_iff in E.
        apply (chosen_skip n v l r (Num q)); [apply number_num; exists (Fin q); auto | exact E | exact IC].
Qed.

Lemma chosen_some : forall n l r, chosen n l r -> r <> [] -> l <> [].
Proof. intros n l r H. destruct H; congruence. Qed.

Lemma select_devices_ok : forall d n r, select_devices n (dict_get d "device_ids" PNone) = Ok r -> device_settings d n r /\ (0 < n -> r <> []).
Proof.
  intros d n r H. rewrite dict_get_given in H. unfold device_settings, setting. destruct (given "device_ids" d) as [v|] eqn:G.
  - assert (C : v = PNone \/ v <> PNone) by (destruct v; auto; right; discriminate). destruct C as [->|Hv].
    + cbn in H. inversion H. split; [auto|]. intros P E. destruct n; [lia | discriminate].
    + assert (H' : bind (py_iter v) (fun l => bind (devices_from n l) (fun r => match r with [] => Err ValueError | _ => Ok r end)) = Ok r)
        by (destruct v; [congruence | exact H..]).
      apply bind_ok in H'. destruct H' as (l & Hi & H'). apply bind_ok in H'. destruct H' as (r' & Hr & E).
      destruct r' as [|i r']; [discriminate|]. inversion E. subst r. split; [|intros _; discriminate]. right.
      exists v, l. split; [reflexivity|]. destruct (devices_from_ok _ _ _ Hr) as [HC HN].
      split; [|split; [exact HC | discriminate]].
      destruct l as [|u l]; [exfalso; inversion HC|]. destruct (HN u (or_introl eq_refl)) as (x & Hx).
      eapply py_iter_number; [exact Hi | left; reflexivity | exact Hx].
  - cbn in H. inversion H. split; [auto|]. intros P E. destruct n; [lia | discriminate].
Qed.

Lemma round_batch_ok : forall B nd, 0 < nd -> B <= round_batch B nd < B + nd /\ Nat.divide nd (round_batch B nd).
Proof.
  intros B nd P. unfold round_batch. pose proof (Nat.div_mod B nd ltac:(lia)) as E. pose proof (Nat.mod_upper_bound B nd ltac:(lia)) as M.
  destruct (Nat.eqb_spec (B mod nd) 0) as [Z|Z].
  - split; [lia|]. exists (B / nd). nia.
  - split; [nia|]. exists (B / nd + 1). reflexivity.
Qed.

Lemma num_leb_refl : forall x a, to_ext x = Some a -> num_leb x x = true.
Proof.
  intros [|[]|q] a E; cbn in *; try discriminate; try reflexivity. apply Qle_bool_iff, Qle_refl.
Qed.
Lemma to_ext_le : forall x y a b, to_ext x = Some a -> to_ext y = Some b -> (le a b <-> num_leb x y = true).
Proof.
  intros x y a b Ea Eb. rewrite num_leb_le. split.
  - intros H. exists a, b. auto.
  - intros (a' & b' & Ha & Hb & H). congruence.
Qed.
Lemma to_ext_lt : forall x y a b, to_ext x = Some a -> to_ext y = Some b -> (lt a b <-> num_ltb x y = true).
Proof.
  intros x y a b Ea Eb. rewrite num_ltb_lt. split.
  - intros H. exists a, b. auto.
  - intros (a' & b' & Ha & Hb & H). congruence.
Qed.
Lemma le_total : forall a b, le a b \/ le b a.
Proof. intros [|p|] [|q|]; cbn; auto. destruct (Qlt_le_dec p q) as [H|H]; [left; apply Qlt_le_weak, H | right; exact H]. Qed.
Lemma le_trans' : forall a b c, le a b -> le b c -> le a c.
Proof. intros [|p|] [|q|] [|r|]; cbn; auto; try contradiction. apply Qle_trans. Qed.

(** [max] of a list of comparable numbers. *)
Lemma num_max_ok : forall l, l <> [] -> (forall x, In x l -> exists a, to_ext x = Some a) ->
  In (num_max l) l /\ forall x, In x l -> at_most x (num_max l).
Proof.
  assert (R : forall x, at_most x x).
  { intros x a b Ha Hb. apply number_float in Ha, Hb. replace b with a by congruence. destruct a; cbn; auto. apply Qle_refl. }
  intros [|m l] NE; [congruence|]. intros HN. cbn [num_max]. clear NE.
  assert (Hm : exists a, to_ext m = Some a) by (apply HN; left; reflexivity).
  assert (HL : forall x, In x l -> exists a, to_ext x = Some a) by (intros x Hx; apply HN; right; exact Hx). clear HN.
  revert m Hm. induction l as [|y l IH]; intros m (am & Em); cbn [fold_left].
  - split; [left; reflexivity|]. intros x [<-|[]]. apply R.
  - destruct (HL y (or_introl eq_refl)) as (ay & Ey).
    assert (HL' : forall x, In x l -> exists a, to_ext x = Some a) by (intros x Hx; apply HL; right; exact Hx).
    specialize (IH HL').
    destruct (num_ltb m y) eqn:C.
    + destruct (IH y (ex_intro _ ay Ey)) as [I1 I2]. split; [right; exact I1|].
      intros x [<-|Hx]; [|apply I2, Hx]. intros a b Ha Hb. apply number_float in Ha. replace a with am by congruence.
      apply (le_trans' am ay b); [|apply (I2 y (or_introl eq_refl)); [apply number_float, Ey | exact Hb]].
      apply (to_ext_lt m y am ay Em Ey) in C. apply C.
    + destruct (IH m (ex_intro _ am Em)) as [I1 I2]. split; [destruct I1 as [I1|I1]; [left; exact I1 | right; right; exact I1]|].
      intros x [<-|[<-|Hx]]; [apply I2; left; reflexivity | | apply I2; right; exact Hx].
      intros a b Ha Hb. apply number_float in Ha. replace a with ay by congruence.
      apply (le_trans' ay am b); [|apply (I2 m (or_introl eq_refl)); [apply number_float, Em | exact Hb]].
      assert (NL : ~ lt am ay) by (intros HL2; apply (to_ext_lt m y am ay Em Ey) in HL2; congruence).
      unfold lt in NL. destruct (le_total ay am) as [T|T]; [exact T|].
      destruct am as [|p|], ay as [|q|]; cbn in *; auto; try (exfalso; apply NL; split; [exact I | intros []]; fail).
      destruct (Qlt_le_dec p q) as [P|P]; [|exact P]. exfalso. apply NL. split; [exact T|]. intros X. apply (Qlt_not_le _ _ P X).
Qed.

Lemma upper_ends_ok : forall us l, Forall2 (pair_of number) us l ->
  exists ns, Forall2 (pair_of is_num) us ns /\ upper_ends (PList us) = map snd ns /\ forall x, In x (map snd ns) -> exists a, to_ext x = Some a.
Proof.
  intros us l H. induction H as [|u r us l Hr H IH].
  - exists []. split; [constructor|]. split; [reflexivity|]. intros x [].
  - destruct IH as (ns & I1 & I2 & I3). apply pair_number_num in Hr. destruct Hr as (a & b & x & y & -> & Ha & Hb & Ex & Ey).
    exists ((x, y) :: ns). split; [constructor; [constructor; apply is_num_of; assumption | exact I1]|]. split.
    + cbn [upper_ends flat_map map snd]. rewrite Hb. cbn [app]. f_equal. exact I2.
    + intros z [<-|Hz]; [eauto | apply I3, Hz].
Qed.

Lemma not_le_zero_ok : forall v x, not_le_zero v = Ok x -> num_of v = Some x.
Proof. intros v x. unfold not_le_zero. destruct (num_of v) as [y|]; [destruct (num_leb y _)|]; congruence. Qed.
Lemma a_number_ok : forall v x, a_number v = Ok x -> num_of v = Some x.
Proof. intros v x. unfold a_number. destruct (num_of v); congruence. Qed.

Lemma field_spec_update : forall b o gs gs', update [("batch_size", b); ("img_offset", o)] gs = Ok gs' ->
  post_init gs' = Ok tt /\ forall name v, field gs' name = Some v ->
    if String.eqb name "batch_size" then v = b else if String.eqb name "img_offset" then v = o else field gs name = Some v.
Proof.
  intros b o gs gs' H. unfold update, make_spec in H. apply bind_ok in H. destruct H as ([] & HP & E). inversion E. subst gs'.
  split; [exact HP|]. intros name v Hf. rewrite field_update in Hf. rewrite given_cons, given_cons in Hf.
  destruct (String.eqb_spec name "batch_size") as [->|]; [cbn in Hf; congruence|].
  destruct (String.eqb_spec name "img_offset") as [->|]; [cbn in Hf; congruence|].
  destruct (field gs name); cbn in Hf; [congruence | discriminate].
Qed.

Lemma synthetic_ok : forall w d sch p, 0 < w_devices w -> synthetic_from_config w d sch = Ok p -> synthetic_settings w d sch p.
Proof.
  intros w d sch p ND H. unfold synthetic_from_config in H.
  apply bind_ok in H. destruct H as (mask & HM & H). apply bind_ok in H. destruct H as (hist & HH & H).
  apply bind_ok in H. destruct H as (gs & HS & H). apply array_file_ok in HM, HH. destruct HM as [HM HMb]. destruct HH as [HH _].
  pose proof HS as HS0. apply spec_of_config_ok in HS. destruct HS as [SS HP]. pose proof (post_init_shaped _ HP) as SH.
  destruct SH as [(zb & SHb & Pb) (hw & SHi & Ph & Pw) (ro & SHo) (rd & SHd & SHle) (h1 & SH1) (h2 & SH2) (ld & SHdi & NEd) _ _ (xdt & SHdt)].
  unfold synthetic_constructor in H.
  apply bind_ok in H. destruct H as (v_bpf & G1 & H). apply bind_ok in H. destruct H as (v_F & G2 & H).
  apply bind_ok in H. destruct H as (ffsize & G3 & H). apply bind_ok in G3. destruct G3 as (v_ff & G3 & I3).
  apply bind_ok in H. destruct H as (v_res & G4 & H). apply bind_ok in H. destruct H as (v_vpp & G5 & H).
  apply bind_ok in H. destruct H as (v_seed & G6 & H). apply bind_ok in H. destruct H as (v_maxx & G7 & H).
  apply bind_ok in H. destruct H as (v_maxy & G8 & H). apply bind_ok in H. destruct H as (v_minx & G9 & H).
  apply bind_ok in H. destruct H as (v_miny & G10 & H). apply bind_ok in H. destruct H as (units & G11 & H).
  apply bind_ok in G11. destruct G11 as (v_u & G11 & EU). apply dict_item_ok in G1, G2, G3, G4, G5, G6, G7, G8, G9, G10, G11.
  assert (EHW : pair_ints (i_image_shape gs) = hw).
  { destruct SHi as [u v a b Ha Hb]. cbn. apply int_of_integer in Ha, Hb. rewrite Ha, Hb. reflexivity. }
  rewrite EHW in H. destruct hw as [Hh Ww]. cbn [fst snd] in *.
  apply bind_ok in H. destruct H as (BS & HB & H). apply pos_int_ok in HB. destruct HB as [HB PB].
  apply bind_ok in H. destruct H as ([] & CM & H). apply bind_ok in H. destruct H as ([] & CH & H).
  apply bind_ok in H. destruct H as (devs & HD & H). apply select_devices_ok in HD. destruct HD as [HD NED]. specialize (NED ND).
  apply bind_ok in H. destruct H as (bpf & Hbpf & H). apply pos_int_ok in Hbpf.
  apply bind_ok in H. destruct H as (F & HF & H). apply pos_int_ok in HF.
  apply bind_ok in H. destruct H as ([] & CF & H). apply check_ok in CF. apply Nat.leb_le in CF.
  apply bind_ok in H. destruct H as ([] & CS & H). apply check_ok in CS. rewrite forallb_forall in CS.
  apply bind_ok in H. destruct H as (fshape & Hfs & H).
  destruct fshape as [|fy [|fx [|fc [|? ?]]]]; try discriminate.
  apply bind_ok in H. destruct H as ([] & CFS & H). apply check_ok in CFS.
  apply bind_ok in H. destruct H as (res & Hres & H). apply bind_ok in H. destruct H as (vpp & Hvpp & H).
  apply bind_ok in H. destruct H as ([] & CU & H). apply check_ok in CU.
  apply bind_ok in H. destruct H as (seed & Hseed & H).
  apply bind_ok in H. destruct H as (maxx & Hmaxx & H). apply bind_ok in H. destruct H as (maxy & Hmaxy & H).
  apply bind_ok in H. destruct H as (minx & Hminx & H). apply bind_ok in H. destruct H as (miny & Hminy & H).
  apply bind_ok in H. destruct H as ([] & _ & H). apply bind_ok in H. destruct H as ([] & _ & H).
  destruct ffsize as [|sy [|sx rest]]; try discriminate.
  apply bind_ok in H. destruct H as (g & Hg & H). apply bind_ok in H. destruct H as (gs' & Hup & H). injection H as <-.
  apply not_le_zero_ok in Hres, Hvpp. apply a_number_ok in Hmaxx, Hmaxy, Hminx, Hminy.
  assert (PN : forall v, positive_number v = true -> exists x, num_of v = Some x).
  { intros v. unfold positive_number. destruct (num_of v); [eauto | discriminate]. }
  destruct (PN sy (CS sy (or_introl eq_refl))) as (ny & Ny). destruct (PN sx (CS sx (or_intror (or_introl eq_refl)))) as (nx & Nx).
  assert (SEQ : sequence v_ff (sy :: sx :: rest)) by (eapply py_iter_number; [exact I3 | left; reflexivity | exact Ny]).
  assert (NDV : 0 < List.length devs) by (destruct devs; [congruence | cbn; lia]).
  assert (EB : exists vb, given "batch_size" d = Some vb /\ i_batch_size gs = vb).
  { destruct (SS "batch_size" (i_batch_size gs) eq_refl) as (c & Gc & Rc). exists c. split; [exact Gc | exact Rc]. }
  destruct EB as (vb & Gb & Eb). rewrite Eb in HB.
  apply field_spec_update in Hup. destruct Hup as [HP' HF'].
  constructor; cbn [sy_devices sy_batch sy_F sy_bpf sy_seed sy_spec sy_geom sy_ffsize sy_res sy_vpp sy_units sy_mask sy_hist].
  - exact HD.
  - exists BS. split; [exists vb; auto|]. split; [exact CF|]. apply round_batch_ok, NDV.
  - exists v_F. destruct HF; auto.
  - exists bpf. split; [exists v_bpf; destruct Hbpf; auto|]. destruct sch; reflexivity.
  - exists v_seed. split; [exact G6|]. destruct (int_of v_seed) as [z|] eqn:Ez; [|discriminate].
    destruct (Z.leb_spec 0 z); inversion Hseed. subst. split; [apply int_of_integer, Ez | assumption].
  - unfold units_setting. inversion EU. subst units. apply orb_prop in CU.
    assert (EV : v_u = PStr (py_str v_u)).
    { destruct v_u; cbn in CU; try (destruct CU; discriminate). reflexivity. }
    rewrite G11. split; [congruence|]. destruct CU as [C|C]; apply String.eqb_eq in C; auto.
  - match type of Hg with construct _ ?c = _ => exists gs, [fy; fx; fc], c end.
    split; [exact SS|]. split; [exact HP|]. split; [exact HP'|]. split; [exact Hfs|].
    split; [|split; [exact Hg|]; split; [exact HF'|]; split].
    + inversion SHdi as [us l HU E1 E2]. subst l. destruct (upper_ends_ok _ _ HU) as (ns & U1 & U2 & U3).
      constructor; cbn [g_image g_off g_dt g_ffsize g_ffshape g_res g_vpp g_maxd g_max g_min g_hide].
      * exact SHi.
      * apply pair_number_num in SHo. destruct SHo as (a & b & x & y & -> & Ha & Hb & _). exists (x, y). split.
        -- constructor; apply is_num_of; assumption.
        -- cbn [pair_nums]. rewrite Ha, Hb. reflexivity.
      * exists xdt. split; [exact SHdt|]. unfold the_num. apply is_num_of in SHdt. rewrite SHdt. reflexivity.
      * exists v_ff, sy, sx, rest, ny, nx. split; [exact G3|]. split; [exact SEQ|].
        split; [apply is_num_of, Ny|]. split; [apply is_num_of, Nx|]. unfold the_num. rewrite Ny, Nx. reflexivity.
      * exists fy, fx, fc. auto.
      * exists res. split; [apply number_setting_ok; eauto | reflexivity].
      * exists vpp. split; [apply number_setting_ok; eauto | reflexivity].
      * rewrite <- E1.
        assert (NEn : map snd ns <> []).
        { inversion U1; subst; [|discriminate]. inversion HU; subst. congruence. }
        destruct (num_max_ok _ NEn U3) as [M1 M2]. apply in_map_iff in M1. destruct M1 as (r & M1 & Mi).
        exists ns, r. split; [constructor; exact U1|]. split; [exact Mi|]. split.
        -- intros r' Hr'. rewrite M1. apply M2. apply in_map, Hr'.
        -- rewrite U2, M1. reflexivity.
      * exists maxx, maxy. split; [apply number_setting_ok; eauto|]. split; [apply number_setting_ok; eauto | reflexivity].
      * exists minx, miny. split; [apply number_setting_ok; eauto|]. split; [apply number_setting_ok; eauto | reflexivity].
      * exists h1, h2, rd. split; [exact SH1|]. split; [exact SH2|]. split; [exact SHd|].
        apply number_num in SH1, SH2. destruct SH1 as (x1 & N1 & T1). destruct SH2 as (x2 & N2 & T2).
        apply pair_number_num in SHd. destruct SHd as (a & b & x & y & Ed & Ha & Hb & Tx & Ty). rewrite Ed. cbn [pair_nums]. rewrite Ha, Hb.
        unfold the_num. rewrite N1, N2. cbn [fst snd]. rewrite !orb_true_iff, negb_true_iff.
        rewrite <- (to_ext_lt (Fin 0) x1 (Num 0) h1 eq_refl T1), <- (to_ext_lt (Fin 0) x2 (Num 0) h2 eq_refl T2), or_assoc.
        unfold num_eqb. rewrite (proj1 (to_ext_le x y _ _ Tx Ty) SHle). cbn [andb].
        assert (EQ : num_leb y x = false <-> lt (fst rd) (snd rd)).
        { unfold lt. split.
          - intros C. split; [exact SHle|]. intros X. apply (to_ext_le y x _ _ Ty Tx) in X. congruence.
          - intros [_ X]. destruct (num_leb y x) eqn:C; [|reflexivity]. exfalso. apply X. apply (to_ext_le y x _ _ Ty Tx), C. }
        rewrite EQ. reflexivity.
    + destruct mask as [m|]; [|exact I]. apply check_ok in CM. destruct (list_eq_dec Z.eq_dec _ _) as [E|]; [|discriminate].
      split; [exact E|]. unfold binary in HMb. rewrite forallb_forall in HMb. apply Forall_forall. intros x Hx. specialize (HMb x Hx).
      apply orb_prop in HMb. destruct HMb as [C|C]; apply Qeq_bool_iff in C; auto.
    + destruct hist as [h|]; [|exact I]. apply check_ok in CH. apply andb_prop in CH. destruct CH as [C1 C2].
      destruct (list_eq_dec Nat.eq_dec _ _) as [E|]; [|discriminate]. split; [exact E|].
      unfold isclose in C2. apply Qle_bool_iff in C2. exact C2.
  - exact HM.
  - exact HH.
  - exists fy, fx, fc. split; [exact Hfs|]. apply andb_prop in CFS. destruct CFS as [C1 C2]. apply andb_prop in C1. destruct C1 as [C1 C3].
    apply Nat.ltb_lt in C2, C3. apply orb_prop in C1. rewrite !Nat.eqb_eq in C1. auto.
Qed.
