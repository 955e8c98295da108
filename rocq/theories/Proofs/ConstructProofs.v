(** What the constructors of the schedulers accept, C125. *)
From Coq Require Import List Arith ZArith QArith String Bool Lia.
From Verif Require Import Prelude Model.PyVal Model.Types Spec.TypesSpec Model.Base Model.Files Spec.FilesSpec Proofs.FilesProofs
  Model.Loaders Model.Episodic Spec.EpisodicSpec Proofs.EpisodicProofs Model.Prefetch Model.Sampler Model.Stack Model.Geometry
  Model.Make Spec.MakeSpec Proofs.MakeProofs Model.Checks Spec.ChecksSpec Proofs.ChecksProofs
  Model.Construct Spec.ConstructSpec Proofs.NamesProofs.
Import ListNotations.
Local Open Scope string_scope.
Local Open Scope nat_scope.

Lemma expand_exists : forall f pat fl, exists segs, Forall2 (stands_for f pat) fl segs /\ expand f pat fl = List.concat segs.
Proof.
  intros f pat fl. induction fl as [|p fl (segs & H & E)]; [exists []; split; [constructor|reflexivity]|].
  exists ((if fs_isdir f p then sorted (fs_glob f p pat) else [p]) :: segs). split.
  - constructor; [|exact H]. destruct (fs_isdir f p) eqn:D; [right|left]; (split; [exact D|]); [|reflexivity].
    split; [apply sorted_perm|apply sorted_sorted].
  - unfold expand in *. cbn [flat_map List.concat]. now rewrite E.
Qed.

Lemma init_base_ok : forall w cls ld fl rand loop k c s,
  init_base w (search cls) ld fl rand loop k = Ok (c, s) <->
  exists entries files r b, file_args w cls fl rand loop entries files r b /\
    c = mkCfg ld (w_rng w) r b /\ s = init c files (key_or_default k).
Proof.
  intros w cls ld fl rand loop k c s. unfold init_base. split.
  - destruct fl as [ | | | | | l | | ]; try discriminate. destruct (strings l) as [entries|] eqn:E; [|discriminate].
    destruct (expand_exists (w_fs w) (search cls) entries) as (segs & S1 & S2). rewrite S2.
    destruct (Nat.eqb_spec (List.length (List.concat segs)) 0) as [Z|Z]; [discriminate|].
    destruct (forallb _ _) eqn:F; [|discriminate]. cbn [negb].
    destruct rand as [ | r | | | | | | ]; try discriminate. destruct loop as [ | b | | | | | | ]; try discriminate.
    intros H. injection H as <- <-. exists entries, (List.concat segs), r, b. split; [|split; reflexivity].
    apply strings_ok in E. constructor; try reflexivity.
    + now rewrite E.
    + exists segs. auto.
    + intros E0. rewrite E0 in Z. apply Z. reflexivity.
    + apply forallb_forall, F.
  - intros (entries & files & r & b & [-> (segs & S1 & ->) NE EX -> ->] & -> & ->).
    rewrite (proj2 (strings_ok _ entries) eq_refl), (expand_unique _ _ _ _ S1).
    destruct (Nat.eqb_spec (List.length (List.concat segs)) 0) as [Z|Z]; [apply length_zero_iff_nil in Z; contradiction|].
    rewrite (proj2 (forallb_forall _ _) EX). reflexivity.
Qed.

Lemma init_base_err : forall w pat ld fl rand loop k e, init_base w pat ld fl rand loop k = Err e -> e = ValueError.
Proof.
  intros w pat ld fl rand loop k e. unfold init_base. destruct fl as [ | | | | | l | | ]; try congruence.
  destruct (strings l); [|congruence]. destruct (_ =? 0); [congruence|]. destruct (negb _); [congruence|].
  destruct rand; try congruence. destruct loop; congruence.
Qed.

Lemma forallb_py_str : forall e entries,
  forallb (fun v => ends_with (py_str v) e) (map PStr entries) = forallb (fun p => ends_with p e) entries.
Proof. intros e entries. induction entries as [|p l IH]; cbn; [reflexivity|]. now rewrite IH. Qed.

Lemma init_h5_ok : forall w fl rand loop k sch,
  init_h5 w fl rand loop k = Ok sch <->
  exists entries files r b, file_args w H5 fl rand loop entries files r b /\
    (forall p, In p entries -> has_suffix p ".h5") /\ sch = fresh_file w h5_attrs r b files k.
Proof.
  intros w fl rand loop k sch. unfold init_h5. rewrite bind_ok. split.
  - intros ([c s] & H & E). apply (init_base_ok w H5) in H. destruct H as (entries & files & r & b & A & -> & ->).
    exists entries, files, r, b. pose proof (fg_list _ _ _ _ _ _ _ _ _ A) as ->. rewrite forallb_py_str in E.
    destruct (forallb _ entries) eqn:F; [|discriminate]. rewrite forallb_suffix in F. injection E as <-. auto.
  - intros (entries & files & r & b & A & F & ->). eexists (_, _). split.
    + apply (init_base_ok w H5). exists entries, files, r, b. split; [exact A|]. split; reflexivity.
    + pose proof (fg_list _ _ _ _ _ _ _ _ _ A) as ->. rewrite <- forallb_suffix in F. rewrite forallb_py_str, F. reflexivity.
Qed.
Lemma init_h5_err : forall w fl rand loop k e, init_h5 w fl rand loop k = Err e -> e = ValueError.
Proof.
  intros w fl rand loop k e. unfold init_h5. destruct (init_base _ _ _ _ _ _ _) eqn:E; cbn [bind].
  - destruct fl; try congruence. destruct (forallb _ _); congruence.
  - intros H. injection H as <-. eapply init_base_err, E.
Qed.

Lemma init_mat_ok : forall w fl rand loop inc shape k sch,
  init_mat w fl rand loop inc shape k = Ok sch <->
  exists entries files r b i u v h x, file_args w Mat fl rand loop entries files r b /\
    inc = PBool i /\ shape = PTuple [u; v] /\ size u h /\ size v x /\
    (forall p, In p (in_order w (mkFattrs Mat i (h, x)) r b files k) -> has_suffix p ".mat") /\
    sch = fresh_file w (mkFattrs Mat i (h, x)) r b files k.
Proof.
  intros w fl rand loop inc shape k sch. unfold init_mat. split.
  - destruct inc as [ | i | | | | | | ]; try discriminate. destruct shape as [ | | | | | | l | ]; try discriminate.
    destruct l as [|u [|v [|? ?]]]; try discriminate. intros H.
    apply bind_ok in H. destruct H as (h & Hu & H). apply bind_ok in H. destruct H as (x & Hv & H).
    apply bind_ok in H. destruct H as ([c s] & H & E). cbn [fst snd] in E. apply (init_base_ok w Mat) in H.
    destruct H as (entries & files & r & b & A & -> & ->). destruct (forallb _ _) eqn:F; [|discriminate]. injection E as <-.
    apply pos_int_ok in Hu, Hv. rewrite forallb_suffix in F.
    exists entries, files, r, b, i, u, v, h, x. repeat (split; [first [exact A|reflexivity|assumption]|]). reflexivity.
  - intros (entries & files & r & b & i & u & v & h & x & A & -> & -> & Hu & Hv & F & ->).
    apply pos_int_ok in Hu, Hv. rewrite Hu. cbn [bind]. rewrite Hv. cbn [bind]. apply bind_ok. eexists (_, _). split.
    + apply (init_base_ok w Mat). exists entries, files, r, b. split; [exact A|]. split; reflexivity.
    + cbn [fst snd]. rewrite <- forallb_suffix in F. unfold in_order, fresh_file in F. fold (key_or_default k) in F.
      cbn [s_files] in F. rewrite F. reflexivity.
Qed.
Lemma init_mat_err : forall w fl rand loop inc shape k e, init_mat w fl rand loop inc shape k = Err e -> e = ValueError.
Proof.
  intros w fl rand loop inc shape k e. unfold init_mat. destruct inc; try congruence. destruct shape as [ | | | | | | l | ]; try congruence.
  destruct l as [|u [|v [|? ?]]]; try congruence.
  destruct (pos_int u) eqn:U; cbn [bind]; [|intros H; injection H as <-; eapply pos_int_err, U].
  destruct (pos_int v) eqn:V; cbn [bind]; [|intros H; injection H as <-; eapply pos_int_err, V].
  destruct (init_base _ _ _ _ _ _ _) eqn:E; cbn [bind]; [|intros H; injection H as <-; eapply init_base_err, E].
  destruct (forallb _ _); congruence.
Qed.

(** ** Images beside .npy files *)

Lemma check_images_cases : forall w l,
  check_images (w_fs w) l = Ok tt /\ (forall p, In p l -> has_images w p) \/
  (exists l1 p l2, l = l1 ++ p :: l2 /\ (forall q, In q l1 -> has_images w q) /\
     (check_images (w_fs w) l = Err FileNotFoundError /\ lacks_images w p \/
      check_images (w_fs w) l = Err ValueError /\ forall t, ~ numbered p t))%list.
Proof.
  intros w l. induction l as [|p l IH]; [left; split; [reflexivity|intros ? []]|]. cbn [check_images].
  destruct (flow_number (basename p)) as [t|] eqn:F.
  - destruct (fs_isfile (w_fs w) (img_path p (Z.of_nat t - 1))) eqn:I1; destruct (fs_isfile (w_fs w) (img_path p (Z.of_nat t))) eqn:I2; cbn [andb].
    2-4: right; exists [], p, l; split; [reflexivity|]; split; [intros ? []|]; left; split; [reflexivity|];
      apply lacks_images_iff; exists t; auto.
    assert (HP : has_images w p) by (apply has_images_iff; exists t; auto).
    destruct IH as [[E H]|(l1 & q & l2 & -> & H & C)].
    + left. split; [exact E|]. intros q [<-|Q]; auto.
    + right. exists (p :: l1), q, l2. split; [reflexivity|]. split; [intros r [<-|Q]; auto|exact C].
  - right. exists [], p, l. split; [reflexivity|]. split; [intros ? []|]. right. split; [reflexivity|].
    intros t N. apply numbered_iff in N. congruence.
Qed.

Lemma has_not_lacks : forall w p, has_images w p -> lacks_images w p -> False.
Proof.
  intros w p H L. apply has_images_iff in H. apply lacks_images_iff in L. destruct H as (t & F & I1 & I2), L as (t' & F' & L).
  rewrite F in F'. injection F' as <-. destruct L; congruence.
Qed.
Lemma has_numbered : forall w p, has_images w p -> exists t, numbered p t.
Proof. intros w p H. apply has_images_iff in H. destruct H as (t & F & _). exists t. apply numbered_iff, F. Qed.
Lemma lacks_numbered : forall w p, lacks_images w p -> exists t, numbered p t.
Proof. intros w p H. apply lacks_images_iff in H. destruct H as (t & F & _). exists t. apply numbered_iff, F. Qed.

Lemma check_images_ok : forall w l, check_images (w_fs w) l = Ok tt <-> forall p, In p l -> has_images w p.
Proof.
  intros w l. destruct (check_images_cases w l) as [[E H]|(l1 & p & l2 & -> & H & C)]; [tauto|].
  split; [destruct C as [[E _]|[E _]]; congruence|]. intros A. exfalso. specialize (A p ltac:(apply in_or_app; right; left; reflexivity)).
  destruct C as [[_ L]|[_ N]]; [eapply has_not_lacks; eauto|]. destruct (has_numbered _ _ A) as [t T]. exact (N t T).
Qed.
Lemma check_images_missing : forall w l,
  check_images (w_fs w) l = Err FileNotFoundError <->
  exists l1 p l2, (l = l1 ++ p :: l2)%list /\ (forall q, In q l1 -> has_images w q) /\ lacks_images w p.
Proof.
  intros w l. split.
  - destruct (check_images_cases w l) as [[E H]|(l1 & p & l2 & -> & H & C)]; [congruence|]. destruct C as [[E L]|[E _]]; [|congruence].
    intros _. exists l1, p, l2. auto.
  - intros (l1 & p & l2 & -> & H & L). induction l1 as [|q l1 IH].
    + cbn [app check_images]. apply lacks_images_iff in L. destruct L as (t & -> & [-> | ->]); [reflexivity|]. now rewrite andb_false_r.
    + cbn [app check_images]. destruct (proj1 (has_images_iff w q) (H q (or_introl eq_refl))) as (t & -> & -> & ->). apply IH.
      intros r R. apply H. right. exact R.
Qed.
Lemma check_images_err : forall w l e, check_images (w_fs w) l = Err e -> e = FileNotFoundError \/ e = ValueError.
Proof. intros w l e. destruct (check_images_cases w l) as [[E H]|(l1 & p & l2 & -> & H & [[-> _]|[-> _]])]; intros X; [congruence| |]; injection X; auto. Qed.

Lemma init_npy_ok : forall w fl rand loop inc k sch,
  init_npy w fl rand loop inc k = Ok sch <->
  exists entries files r b i, file_args w Npy fl rand loop entries files r b /\ inc = PBool i /\
    (forall p, In p (in_order w (npy_attrs i) r b files k) -> has_suffix p ".npy") /\
    (i = true -> forall p, In p (in_order w (npy_attrs i) r b files k) -> has_images w p) /\
    sch = fresh_file w (npy_attrs i) r b files k.
Proof.
  intros w fl rand loop inc k sch. unfold init_npy. split.
  - destruct inc as [ | i | | | | | | ]; try discriminate. intros H.
    apply bind_ok in H. destruct H as ([c s] & H & E). cbn [fst snd] in E. apply (init_base_ok w Npy) in H.
    destruct H as (entries & files & r & b & A & -> & ->). destruct (forallb _ _) eqn:F; [|discriminate]. cbn [negb] in E.
    apply bind_ok in E. destruct E as ([] & C & E). injection E as <-. rewrite forallb_suffix in F.
    exists entries, files, r, b, i. split; [exact A|]. split; [reflexivity|]. split; [exact F|]. split; [|reflexivity].
    intros ->. apply check_images_ok, C.
  - intros (entries & files & r & b & i & A & -> & F & G & ->). apply bind_ok. eexists (_, _). split.
    + apply (init_base_ok w Npy). exists entries, files, r, b. split; [exact A|]. split; reflexivity.
    + cbn [fst snd]. rewrite <- forallb_suffix in F. unfold in_order, fresh_file in F, G. fold (key_or_default k) in F, G.
      rewrite F. cbn [negb]. destruct i; [|reflexivity]. rewrite (proj2 (check_images_ok w _) (G eq_refl)). reflexivity.
Qed.
Lemma init_npy_missing : forall w fl rand loop inc k,
  init_npy w fl rand loop inc k = Err FileNotFoundError <->
  exists entries files r b, file_args w Npy fl rand loop entries files r b /\ inc = PBool true /\
    (forall p, In p (in_order w (npy_attrs true) r b files k) -> has_suffix p ".npy") /\
    exists l1 p l2, (in_order w (npy_attrs true) r b files k = l1 ++ p :: l2)%list /\
      (forall q, In q l1 -> has_images w q) /\ lacks_images w p.
Proof.
  intros w fl rand loop inc k. unfold init_npy. split.
  - destruct inc as [ | i | | | | | | ]; try discriminate.
    destruct (init_base _ _ _ _ _ _ _) as [[c s]|] eqn:H; cbn [bind]; [|intros X; injection X as ->; apply init_base_err in H; discriminate].
    apply (init_base_ok w Npy) in H. destruct H as (entries & files & r & b & A & -> & ->). cbn [fst snd].
    destruct (forallb _ _) eqn:F; [|discriminate]. cbn [negb]. rewrite forallb_suffix in F. destruct i; [|discriminate].
    intros E. assert (C : check_images (w_fs w) (s_files (init (mkCfg (loader_for w (npy_attrs true)) (w_rng w) r b) files (key_or_default k))) = Err FileNotFoundError).
    { destruct (check_images _ _); [discriminate|]. cbn [bind] in E. injection E as ->. reflexivity. }
    apply check_images_missing in C. exists entries, files, r, b. auto.
  - intros (entries & files & r & b & A & -> & F & C). apply check_images_missing in C. rewrite <- forallb_suffix in F.
    unfold in_order, fresh_file in C, F. fold (key_or_default k) in C, F.
    rewrite (proj2 (init_base_ok w Npy _ _ _ _ _ _ _) (ex_intro _ entries (ex_intro _ files (ex_intro _ r (ex_intro _ b (conj A (conj eq_refl eq_refl))))))).
    cbn [bind fst snd]. rewrite F. cbn [negb]. rewrite C. reflexivity.
Qed.
Lemma init_npy_err : forall w fl rand loop inc k e, init_npy w fl rand loop inc k = Err e -> e = FileNotFoundError \/ e = ValueError.
Proof.
  intros w fl rand loop inc k e. unfold init_npy. destruct inc as [ | i | | | | | | ]; try (intros X; injection X; auto; fail).
  destruct (init_base _ _ _ _ _ _ _) as [[c s]|] eqn:H; cbn [bind fst snd]; [|intros X; injection X as <-; apply init_base_err in H; auto].
  destruct (negb _); [intros X; injection X; auto|]. destruct i; [|discriminate].
  destruct (check_images _ _) eqn:C; [discriminate|]. cbn [bind]. intros X. injection X as <-. eapply check_images_err, C.
Qed.

(** ** The wrappers *)

Lemma timeout_iff : forall v, (timeout_ok v = Ok tt <-> seconds v) /\ (timeout_ok v = Ok tt \/ timeout_ok v = Err ValueError).
Proof.
  intro v. unfold timeout_ok. destruct (is_number v) eqn:N.
  - destruct (le0_answers v N) as (b & E & I). rewrite E. cbn [bind]. split; [|destruct b; auto].
    change (seconds v) with (positive_or_nan v). rewrite <- I. destruct b; split; congruence.
  - split; [|auto]. split; [discriminate|]. intros H. enough (is_number v = true) by congruence. apply some_number_iff.
    destruct H as [H|(x & H & _)]; [left; exact H|right; exists x; exact H].
Qed.

Lemma size_fun : forall v n m, size v n -> size v m -> n = m.
Proof. intros v n m [H _] [H' _]. pose proof (integer_fun _ _ _ H H'). lia. Qed.
