(** Every shuffle and every draw of episodes uses its own key. *)
From Coq Require Import List Arith String Bool Permutation Lia.
From Verif Require Import Prelude Model.Base Spec.BaseSpec Model.Files Model.Episodic Spec.EpisodicSpec
  Proofs.BaseProofs Proofs.BaseRun Proofs.BaseLoop Proofs.BaseFinal Proofs.EpisodicProofs.
Import ListNotations.

(** The key of draw number [m] of an object seeded with [k]. *)
Definition nth_draw (k : key) (m : nat) : key := Child (Nat.iter m (fun k => Child k 0) k) 1.

Fixpoint levels (k : key) : nat := match k with Seed _ => 0 | Child k _ => S (levels k) end.

Lemma levels_iter : forall m k, levels (Nat.iter m (fun k => Child k 0) k) = m + levels k.
Proof. induction m as [|m IH]; intros k; simpl; auto. Qed.

Lemma nth_draw_inj : forall k i j, nth_draw k i = nth_draw k j -> i = j.
Proof.
  intros k i j H. apply (f_equal levels) in H. unfold nth_draw in H. cbn [levels] in H.
  rewrite !levels_iter in H. lia.
Qed.

Lemma taken_map : forall {A} (d : A) src idx, (forall i, In i idx -> i < List.length src) ->
  taken_at src idx (map (fun i => nth i src d) idx).
Proof.
  intros A d src idx; induction idx as [|i idx IH]; intros H; simpl; constructor.
  - apply nth_error_nth'. apply H. left; auto.
  - apply IH. intros; apply H; right; auto.
Qed.

Lemma shuffle_taken : forall g k fl, perm_ok g ->
  taken_at fl (rperm g k (List.length fl)) (shuffle g k fl).
Proof.
  intros g k fl HP. unfold shuffle. apply taken_map. intros i Hi.
  apply (Permutation_in _ (HP k (List.length fl))) in Hi. apply in_seq in Hi. lia.
Qed.

Lemma pass_key : forall c fl k j, c_randomize c = true ->
  s_key (pass_st c fl k j) = Nat.iter (S j) (fun k => Child k 0) k.
Proof.
  intros c fl k j HR. unfold pass_st. induction j as [|j IH].
  - simpl. unfold init. rewrite HR. reflexivity.
  - cbn [Nat.iter nat_rect]. unfold reset at 1. rewrite HR. cbn [s_key split2]. unfold split2. cbn [s_key].
    f_equal. exact IH.
Qed.

Lemma pass_drawn : forall c fl k, c_randomize c = true -> perm_ok (c_rng c) ->
  taken_at fl (rperm (c_rng c) (nth_draw k 0) (List.length fl)) (s_files (pass_st c fl k 0)) /\
  forall j, taken_at (s_files (pass_st c fl k j)) (rperm (c_rng c) (nth_draw k (S j)) (List.length fl))
                     (s_files (pass_st c fl k (S j))).
Proof.
  intros c fl k HR HP. split.
  - unfold pass_st. cbn [Nat.iter nat_rect]. unfold init. rewrite HR. cbn. apply shuffle_taken; auto.
  - intro j.
    assert (HL : List.length fl = List.length (s_files (pass_st c fl k j))).
    { symmetry. apply Permutation_length, pass_perm; auto. }
    assert (HK := pass_key c fl k j HR).
    change (pass_st c fl k (S j)) with (reset c (pass_st c fl k j)).
    unfold reset. rewrite HR. unfold split2. cbn [s_files]. rewrite HK, HL.
    change (Child (Nat.iter (S j) (fun k0 => Child k0 0) k) 1) with (nth_draw k (S j)).
    apply shuffle_taken; auto.
Qed.

Lemma fresh_passes : forall k, exists draw : nat -> key, (forall i j, draw i = draw j -> i = j) /\
  forall c C fl fuel,
  disk (c_loader c) C -> c_loop c = true -> c_randomize c = true -> perm_ok (c_rng c) ->
  no_faults C fl -> same_shapes C fl -> epoch C fl <> [] ->
  2 * List.length fl < fuel ->
  exists P : nat -> list string,
    taken_at fl (rperm (c_rng c) (draw 0) (List.length fl)) (P 0) /\
    (forall j, taken_at (P j) (rperm (c_rng c) (draw (S j)) (List.length fl)) (P (S j))) /\
    forall ns K, (forall n, In n ns -> 0 < n) -> sum ns <= K ->
      received (fst (run c fuel (gets ns) (init c fl k))) =
      map slice_row
        (firstn (sum ns) (flat_map (fun j => epoch C (collapse (P j))) (seq 0 K))).
Proof.
  intro k. exists (nth_draw k). split; [apply nth_draw_inj|].
  intros c C fl fuel HD HL HR HP HF HU HE Hf.
  exists (fun j => s_files (pass_st c fl k j)).
  destruct (pass_drawn c fl k HR HP) as [H0 HS]. split; [exact H0|]. split; [exact HS|].
  apply loop_passes_at; auto.
Qed.

(** ** Episodes *)

Lemma drawn_taken : forall ec k, choice_ok (ec_rng ec) -> ec_starts ec <> [] ->
  taken_at (ec_starts ec)
    (rchoice (ec_rng ec) (Child k 1) (List.length (ec_starts ec)) (ec_B ec)) (drawn ec k).
Proof.
  intros ec k HC HN. unfold drawn. apply taken_map. apply HC.
  destruct (ec_starts ec); [congruence|simpl; lia].
Qed.

(** The windows in use are those drawn with key [k]. *)
Definition served_by (D : dirs) (ec : ecfg) (k : key) (s : est) : Prop :=
  exists order, time_major (dir_files D) (ec_L ec) (drawn ec k) order /\
    Permutation (s_files (e_base s)) order /\
    (c_randomize (ec_base ec) = false -> s_files (e_base s) = order).

Lemma sample_served : forall D fl ec s s', ecfg_ok D fl ec ->
  (c_randomize (ec_base ec) = true -> perm_ok (c_rng (ec_base ec))) ->
  sample ec s = Ok s' -> served_by D ec (e_key s) s' /\ e_key s' = Child (e_key s) 0.
Proof.
  intros D fl ec s s' HO HP H. destruct (sample_ok D fl ec s HO) as [order [H1 [H2 H3]]].
  rewrite H3 in H. inversion H; subst s'; clear H. cbn [e_base e_key]. split; auto.
  exists order. split; auto. cbn [e_base].
  destruct (reset_files_perm (ec_base ec) (set_files (e_base s) order) HP) as [R1 R2]. split; auto.
Qed.

Lemma run_served : forall D fl ec f0 k0, ecfg_ok D fl ec ->
  (c_randomize (ec_base ec) = true -> perm_ok (c_rng (ec_base ec))) ->
  forall ops s m, e_key s = Nat.iter (S m) (fun k => Child k 0) k0 ->
  served_by D ec (Nat.iter m (fun k => Child k 0) k0) s ->
  served_by D ec (Nat.iter (m + restarts ops) (fun k => Child k 0) k0) (snd (erun ec f0 ops s)).
Proof.
  intros D fl ec f0 k0 HO HP ops. induction ops as [|o ops IH]; intros s m HK HS.
  - cbn [restarts erun snd]. rewrite Nat.add_0_r. exact HS.
  - assert (HN : forall o', o' = ENext \/ o' = EReset ->
      served_by D ec (Nat.iter (m + restarts (o' :: ops)) (fun k => Child k 0) k0) (snd (erun ec f0 (o' :: ops) s))).
    { intros o' Ho.
      destruct (sample_ok D fl ec s HO) as [order [_ [_ H3]]].
      destruct (sample_served D fl ec s _ HO HP H3) as [S1 S2].
      assert (E : do_eop ec f0 o' s = (OUnit, next_episode ec s)) by (destruct Ho; subst; reflexivity).
      assert (ER : restarts (o' :: ops) = S (restarts ops)) by (destruct Ho; subst; reflexivity).
      cbn [erun]. rewrite E. rewrite ER, <- Nat.add_succ_comm.
      pose proof (IH (next_episode ec s) (S m)) as IH'.
      destruct (erun ec f0 ops (next_episode ec s)) as [rs s2]. cbn [snd] in *.
      apply IH'; unfold next_episode; rewrite H3; cbn [e_key e_base] in *.
      - cbn [Nat.iter nat_rect]. f_equal. exact HK.
      - rewrite HK in S1. exact S1. }
    destruct o as [n| | |]; [|apply HN; auto|apply HN; auto|].
    + cbn [erun do_eop restarts]. destruct (ep_get ec f0 n s) as [r s1] eqn:EG.
      pose proof (IH s1 m) as IH'. destruct (erun ec f0 ops s1) as [rs s2]. cbn [snd] in *.
      unfold ep_get in EG. destruct (n =? ec_B ec); [|inversion EG; subst; apply IH'; auto].
      destruct (ec_L ec <=? e_t s); [inversion EG; subst; apply IH'; auto|].
      pose proof (get_batch_files_perm (ec_base ec) f0 n (e_base s) HP) as [G1 G2].
      destruct (get_batch (ec_base ec) f0 n (e_base s)) as [r' b]. cbn [snd] in *.
      inversion EG; subst; clear EG. apply IH'; auto.
      destruct HS as [order [O1 [O2 O3]]]. exists order. split; auto. cbn [e_base]. split.
      * rewrite G1; auto.
      * intro HR. rewrite G2; auto.
    + cbn [erun do_eop restarts]. pose proof (IH (ep_iter s) m) as IH'.
      destruct (erun ec f0 ops (ep_iter s)) as [rs s2]. cbn [snd] in *. apply IH'; auto.
Qed.

Lemma fresh_episodes : forall k, exists draw : nat -> key, (forall i j, draw i = draw j -> i = j) /\
  forall D c g base B L ec s0, enum_ok D -> choice_ok g ->
  (c_randomize c = true -> perm_ok (c_rng c)) -> ep_construct D c g base B L k = Ok (ec, s0) ->
  forall f0 ops, exists ws order,
    taken_at (ec_starts ec) (rchoice g (draw (restarts ops)) (List.length (ec_starts ec)) B) ws /\
    time_major (dir_files D) L ws order /\
    Permutation (s_files (e_base (snd (erun ec f0 ops s0)))) order /\
    (c_randomize c = false -> s_files (e_base (snd (erun ec f0 ops s0))) = order).
Proof.
  intro k. exists (nth_draw k). split; [apply nth_draw_inj|].
  intros D c g base B L ec s0 HE HC HP HM f0 ops.
  destruct (construct_inv _ _ _ _ _ _ _ _ _ HE HC HM) as [HO [Hc [HB [HL [Hg [Hs _]]]]]].
  assert (HP' : c_randomize (ec_base ec) = true -> perm_ok (c_rng (ec_base ec))) by (rewrite Hc; auto).
  destruct (sample_served D (s_files base) ec _ _ HO HP' Hs) as [S1 S2]. cbn [e_key] in *.
  pose proof (run_served D (s_files base) ec f0 k HO HP' ops s0 0 S2 S1) as [order [O1 [O2 O3]]].
  cbn [Nat.add] in *. rewrite HL, Hc in *.
  exists (drawn ec (Nat.iter (restarts ops) (fun k => Child k 0) k)), order.
  split; auto. rewrite <- Hg, <- HB. apply drawn_taken.
  - rewrite Hg; auto.
  - apply (eo_nonempty _ _ _ HO).
Qed.
