(** Episodic properties in the form stated in Properties/EpisodicProps.v. *)
From Coq Require Import List Arith ZArith Lia String Bool Permutation.
From Verif Require Import Prelude Model.Base Model.Files Model.Episodic.
From Verif Require Import Spec.BaseSpec Spec.FilesSpec Spec.EpisodicSpec.
From Verif Require Import Proofs.BaseProofs Proofs.BaseBatch Proofs.BaseRun Proofs.BaseLoop
  Proofs.BaseFinal Proofs.LoaderFinal Proofs.FilesProofs Proofs.EpisodicProofs.
Import ListNotations.
Local Open Scope nat_scope.

Lemma run_prefix : forall c fuel ops1 ops2 s t, t < List.length ops1 ->
  nth_error (fst (run c fuel (ops1 ++ ops2) s)) t = nth_error (fst (run c fuel ops1 s)) t.
Proof.
  intros c fuel ops1; induction ops1 as [|o ops1 IH]; intros ops2 s t H; simpl in *; [lia|].
  destruct (do_op c fuel o s) as [r s1].
  specialize (IH ops2 s1). destruct (run c fuel (ops1 ++ ops2) s1) as [rs1 s2].
  destruct (run c fuel ops1 s1) as [rs2 s3]. simpl in *. destruct t; simpl; auto. apply IH. lia.
Qed.

Section Constructed.
Variables (D : dirs) (c : cfg) (g : rng) (base : st) (B L : nat) (k : key) (ec : ecfg) (s0 : est).
Hypothesis HE : enum_ok D.
Hypothesis HC : choice_ok g.
Hypothesis HM : ep_construct D c g base B L k = Ok (ec, s0).

Lemma served_windows : forall f0 ops,
  (c_randomize c = true -> perm_ok (c_rng c)) ->
  exists ws order, List.length ws = B /\ (forall w, In w ws -> window D (s_files base) L w) /\
    time_major (dir_files D) L ws order /\
    Permutation (s_files (e_base (snd (erun ec f0 ops s0)))) order /\
    (c_randomize c = false -> s_files (e_base (snd (erun ec f0 ops s0))) = order).
Proof.
  intros f0 ops HP.
  destruct (construct_inv _ _ _ _ _ _ _ _ _ HE HC HM) as [HO [Hc [HB [HL _]]]].
  destruct (construct_serves _ _ _ _ _ _ _ _ _ HE HC HP HM) as [HS _].
  assert (HP' : c_randomize (ec_base ec) = true -> perm_ok (c_rng (ec_base ec))) by (rewrite Hc; auto).
  destruct (run_serves D (s_files base) ec f0 ops s0 HO HP' HS) as [ws [order H]].
  rewrite HB, HL, Hc in H. eauto.
Qed.

Lemma counter : forall f0 ops fuel n,
  let s := snd (erun ec f0 ops s0) in
  let t := taken B L ops in
  t <= L /\ steps_remaining ec s = (Z.of_nat L - Z.of_nat t)%Z /\
  (n <> B -> ep_get ec fuel n s = (CRaise ValueError, s)) /\
  (t = L -> ep_get ec fuel B s = (CRaise EpisodeEnd, s)) /\
  (t < L ->
     fst (ep_get ec fuel B s) = fst (get_batch c fuel B (e_base s)) /\
     e_base (snd (ep_get ec fuel B s)) = snd (get_batch c fuel B (e_base s))).
Proof.
  intros f0 ops fuel n s t.
  destruct (construct_inv _ _ _ _ _ _ _ _ _ HE HC HM) as [HO [Hc [HB [HL [_ [Hs _]]]]]].
  assert (E0 : e_t s0 = 0).
  { destruct (sample_ok _ _ ec (mkEst base k 0) HO) as [order [_ [_ H3]]]. rewrite Hs in H3.
    inversion H3; reflexivity. }
  assert (Et : e_t s = t).
  { unfold s, t, taken. rewrite (run_taken _ _ _ _ _ _ HO), HB, HL, E0. auto. }
  split; [apply taken_le; lia|]. unfold steps_remaining. rewrite Et, HL. split; auto.
  unfold ep_get. rewrite HB, HL, Et, Hc. split; [|split].
  - intro Hn. rewrite (proj2 (Nat.eqb_neq _ _)) by auto. auto.
  - intros ->. rewrite Nat.eqb_refl, Nat.leb_refl. auto.
  - intro Ht. rewrite Nat.eqb_refl, (proj2 (Nat.leb_gt _ _)) by auto.
    destruct (get_batch c fuel B (e_base s)); auto.
Qed.

(** The state in which an episode starts. *)
Definition episode_start (s1 : est) : Prop :=
  s1 = s0 \/ exists f0 ops, s1 = next_episode ec (snd (erun ec f0 ops s0)).

Lemma start_shape : forall s1, episode_start s1 ->
  e_t s1 = 0 /\ exists ws order, List.length ws = B /\
    (forall w, In w ws -> window D (s_files base) L w) /\
    time_major (dir_files D) L ws order /\
    (c_randomize c = false -> exists k', e_base s1 = init c order k').
Proof.
  intros s1 H.
  destruct (construct_inv _ _ _ _ _ _ _ _ _ HE HC HM) as [HO [Hc [HB [HL [_ [Hs _]]]]]].
  assert (G : forall s, exists s', sample ec s = Ok s' /\ e_t s' = e_t s /\
     exists ws order, List.length ws = B /\ (forall w, In w ws -> window D (s_files base) L w) /\
       time_major (dir_files D) L ws order /\
       (c_randomize c = false -> exists k', e_base s' = init c order k')).
  { intro s. destruct (sample_ok _ _ ec s HO) as [order [_ [T H3]]].
    destruct (drawn_ok _ _ ec (e_key s) HO) as [D1 D2]. rewrite HB in D1. rewrite HL in *.
    eexists. split; [exact H3|]. split; [reflexivity|].
    exists (drawn ec (e_key s)), order. split; auto. split; auto. split; auto.
    intro HR. rewrite Hc. cbn [e_base]. unfold reset, init. rewrite HR. simpl. eauto. }
  destruct H as [->|[f0 [ops ->]]].
  - destruct (G (mkEst base k 0)) as [s' [Hs' [Ht Hw]]]. rewrite Hs in Hs'. inversion Hs'; subst s'.
    split; auto.
  - unfold next_episode. destruct (G (snd (erun ec f0 ops s0))) as [s' [Hs' [Ht Hw]]]. rewrite Hs'.
    cbn [e_t e_base]. split; auto.
Qed.

Lemma episode_block : forall s1 fuel m, episode_start s1 ->
  let rs := fst (erun ec fuel (repeat (EGet B) m) s1) in
  let bs := fst (run c fuel (gets (repeat B m)) (e_base s1)) in
  forall j, j < m ->
    (j < L -> nth_error rs j = nth_error bs j) /\
    (L <= j -> nth_error rs j = Some (ORes (CRaise EpisodeEnd))).
Proof.
  intros s1 fuel m H. destruct (construct_inv _ _ _ _ _ _ _ _ _ HE HC HM) as [HO [Hc [HB [HL _]]]].
  destruct (start_shape s1 H) as [Ht _]. pose proof (egets_run ec fuel m s1) as G.
  rewrite HB, HL, Hc, Ht in G. specialize (G ltac:(lia)). rewrite Nat.sub_0_r in G. exact G.
Qed.

Lemma aligned : forall s1 C fuel m,
  disk (c_loader c) C -> c_randomize c = false ->
  single_slices C D (s_files base) -> distinct_files D (s_files base) ->
  4 * (L * B) < fuel -> episode_start s1 -> L <= m ->
  exists ws, List.length ws = B /\ (forall w, In w ws -> window D (s_files base) L w) /\
    time_major (dir_files D) L ws (s_files (e_base s1)) /\
    let r t := nth_error (fst (erun ec fuel (repeat (EGet B) m) s1)) t in
    (spread L ws -> forall t, t < L -> step_of C (dir_files D) ws t (r t)) /\
    (c_loop c = false -> (forall t, t < L -> step_of C (dir_files D) ws t (r t)) -> spread L ws).
Proof.
  intros s1 C fuel m HD HR HS Hdf Hf H1 Hm.
  destruct (construct_inv _ _ _ _ _ _ _ _ _ HE HC HM) as [HO [Hc [HB [HL _]]]].
  destruct (start_shape s1 H1) as [Ht [ws [order [W1 [W2 [W3 W4]]]]]].
  destruct (W4 HR) as [k' Hb]. exists ws. split; auto. split; auto. split.
  { rewrite Hb, init_files; auto. }
  intro r.
  assert (Hr : forall t, t < L -> r t =
     nth_error (fst (run c fuel (gets (repeat B L)) (init c order k'))) t).
  { intros t Hlt. unfold r. destruct (episode_block s1 fuel m H1 t ltac:(lia)) as [G _].
    rewrite G by lia. rewrite Hb.
    replace (gets (repeat B m)) with (gets (repeat B L) ++ gets (repeat B (m - L))).
    - apply run_prefix. unfold gets. rewrite map_length, repeat_length. auto.
    - unfold gets. rewrite <- map_app, <- repeat_app. f_equal. f_equal. lia. }
  assert (W3' := W3). rewrite <- HL in W3'. assert (W1' := W1). rewrite <- HB in W1'.
  assert (W2' := W2). rewrite <- HL in W2'.
  assert (HLp := eo_L _ _ _ HO).
  assert (HD' : disk (c_loader (ec_base ec)) C) by (rewrite Hc; auto).
  assert (HR' : c_randomize (ec_base ec) = false) by (rewrite Hc; auto).
  split.
  - intros Hsp t Hlt. rewrite Hr by auto.
    pose proof (base_aligned D (s_files base) ec C order ws HO W1' W2' W3' HD' HS k' fuel L t) as G.
    rewrite HL, HB, Hc in G. apply G; auto; lia.
  - intros HLoop Hall.
    pose proof (base_aligned_conv D (s_files base) ec C order ws HO W1' W2' W3' HD' HS k' fuel) as G.
    rewrite HL, HB, Hc in G. apply G; auto.
    rewrite <- Hr by lia. apply Hall. lia.
Qed.

Lemma run_suffix : forall fuel ops1 ops2 s j,
  nth_error (fst (run c fuel (ops1 ++ ops2) s)) (List.length ops1 + j) =
  nth_error (fst (run c fuel ops2 (snd (run c fuel ops1 s)))) j.
Proof.
  intros fuel ops1; induction ops1 as [|o ops1 IH]; intros ops2 s j; simpl; auto.
  destruct (do_op c fuel o s) as [r s1]. specialize (IH ops2 s1 j).
  destruct (run c fuel (ops1 ++ ops2) s1) as [rs1 s2].
  destruct (run c fuel ops1 s1) as [rs2 s3]. simpl in *. exact IH.
Qed.

Lemma egets_base : forall fuel t s, e_t s + t <= L ->
  e_base (snd (erun ec fuel (repeat (EGet B) t) s)) =
  snd (run c fuel (gets (repeat B t)) (e_base s)).
Proof.
  destruct (construct_inv _ _ _ _ _ _ _ _ _ HE HC HM) as [HO [Hc [HB [HL _]]]].
  intros fuel t; induction t as [|t IH]; intros s Hs; auto.
  cbn [repeat erun do_eop gets map run do_op]. unfold ep_get. rewrite HB, HL, Nat.eqb_refl.
  rewrite (proj2 (Nat.leb_gt _ _)) by lia. rewrite Hc.
  destruct (get_batch c fuel B (e_base s)) as [r b]. 
  specialize (IH (mkEst b (e_key s) (S (e_t s)))). cbn [e_t e_base] in IH. specialize (IH ltac:(lia)).
  destruct (erun ec fuel (repeat (EGet B) t) _) as [rs s2]. unfold gets in IH.
  destruct (run c fuel (map OGet (repeat B t)) b) as [bs s3]. exact IH.
Qed.

Lemma iter_continues : forall s1 C fuel t0 m,
  disk (c_loader c) C -> c_randomize c = false -> c_loop c = false ->
  single_slices C D (s_files base) -> distinct_files D (s_files base) ->
  2 * (L * B) < fuel -> episode_start s1 -> t0 <= L ->
  exists ws, List.length ws = B /\ (forall w, In w ws -> window D (s_files base) L w) /\
    time_major (dir_files D) L ws (s_files (e_base s1)) /\
    (spread L ws ->
     let s2 := snd (erun ec fuel (repeat (EGet B) t0 ++ [EIter]) s1) in
     steps_remaining ec s2 = Z.of_nat L /\
     let r j := nth_error (fst (erun ec fuel (repeat (EGet B) m) s2)) j in
     forall j, j < m ->
       (t0 + j < L -> step_of C (dir_files D) ws (t0 + j) (r j)) /\
       (L <= t0 + j -> j < L -> r j = Some (ORes (CRaise StopIteration))) /\
       (L <= j -> r j = Some (ORes (CRaise EpisodeEnd)))).
Proof.
  intros s1 C fuel t0 m HD HR HLoop HS Hdf Hf H1 Ht0.
  destruct (construct_inv _ _ _ _ _ _ _ _ _ HE HC HM) as [HO [Hc [HB [HL _]]]].
  destruct (start_shape s1 H1) as [Ht [ws [order [W1 [W2 [W3 W4]]]]]].
  destruct (W4 HR) as [k' Hb]. exists ws. split; auto. split; auto. split.
  { rewrite Hb, init_files; auto. }
  intros Hsp s2.
  assert (Hs2 : e_t s2 = 0 /\ e_base s2 = snd (run c fuel (gets (repeat B t0)) (init c order k'))).
  { unfold s2. rewrite <- Hb. rewrite <- (egets_base fuel t0 s1) by lia.
    assert (G : forall ops s, erun ec fuel (ops ++ [EIter]) s =
              (fst (erun ec fuel ops s) ++ [OUnit], ep_iter (snd (erun ec fuel ops s)))).
    { induction ops as [|o ops IH]; intro s; cbn [app erun do_eop fst snd]; auto.
      destruct (do_eop ec fuel o s) as [r s3]. rewrite IH. destruct (erun ec fuel ops s3); auto. }
    rewrite G. auto. }
  destruct Hs2 as [E1 E2].
  split. { unfold steps_remaining. rewrite E1, HL. lia. }
  intros r j Hj.
  pose proof (egets_run ec fuel m s2) as G. rewrite E1, HB, HL, Hc, Nat.sub_0_r in G.
  specialize (G ltac:(lia) j Hj). destruct G as [G1 G2]. fold (r j) in G1, G2.
  assert (Hrun : forall i, nth_error (fst (run c fuel (gets (repeat B m)) (e_base s2))) i =
       nth_error (fst (run c fuel (gets (repeat B (t0 + m))) (init c order k'))) (t0 + i)).
  { intro i. rewrite E2. rewrite repeat_app. unfold gets. rewrite map_app.
    rewrite <- run_suffix. rewrite map_length, repeat_length. auto. }
  assert (W3' := W3). rewrite <- HL in W3'. assert (W1' := W1). rewrite <- HB in W1'.
  assert (W2' := W2). rewrite <- HL in W2'.
  assert (HLp := eo_L _ _ _ HO). assert (HBp := eo_B _ _ _ HO).
  assert (HD' : disk (c_loader (ec_base ec)) C) by (rewrite Hc; auto).
  split; [|split; [|exact G2]].
  - intro Hlt. rewrite G1 by lia. rewrite Hrun.
    pose proof (base_aligned D (s_files base) ec C order ws HO W1' W2' W3' HD' HS k' fuel (t0 + m) (t0 + j)) as A.
    rewrite HL, HB, Hc in A. apply A; auto; lia.
  - intros Hge Hlt. rewrite G1 by lia. rewrite Hrun.
    pose proof (order_single D (s_files base) ec C order ws HO W1' W2' W3' HS) as OS.
    pose proof (order_no_faults D (s_files base) ec C order ws HO W1' W2' W3' HS) as ON.
    destruct (epoch_single C order OS) as [EL _].
    assert (OL' : List.length order = L * B) by (rewrite (proj1 W3), W1; auto).
    rewrite (init_run_finish c C order k' (repeat B (t0 + m)) fuel) with (n := B); auto.
    + rewrite firstn_repeat, Nat.min_l, sum_repeat by lia.
      rewrite skipn_all2 by (rewrite EL, OL'; nia). rewrite firstn_nil. reflexivity.
    + apply (proj1 (spread_no_adjacent D (s_files base) L ws order ltac:(lia) W2 Hdf ltac:(lia) W3)). auto.
    + rewrite OL'. lia.
    + apply nth_repeat_some. lia.
Qed.

Lemma files_from_leaves : forall f0 ops p,
  (c_randomize c = true -> perm_ok (c_rng c)) ->
  In p (s_files (e_base (snd (erun ec f0 ops s0)))) ->
  exists q d, In q (s_files base) /\ d_key D q = d /\ d_scan D d = ScanLeaf /\ In p (d_glob D d).
Proof.
  intros f0 ops p HP Hp.
  destruct (construct_inv _ _ _ _ _ _ _ _ _ HE HC HM) as [HO [_ [HB _]]].
  destruct (served_windows f0 ops HP) as [ws [order [W1 [W2 [W3 [W4 _]]]]]].
  apply (Permutation_in _ W4) in Hp. apply In_nth_error in Hp. destruct Hp as [i Hi].
  assert (HBp : 0 < List.length ws) by (pose proof (eo_B _ _ _ HO); lia).
  destruct (tm_nth _ _ _ _ _ _ HBp W3 Hi) as (t & e & d & s & _ & _ & Hw & Hf).
  destruct (W2 (d, s)) as [[[q [Hq1 Hq2]] Hl] _]; [eapply nth_error_In; eauto|].
  exists q, d. split; auto. split; auto. split; auto.
  apply nth_error_In in Hf. unfold dir_files in Hf.
  eapply Permutation_in; [apply sorted_perm|]. exact Hf.
Qed.

End Constructed.

(** ** Every combination of windows can be drawn *)

Lemma indices_of : forall A (l ws : list A) d, (forall w, In w ws -> In w l) ->
  exists idx, List.length idx = List.length ws /\ (forall i, In i idx -> i < List.length l) /\
    map (fun i => nth i l d) idx = ws.
Proof.
  intros A l ws d; induction ws as [|w ws IH]; intro H.
  - exists []. repeat split; auto. intros i [].
  - destruct IH as [idx [I1 [I2 I3]]]; [intros; apply H; right; auto|].
    destruct (In_nth l w d (H w (or_introl eq_refl))) as [i [Hi Hn]].
    exists (i :: idx). simpl. split; [lia|]. split.
    + intros j [<-|Hj]; auto.
    + congruence.
Qed.

Lemma every_window : forall D c base B L k ws,
  enum_ok D -> 0 < B -> 0 < L -> c_randomize c = false ->
  (forall d, leaf D (s_files base) d -> L <= List.length (dir_files D d)) ->
  List.length ws = B -> (forall w, In w ws -> window D (s_files base) L w) ->
  exists g ec s, choice_ok g /\ ep_construct D c g base B L k = Ok (ec, s) /\
    time_major (dir_files D) L ws (s_files (e_base s)).
Proof.
  intros D c base B L k ws HE HB HL HR Hlen Hws HW.
  destruct (calculate_starts D L (s_files base)) as [starts|e] eqn:E.
  2: { assert (e = ValueError) by (unfold calculate_starts in E; destruct (forallb _ _); congruence).
       subst e. apply calculate_err in E; auto. destruct E as [d [Hd Hd']]. specialize (Hlen d Hd). lia. }
  destruct (calculate_ok _ _ _ _ HE E) as [H1 [H2 H3]].
  destruct (indices_of _ starts ws (EmptyString, 0)) as [idx [I1 [I2 I3]]].
  { intros w Hw. apply H1. auto. }
  assert (Hne : starts <> []).
  { destruct ws as [|w ws]; [simpl in Hws; lia|]. intro; subst. apply (proj2 (H1 w)). apply HW. left; auto. }
  set (g := mkRng (fun _ n => seq 0 n)
     (fun _ n m => if (n =? List.length starts) && (m =? B) then idx else repeat 0 m)).
  set (ec := mkEcfg c g B L (dir_files D) starts).
  assert (HG : choice_ok g).
  { intros k0 n m Hn. cbn [g rchoice]. destruct (n =? List.length starts) eqn:En; cbn [andb].
    - destruct (m =? B) eqn:Em.
      + apply Nat.eqb_eq in En, Em. subst. split; [congruence|auto].
      + rewrite repeat_length. split; auto. intros i Hi. apply repeat_spec in Hi. lia.
    - rewrite repeat_length. split; auto. intros i Hi. apply repeat_spec in Hi. lia. }
  exists g, ec.
  assert (HC : exists s, ep_construct D c g base B L k = Ok (ec, s) /\ sample ec (mkEst base k 0) = Ok s).
  { unfold ep_construct. rewrite (proj2 (Nat.eqb_neq B 0)), (proj2 (Nat.eqb_neq L 0)) by lia.
    rewrite E. cbn [bind]. fold ec. unfold sample. cbn [ec ec_starts].
    destruct starts; [congruence|]. cbn [bind]. eexists; split; reflexivity. }
  destruct HC as [s [HC1 HC2]]. exists s. split; auto. split; auto.
  destruct (construct_inv _ _ _ _ _ _ _ _ _ HE HG HC1) as [HO _].
  destruct (sample_ok _ _ ec (mkEst base k 0) HO) as [order [_ [T S]]]. rewrite HC2 in S. inversion S; subst s.
  cbn [e_base]. unfold reset. cbn [ec ec_base]. rewrite HR. cbn [s_files set_files].
  assert (Hd : drawn ec (e_key (mkEst base k 0)) = ws).
  { unfold drawn. cbn [ec ec_starts ec_rng ec_B g rchoice]. rewrite !Nat.eqb_refl. cbn [andb]. exact I3. }
  rewrite Hd in T. exact T.
Qed.

(** ** Enumeration order *)

Lemma nodup_single : forall (l : list string) d, NoDup l -> (forall x, In x l <-> x = d) -> l = [d].
Proof.
  intros l d HN HI. destruct l as [|a [|b l]].
  - exfalso. apply (proj2 (HI d)). auto.
  - f_equal. apply HI. left; auto.
  - assert (a = d) by (apply HI; left; auto). assert (b = d) by (apply HI; right; left; auto).
    subst. inversion HN; subst. exfalso. apply H1. left; auto.
Qed.

Lemma single_leaf_order : forall key e1 e2 scan glob c g base B L k d,
  let D1 := mkDirs key e1 scan glob in
  let D2 := mkDirs key e2 scan glob in
  enum_ok D1 -> enum_ok D2 ->
  (forall x, leaf D1 (s_files base) x <-> x = d) ->
  ep_construct D1 c g base B L k = ep_construct D2 c g base B L k.
Proof.
  intros key0 e1 e2 scan glob c g base B L k d D1 D2 H1 H2 Hd.
  destruct (leaf_dirs_spec D1 (s_files base) H1) as [N1 I1].
  destruct (leaf_dirs_spec D2 (s_files base) H2) as [N2 I2].
  assert (E1 : leaf_dirs D1 (s_files base) = [d]).
  { apply nodup_single; auto. intro x. rewrite I1. apply Hd. }
  assert (E2 : leaf_dirs D2 (s_files base) = [d]).
  { apply nodup_single; auto. intro x. rewrite I2. apply Hd. }
  unfold ep_construct, calculate_starts. rewrite E1, E2. reflexivity.
Qed.

Lemma same_windows : forall key e1 e2 scan glob c g base B L k ec1 s1 ec2 s2,
  let D1 := mkDirs key e1 scan glob in
  let D2 := mkDirs key e2 scan glob in
  enum_ok D1 -> enum_ok D2 -> choice_ok g ->
  ep_construct D1 c g base B L k = Ok (ec1, s1) ->
  ep_construct D2 c g base B L k = Ok (ec2, s2) ->
  Permutation (ec_starts ec1) (ec_starts ec2).
Proof.
  intros key0 e1 e2 scan glob c g base B L k ec1 s1 ec2 s2 D1 D2 H1 H2 HC M1 M2.
  destruct (construct_inv _ _ _ _ _ _ _ _ _ H1 HC M1) as [O1 [_ [_ [L1 _]]]].
  destruct (construct_inv _ _ _ _ _ _ _ _ _ H2 HC M2) as [O2 [_ [_ [L2 _]]]].
  apply NoDup_Permutation; [apply O1|apply O2|].
  intro w. rewrite (eo_starts _ _ _ O1), (eo_starts _ _ _ O2), L1, L2. reflexivity.
Qed.
