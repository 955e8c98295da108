(** Proofs about the episodic scheduler. *)
From Coq Require Import List Arith ZArith Lia String Bool Permutation.
From Verif Require Import Prelude Model.Base Model.Files Model.Episodic.
From Verif Require Import Spec.BaseSpec Spec.EpisodicSpec.
From Verif Require Import Proofs.BaseProofs Proofs.BaseBatch Proofs.BaseRun Proofs.BaseLoop
  Proofs.BaseFinal Proofs.LoaderFinal.
Import ListNotations.
Local Open Scope nat_scope.

(** ** Starts *)

Lemma leaf_dirs_spec : forall D fl, enum_ok D ->
  NoDup (leaf_dirs D fl) /\ forall d, In d (leaf_dirs D fl) <-> leaf D fl d.
Proof.
  intros D fl HE. destruct (HE (map (d_key D) fl)) as [H1 H2]. unfold leaf_dirs. split.
  - apply NoDup_filter; auto.
  - intro d. rewrite filter_In, H2, in_map_iff. unfold leaf. split.
    + intros [[p [Hp Hi]] Hs]. split; eauto. destruct (d_scan D d); auto; discriminate.
    + intros [[p [Hi Hp]] Hs]. split; eauto. rewrite Hs; auto.
Qed.

Lemma starts_in : forall D L ds d s,
  (forall x, In x ds -> L <= List.length (dir_files D x)) ->
  In (d, s) (flat_map (fun d => map (fun s => (d, s)) (seq 0 (List.length (dir_files D d) - L + 1))) ds)
  <-> In d ds /\ s + L <= List.length (dir_files D d).
Proof.
  intros D L ds d s HL. rewrite in_flat_map. split.
  - intros [x [Hx Hi]]. apply in_map_iff in Hi. destruct Hi as [y [E Hy]]. inversion E; subst.
    apply in_seq in Hy. split; auto. specialize (HL d Hx). lia.
  - intros [Hd Hs]. exists d. split; auto. apply in_map_iff. exists s. split; auto. apply in_seq. lia.
Qed.

Lemma NoDup_app' : forall A (l m : list A), NoDup l -> NoDup m ->
  (forall x, In x l -> ~ In x m) -> NoDup (l ++ m).
Proof.
  intros A l m H; induction H as [|x l Hx Hl IH]; intros Hm Hd; simpl; auto.
  constructor.
  - rewrite in_app_iff. intros [H|H]; [contradiction|]. apply (Hd x); simpl; auto.
  - apply IH; auto. intros y Hy. apply Hd. simpl; auto.
Qed.

Lemma starts_nodup : forall (f : string -> nat) ds, NoDup ds ->
  NoDup (flat_map (fun d => map (fun s => (d, s)) (seq 0 (f d))) ds).
Proof.
  intros f ds H; induction H as [|d ds Hn Hd IH]; simpl; [constructor|].
  apply NoDup_app'; auto.
  - apply FinFun.Injective_map_NoDup; [|apply seq_NoDup]. intros a b E; congruence.
  - intros [d' s'] H1 H2. apply in_map_iff in H1. destruct H1 as [y [E _]]. inversion E; subst.
    apply in_flat_map in H2. destruct H2 as [x [Hx Hi]]. apply in_map_iff in Hi.
    destruct Hi as [z [E' _]]. inversion E'; subst. contradiction.
Qed.

Lemma calculate_ok : forall D L fl starts, enum_ok D ->
  calculate_starts D L fl = Ok starts ->
  (forall w, In w starts <-> window D fl L w) /\ NoDup starts /\
  (forall d, leaf D fl d -> L <= List.length (dir_files D d)).
Proof.
  intros D L fl starts HE H. unfold calculate_starts in H.
  destruct (leaf_dirs_spec D fl HE) as [HN HI].
  destruct (forallb _ (leaf_dirs D fl)) eqn:E; [|discriminate]. inversion H; subst starts. clear H.
  rewrite forallb_forall in E.
  assert (HL : forall x, In x (leaf_dirs D fl) -> L <= List.length (dir_files D x)).
  { intros x Hx. specialize (E x Hx). apply Nat.leb_le in E. auto. }
  split; [|split].
  - intros [d s]. rewrite starts_in by auto. rewrite HI. unfold window; simpl. tauto.
  - apply (starts_nodup (fun d => List.length (dir_files D d) - L + 1)); auto.
  - intros d Hd. apply HL. apply HI. auto.
Qed.

Lemma calculate_err : forall D L fl, enum_ok D ->
  (calculate_starts D L fl = Err ValueError <->
   exists d, leaf D fl d /\ List.length (dir_files D d) < L).
Proof.
  intros D L fl HE. unfold calculate_starts. destruct (leaf_dirs_spec D fl HE) as [_ HI].
  destruct (forallb _ (leaf_dirs D fl)) eqn:E.
  - split; [discriminate|]. intros [d [Hd Hl]]. rewrite forallb_forall in E.
    apply HI in Hd. specialize (E d Hd). apply Nat.leb_le in E. lia.
  - split; auto. intros _. apply Bool.not_true_iff_false in E. rewrite forallb_forall in E.
    destruct (List.Exists_dec (fun d => List.length (dir_files D d) < L) (leaf_dirs D fl)) as [Hx|Hx].
    + intro d. apply lt_dec.
    + apply Exists_exists in Hx. destruct Hx as [d [Hd Hl]]. exists d. split; auto. apply HI; auto.
    + exfalso. apply E. intros d Hd. apply Nat.leb_le. rewrite <- Forall_Exists_neg, Forall_forall in Hx.
      specialize (Hx d Hd). lia.
Qed.

(** ** A constructed scheduler *)

Record ecfg_ok (D : dirs) (fl : list string) (ec : ecfg) : Prop := {
  eo_enum : enum_ok D;
  eo_choice : choice_ok (ec_rng ec);
  eo_B : 0 < ec_B ec;
  eo_L : 0 < ec_L ec;
  eo_files : ec_files ec = dir_files D;
  eo_starts : forall w, In w (ec_starts ec) <-> window D fl (ec_L ec) w;
  eo_nodup : NoDup (ec_starts ec);
  eo_nonempty : ec_starts ec <> []
}.

Lemma construct_inv : forall D c g base B L k ec s,
  enum_ok D -> choice_ok g -> ep_construct D c g base B L k = Ok (ec, s) ->
  ecfg_ok D (s_files base) ec /\ ec_base ec = c /\ ec_B ec = B /\ ec_L ec = L /\ ec_rng ec = g /\
  sample ec (mkEst base k 0) = Ok s /\
  (forall d, leaf D (s_files base) d -> L <= List.length (dir_files D d)).
Proof.
  intros D c g base B L k ec s HE HC H. unfold ep_construct in H.
  destruct (B =? 0) eqn:EB; [discriminate|]. apply Nat.eqb_neq in EB.
  destruct (L =? 0) eqn:EL; [discriminate|]. apply Nat.eqb_neq in EL.
  destruct (calculate_starts D L (s_files base)) as [starts|] eqn:E; [|discriminate]. cbn [bind] in H.
  destruct (calculate_ok _ _ _ _ HE E) as [H1 [H2 H3]].
  destruct (sample _ _) as [s'|] eqn:Es in H; [|discriminate]. cbn [bind] in H. inversion H; subst.
  split; [|repeat split; auto]. constructor; cbn [ec_files ec_B ec_L ec_starts ec_rng]; auto; try lia.
  intro. subst. discriminate.
Qed.

Lemma construct_fails : forall D c g base B L k, enum_ok D -> 0 < B -> 0 < L ->
  ((exists ec s, ep_construct D c g base B L k = Ok (ec, s)) <->
   (exists d, leaf D (s_files base) d) /\
   forall d, leaf D (s_files base) d -> L <= List.length (dir_files D d)) /\
  ((~ exists ec s, ep_construct D c g base B L k = Ok (ec, s)) ->
   ep_construct D c g base B L k = Err ValueError).
Proof.
  intros D c g base B L k HE HB HL. unfold ep_construct.
  rewrite (proj2 (Nat.eqb_neq B 0)) by lia. rewrite (proj2 (Nat.eqb_neq L 0)) by lia.
  destruct (calculate_starts D L (s_files base)) as [starts|e] eqn:E; cbn [bind].
  - destruct (calculate_ok _ _ _ _ HE E) as [H1 [H2 H3]].
    unfold sample; cbn [ec_starts]. destruct starts as [|w0 starts]; cbn [bind].
    + split; auto. split.
      * intros [ec [s H]]; discriminate.
      * intros [[d Hd] Hl]. exfalso. apply (proj2 (H1 (d, 0))). split; auto.
    + split; [split|].
      * intros _. split; auto. destruct (proj1 (H1 w0) (or_introl eq_refl)) as [Hw _]. eauto.
      * intros _. eauto.
      * intro H. exfalso. apply H. eauto.
  - assert (e = ValueError).
    { unfold calculate_starts in E. destruct (forallb _ _); congruence. }
    subst e. split; auto. split.
    + intros [ec [s H]]; discriminate.
    + intros [_ Hl]. apply calculate_err in E; auto. destruct E as [d [Hd Hd']]. specialize (Hl d Hd). lia.
Qed.

(** ** Drawn windows and their interleaving *)

Lemma drawn_ok : forall D fl ec k, ecfg_ok D fl ec ->
  List.length (drawn ec k) = ec_B ec /\
  forall w, In w (drawn ec k) -> window D fl (ec_L ec) w.
Proof.
  intros D fl ec k HO. unfold drawn.
  assert (Hn : 0 < List.length (ec_starts ec)).
  { pose proof (eo_nonempty _ _ _ HO). destruct (ec_starts ec); simpl; [congruence|lia]. }
  destruct (eo_choice _ _ _ HO (Child k 1) (List.length (ec_starts ec)) (ec_B ec) Hn) as [H1 H2].
  split; [rewrite map_length; auto|]. intros w Hw. apply in_map_iff in Hw. destruct Hw as [i [<- Hi]].
  apply (eo_starts _ _ _ HO). apply nth_In. auto.
Qed.

Lemma flat_map_block : forall A (f : nat -> list A) B L,
  (forall t, t < L -> List.length (f t) = B) ->
  List.length (flat_map f (seq 0 L)) = L * B /\
  forall t e, t < L -> e < B -> nth_error (flat_map f (seq 0 L)) (t * B + e) = nth_error (f t) e.
Proof.
  intros A f B L; induction L as [|L IH]; intro H.
  - split; auto. intros; lia.
  - destruct IH as [I1 I2]; [intros; apply H; lia|].
    rewrite seq_S, flat_map_app. cbn [flat_map]. rewrite app_nil_r. simpl (0 + L).
    split; [rewrite app_length, I1, H by lia; lia|].
    intros t e Ht He. destruct (Nat.eq_dec t L) as [->|Hne].
    + rewrite nth_error_app2 by lia. rewrite I1. f_equal. lia.
    + rewrite nth_error_app1; [apply I2; lia|]. rewrite I1. nia.
Qed.

Lemma interleave_time_major : forall D fl ec ws, ecfg_ok D fl ec ->
  List.length ws = ec_B ec -> (forall w, In w ws -> window D fl (ec_L ec) w) ->
  time_major (dir_files D) (ec_L ec) ws (interleave (ec_B ec) (ec_L ec) (map (window_files ec) ws)).
Proof.
  intros D fl ec ws HO HB HW. unfold interleave, time_major. rewrite HB.
  destruct (flat_map_block _ (fun t => map (fun e => nth t (nth e (map (window_files ec) ws) []) EmptyString)
              (seq 0 (ec_B ec))) (ec_B ec) (ec_L ec)) as [H1 H2].
  { intros; rewrite map_length, seq_length; auto. }
  split; [exact H1|]. intros t e d s Ht He.
  assert (Hlt : e < ec_B ec) by (rewrite <- HB; apply nth_error_Some; congruence).
  rewrite H2 by auto. rewrite nth_error_map.
  assert (Hs : nth_error (seq 0 (ec_B ec)) e = Some e).
  { rewrite (nth_error_nth' _ 0) by (rewrite seq_length; auto). rewrite seq_nth; auto. }
  rewrite Hs. cbn [option_map].
  assert (Hw : nth e (map (window_files ec) ws) [] = window_files ec (d, s)).
  { apply nth_error_nth. rewrite nth_error_map, He. reflexivity. }
  rewrite Hw. unfold window_files; cbn [fst snd]. rewrite (eo_files _ _ _ HO).
  destruct (HW (d, s)) as [_ HL]. { eapply nth_error_In; eauto. } cbn [fst snd] in HL.
  assert (Hx : nth_error (firstn (ec_L ec) (skipn s (dir_files D d))) t = nth_error (dir_files D d) (s + t)).
  { rewrite nth_error_firstn_lt, nth_error_skipn' by auto. auto. }
  destruct (nth_error (dir_files D d) (s + t)) as [p|] eqn:Ep.
  - apply nth_error_nth with (d := EmptyString) in Hx. rewrite Hx. auto.
  - apply nth_error_None in Ep. lia.
Qed.

(** ** States *)

(** The wrapped scheduler serves, up to order, the files of some windows. *)
Definition serves (D : dirs) (fl : list string) (ec : ecfg) (s : est) : Prop :=
  exists ws order, List.length ws = ec_B ec /\ (forall w, In w ws -> window D fl (ec_L ec) w) /\
    time_major (dir_files D) (ec_L ec) ws order /\
    Permutation (s_files (e_base s)) order /\
    (c_randomize (ec_base ec) = false -> s_files (e_base s) = order).

Lemma sample_ok : forall D fl ec s, ecfg_ok D fl ec ->
  exists order, order = interleave (ec_B ec) (ec_L ec) (map (window_files ec) (drawn ec (e_key s))) /\
    time_major (dir_files D) (ec_L ec) (drawn ec (e_key s)) order /\
    sample ec s = Ok (mkEst (reset (ec_base ec) (set_files (e_base s) order)) (Child (e_key s) 0) (e_t s)).
Proof.
  intros D fl ec s HO. eexists; split; [reflexivity|].
  destruct (drawn_ok D fl ec (e_key s) HO) as [H1 H2]. split.
  - eapply interleave_time_major; eauto.
  - unfold sample. pose proof (eo_nonempty _ _ _ HO). destruct (ec_starts ec); [congruence|reflexivity].
Qed.

Lemma shuffle_perm' : forall g k fl, perm_ok g -> Permutation (shuffle g k fl) fl.
Proof.
  intros g k fl HP. unfold shuffle.
  transitivity (map (fun i => nth i fl EmptyString) (seq 0 (List.length fl))).
  - apply Permutation_map. apply HP.
  - assert (H : forall l : list string, map (fun i => nth i l EmptyString) (seq 0 (List.length l)) = l).
    { induction l as [|a l IH]; simpl; auto. f_equal. rewrite <- seq_shift, map_map. simpl. exact IH. }
    rewrite H. auto.
Qed.

Lemma reset_files_perm : forall c s, (c_randomize c = true -> perm_ok (c_rng c)) ->
  Permutation (s_files (reset c s)) (s_files s) /\
  (c_randomize c = false -> s_files (reset c s) = s_files s).
Proof.
  intros c s H. unfold reset. destruct (c_randomize c); simpl.
  - split; [apply shuffle_perm'; auto|discriminate].
  - split; auto.
Qed.

Lemma next_files_perm : forall c fuel s, (c_randomize c = true -> perm_ok (c_rng c)) ->
  Permutation (s_files (snd (get_next c fuel s))) (s_files s).
Proof.
  intros c fuel; induction fuel as [|fuel IH]; intros s H; simpl; auto.
  destruct (_ || _); simpl; auto.
  set (s1 := if _ <=? _ then _ else _).
  assert (H1 : Permutation (s_files s1) (s_files s)).
  { unfold s1. destruct (_ <=? _); auto. apply reset_files_perm; auto. }
  assert (HB : match next_body c s1 with inl s2 => s_files s2 = s_files s1 | inr r => s_files (snd r) = s_files s1 end).
  { unfold next_body. destruct (nth_error (s_files s1) (s_index s1)); auto.
    destruct (opt_str_eqb _ _).
    - destruct (get_next_slice _ _ _ _); reflexivity.
    - destruct (load_file _ _); [|reflexivity]. destruct (get_next_slice _ _ _ _); reflexivity. }
  destruct (next_body c s1) as [s2|r].
  - rewrite IH, HB; auto.
  - rewrite HB. auto.
Qed.

Lemma collect_files_perm : forall c fuel n acc s, (c_randomize c = true -> perm_ok (c_rng c)) ->
  Permutation (s_files (snd (collect c fuel n acc s))) (s_files s).
Proof.
  intros c fuel n; induction n as [|n IH]; intros acc s H; simpl; auto.
  pose proof (next_files_perm c fuel s H) as HN.
  destruct (get_next c fuel s) as [r s']. simpl in HN.
  destruct r as [d|e|]; auto.
  - rewrite IH; auto.
  - destruct e; auto.
Qed.

Lemma get_batch_files_perm : forall c fuel n s, (c_randomize c = true -> perm_ok (c_rng c)) ->
  Permutation (s_files (snd (get_batch c fuel n s))) (s_files s) /\
  (c_randomize c = false -> s_files (snd (get_batch c fuel n s)) = s_files s).
Proof.
  intros c fuel n s H. split.
  - unfold get_batch. pose proof (collect_files_perm c fuel n [] s H) as HC.
    destruct (collect c fuel n [] s) as [r s']. simpl in HC. destruct r as [l|e|]; auto.
    destruct l; destruct (c_loop c); simpl; auto.
    + rewrite (proj1 (reset_files_perm c s' H)). auto.
    + destruct (assemble _ _ _); auto.
    + destruct (assemble _ _ _); auto.
  - intro HR. pose proof (op_frame c fuel (OGet n) s HR) as [HF _]. simpl in HF.
    destruct (get_batch c fuel n s); auto.
Qed.

Lemma next_serves : forall D fl ec s, ecfg_ok D fl ec ->
  (c_randomize (ec_base ec) = true -> perm_ok (c_rng (ec_base ec))) ->
  serves D fl ec (next_episode ec s) /\ e_t (next_episode ec s) = 0.
Proof.
  intros D fl ec s HO HP. destruct (sample_ok D fl ec s HO) as [order [H1 [H2 H3]]].
  destruct (drawn_ok D fl ec (e_key s) HO) as [D1 D2].
  unfold next_episode. rewrite H3. cbn [e_base e_key e_t]. split; auto.
  exists (drawn ec (e_key s)), order. split; auto. split; auto. split; auto. cbn [e_base].
  destruct (reset_files_perm (ec_base ec) (set_files (e_base s) order) HP) as [R1 R2].
  split; auto.
Qed.

Lemma construct_serves : forall D c g base B L k ec s,
  enum_ok D -> choice_ok g -> (c_randomize c = true -> perm_ok (c_rng c)) ->
  ep_construct D c g base B L k = Ok (ec, s) ->
  serves D (s_files base) ec s /\ e_t s = 0.
Proof.
  intros D c g base B L k ec s HE HC HP H.
  destruct (construct_inv _ _ _ _ _ _ _ _ _ HE HC H) as [HO [Hc [HB [HL [Hg [Hs _]]]]]].
  destruct (next_serves D (s_files base) ec (mkEst base k 0) HO) as [S1 S2].
  { rewrite Hc; auto. }
  unfold next_episode in *. rewrite Hs in *.
  destruct (sample_ok _ _ ec (mkEst base k 0) HO) as [order [_ [_ H3]]]. rewrite Hs in H3.
  inversion H3; subst s. cbn [e_base e_key e_t] in *. split; auto.
Qed.

Lemma op_serves : forall D fl ec fuel o s, ecfg_ok D fl ec ->
  (c_randomize (ec_base ec) = true -> perm_ok (c_rng (ec_base ec))) ->
  serves D fl ec s -> serves D fl ec (snd (do_eop ec fuel o s)).
Proof.
  intros D fl ec fuel o s HO HP HS. destruct o as [n| | |]; simpl.
  - unfold ep_get. destruct (n =? ec_B ec); auto. destruct (ec_L ec <=? e_t s); auto.
    pose proof (get_batch_files_perm (ec_base ec) fuel n (e_base s) HP) as [P1 P2].
    destruct (get_batch (ec_base ec) fuel n (e_base s)) as [r b]. simpl in *.
    destruct HS as [ws [order [A1 [A2 [A3 [A4 A5]]]]]]. exists ws, order. simpl.
    split; auto. split; auto. split; auto. split.
    + rewrite P1; auto.
    + intro HR. rewrite P2; auto.
  - apply next_serves; auto.
  - apply next_serves; auto.
  - exact HS.
Qed.

Lemma run_serves : forall D fl ec fuel ops s, ecfg_ok D fl ec ->
  (c_randomize (ec_base ec) = true -> perm_ok (c_rng (ec_base ec))) ->
  serves D fl ec s -> serves D fl ec (snd (erun ec fuel ops s)).
Proof.
  intros D fl ec fuel ops; induction ops as [|o ops IH]; intros s HO HP HS; simpl; auto.
  pose proof (op_serves D fl ec fuel o s HO HP HS) as H1.
  destruct (do_eop ec fuel o s) as [r s1]. simpl in H1. specialize (IH s1 HO HP H1).
  destruct (erun ec fuel ops s1). auto.
Qed.

(** ** The step counter *)

Lemma taken_le : forall B L ops t, t <= L -> taken_from B L t ops <= L.
Proof.
  intros B L ops; induction ops as [|[n| | |] ops IH]; intros t Ht; simpl; auto; try (apply IH; lia).
  destruct ((n =? B) && (t <? L)) eqn:E; apply IH; auto.
  apply andb_true_iff in E. destruct E as [_ E]. apply Nat.ltb_lt in E. lia.
Qed.

Lemma run_taken : forall D fl ec fuel ops s, ecfg_ok D fl ec ->
  e_t (snd (erun ec fuel ops s)) = taken_from (ec_B ec) (ec_L ec) (e_t s) ops.
Proof.
  intros D fl ec fuel ops; induction ops as [|o ops IH]; intros s HO; simpl; auto.
  destruct (do_eop ec fuel o s) as [r s1] eqn:E. specialize (IH s1 HO).
  destruct (erun ec fuel ops s1) as [rs s2]. simpl in *. rewrite IH. clear IH.
  assert (HN : e_t (next_episode ec s) = 0).
  { unfold next_episode. destruct (sample_ok D fl ec s HO) as [order [_ [_ H3]]]. rewrite H3. reflexivity. }
  destruct o as [n| | |]; simpl in E.
  - unfold ep_get in E. destruct (n =? ec_B ec); simpl.
    + destruct (ec_L ec <=? e_t s) eqn:EL.
      * inversion E; subst. apply Nat.leb_le in EL. rewrite (proj2 (Nat.ltb_ge _ _)) by auto. auto.
      * apply Nat.leb_gt in EL. rewrite (proj2 (Nat.ltb_lt _ _)) by auto.
        destruct (get_batch _ _ _ _) as [r0 b]. inversion E; subst. auto.
    + inversion E; subst; auto.
  - inversion E; subst. rewrite HN; auto.
  - inversion E; subst. rewrite HN; auto.
  - inversion E; subst. auto.
Qed.

(** A block of [m] requests from a state at step [t]: the first [L - t] are
    those of the wrapped scheduler. *)
Lemma egets_run : forall ec fuel m s,
  e_t s <= ec_L ec ->
  let rs := fst (erun ec fuel (repeat (EGet (ec_B ec)) m) s) in
  let bs := fst (run (ec_base ec) fuel (gets (repeat (ec_B ec) m)) (e_base s)) in
  forall j, j < m ->
    (j < ec_L ec - e_t s -> nth_error rs j = nth_error bs j) /\
    (ec_L ec - e_t s <= j -> nth_error rs j = Some (ORes (CRaise EpisodeEnd))).
Proof.
  intros ec fuel m; induction m as [|m IH]; intros s Hs rs bs j Hj; [lia|].
  subst rs bs. cbn [repeat erun do_eop gets map run do_op].
  unfold ep_get at 1 2. rewrite Nat.eqb_refl.
  destruct (ec_L ec <=? e_t s) eqn:EL.
  - apply Nat.leb_le in EL. specialize (IH s Hs).
    destruct (erun ec fuel (repeat (EGet (ec_B ec)) m) s) as [rs s2] eqn:E. cbn [fst] in *.
    split; [lia|]. intros _. destruct j as [|j]; auto. cbn [nth_error].
    apply (proj2 (IH j ltac:(lia))). lia.
  - apply Nat.leb_gt in EL.
    destruct (get_batch (ec_base ec) fuel (ec_B ec) (e_base s)) as [r b] eqn:EG.
    specialize (IH (mkEst b (e_key s) (S (e_t s)))). cbn [e_t e_base] in IH.
    specialize (IH ltac:(lia)).
    destruct (erun ec fuel (repeat (EGet (ec_B ec)) m) (mkEst b (e_key s) (S (e_t s)))) as [rs s2].
    unfold gets in IH. destruct (run (ec_base ec) fuel (map OGet (repeat (ec_B ec) m)) b) as [bs s3].
    cbn [fst] in *. destruct j as [|j]; cbn [nth_error].
    + split; auto. lia.
    + destruct (IH j ltac:(lia)) as [I1 I2]. split; intro; [apply I1|apply I2]; lia.
Qed.

(** ** Alignment *)

Lemma nth_error_Some_lt : forall A (l : list A) i, i < List.length l -> exists x, nth_error l i = Some x.
Proof. intros A l i H. destruct (nth_error l i) eqn:E; eauto. apply nth_error_None in E. lia. Qed.

Lemma tm_nth : forall files L ws order i p, 0 < List.length ws ->
  time_major files L ws order -> nth_error order i = Some p ->
  exists t e d s, t < L /\ i = t * List.length ws + e /\ nth_error ws e = Some (d, s) /\
    nth_error (files d) (s + t) = Some p.
Proof.
  intros files L ws order i p HB [H1 H2] Hi.
  assert (Hlt : i < L * List.length ws) by (rewrite <- H1; apply nth_error_Some; congruence).
  set (B := List.length ws) in *.
  assert (Hi' : i = (i / B) * B + i mod B) by (rewrite Nat.mul_comm; apply Nat.div_mod; lia).
  assert (Hm : i mod B < B) by (apply Nat.mod_upper_bound; lia).
  assert (Hd : i / B < L) by (apply Nat.div_lt_upper_bound; nia).
  destruct (nth_error_Some_lt _ ws (i mod B) Hm) as [[d s] Hw].
  exists (i / B), (i mod B), d, s. split; auto. split; auto. split; auto.
  rewrite <- H2 with (e := i mod B); auto. rewrite <- Hi'. auto.
Qed.

Lemma spread_no_adjacent : forall D fl L ws order, 0 < List.length ws ->
  (forall w, In w ws -> window D fl L w) -> distinct_files D fl -> 0 < L ->
  time_major (dir_files D) L ws order ->
  (spread L ws <-> no_adjacent_equal order).
Proof.
  intros D fl L ws order HB HW HD HL HT. split.
  - intros [S1 S2] i p q Hp Hq E. subst q.
    destruct (tm_nth _ _ _ _ _ _ HB HT Hp) as (t & e & d & s & Ht & Hi & Hw & Hf).
    destruct (tm_nth _ _ _ _ _ _ HB HT Hq) as (t' & e' & d' & s' & Ht' & Hi' & Hw' & Hf').
    assert (Le : e < List.length ws) by (apply nth_error_Some; congruence).
    assert (Le' : e' < List.length ws) by (apply nth_error_Some; congruence).
    assert (Lf : leaf D fl d) by (apply (HW (d, s)); eapply nth_error_In; eauto).
    assert (Lf' : leaf D fl d') by (apply (HW (d', s')); eapply nth_error_In; eauto).
    destruct (HD _ _ _ _ _ Lf Lf' Hf Hf') as [-> Hst].
    set (B := List.length ws) in *.
    destruct (Nat.eq_dec (S e) B) as [Hlast|Hnl].
    + assert (t' = S t /\ e' = 0) as [-> ->].
      { assert (t' * B + e' = S t * B) by nia. assert (t' = S t) by nia. subst. nia. }
      apply (S2 ltac:(lia) d' s' Hw'). replace (B - 1) with e by lia.
      rewrite Hw. f_equal. f_equal. lia.
    + assert (t' = t /\ e' = S e) as [-> ->].
      { assert (t' * B + e' = t * B + S e) by nia. assert (t' = t) by nia. subst. nia. }
      apply (S1 e (d', s) Hw). rewrite Hw'. f_equal. f_equal. lia.
  - intro HA. destruct HT as [T1 T2]. split.
    + intros e [d s] H1 H2.
      assert (Le : S e < List.length ws) by (apply nth_error_Some; congruence).
      destruct (HW (d, s)) as [_ Hlen]; [eapply nth_error_In; eauto|]. cbn [fst snd] in Hlen.
      destruct (nth_error_Some_lt _ (dir_files D d) (s + 0)) as [p Hp]; [lia|].
      pose proof (T2 0 e d s HL H1) as E1. pose proof (T2 0 (S e) d s HL H2) as E2.
      simpl in E1, E2. rewrite Hp in E1, E2. apply (HA e p p E1 E2). auto.
    + intros H2L d s H0 Hl.
      destruct (HW (d, S s)) as [_ Hlen]; [eapply nth_error_In; eauto|]. cbn [fst snd] in Hlen.
      destruct (nth_error_Some_lt _ (dir_files D d) (S s)) as [p Hp]; [lia|].
      pose proof (T2 0 (List.length ws - 1) d (S s) HL Hl) as E1.
      pose proof (T2 1 0 d s ltac:(lia) H0) as E2.
      replace (S s + 0) with (S s) in E1 by lia. replace (s + 1) with (S s) in E2 by lia.
      rewrite Hp in E1, E2. apply (HA (List.length ws - 1) p p).
      * rewrite <- E1. f_equal; lia.
      * rewrite <- E2. f_equal; lia.
      * auto.
Qed.

Lemma epoch_single : forall C fl, (forall p, In p fl -> exists x, C p = Slices [x]) ->
  List.length (epoch C fl) = List.length fl /\
  forall i p, nth_error fl i = Some p -> exists x, C p = Slices [x] /\ nth_error (epoch C fl) i = Some x.
Proof.
  intros C fl; induction fl as [|p fl IH]; intro H.
  - split; auto. intros [|i] q Hq; discriminate.
  - destruct IH as [I1 I2]; [intros; apply H; right; auto|].
    destruct (H p (or_introl eq_refl)) as [x Hx]. unfold epoch in *. cbn [flat_map].
    unfold slices_of at 1 3. rewrite Hx. simpl. split; [lia|].
    intros [|i] q Hq; simpl in *; auto. inversion Hq; subst; eauto.
Qed.

Lemma sum_repeat : forall n m, sum (repeat n m) = m * n.
Proof. intros n m; induction m; simpl; auto. Qed.

Lemma firstn_repeat : forall A (x : A) n m, firstn n (repeat x m) = repeat x (Nat.min n m).
Proof. intros A x n; induction n; intros [|m]; simpl; auto. f_equal; auto. Qed.

Lemma nth_repeat_some : forall A (x : A) m j, j < m -> nth_error (repeat x m) j = Some x.
Proof. intros A x m; induction m; intros [|j] H; simpl; auto; try lia. apply IHm; lia. Qed.

Lemma collapse_len : forall l, List.length (collapse l) <= List.length l /\
  (List.length (collapse l) = List.length l -> no_adjacent_equal l).
Proof.
  induction l as [|p l IH].
  - split; auto. intros _ i p q H. destruct i; discriminate.
  - destruct l as [|q l].
    + split; auto. intros _ [|i] a b H1 H2; simpl in *; try discriminate; try (destruct i; discriminate).
    + destruct IH as [I1 I2]. rewrite collapse_cons2.
      destruct (String.eqb p q) eqn:E.
      * split; [simpl in *; lia|]. intro H. cbn [List.length] in *. lia.
      * apply String.eqb_neq in E. split; [cbn [List.length] in *; lia|]. intro H.
        cbn [List.length] in *. specialize (I2 ltac:(lia)).
        intros [|i] a b Ha Hb; simpl in Ha, Hb.
        -- congruence.
        -- apply (I2 i); auto.
Qed.

Section Align.
Variables (D : dirs) (fl : list string) (ec : ecfg) (C : string -> content) (order : list string)
  (ws : list (string * nat)).
Hypothesis HO : ecfg_ok D fl ec.
Hypothesis HB : List.length ws = ec_B ec.
Hypothesis HW : forall w, In w ws -> window D fl (ec_L ec) w.
Hypothesis HT : time_major (dir_files D) (ec_L ec) ws order.
Hypothesis HD : disk (c_loader (ec_base ec)) C.
Hypothesis HS : single_slices C D fl.

Lemma order_in : forall p, In p order -> exists d, leaf D fl d /\ In p (dir_files D d).
Proof.
  intros p Hp. apply In_nth_error in Hp. destruct Hp as [i Hi].
  assert (0 < List.length ws) by (rewrite HB; apply (eo_B _ _ _ HO)).
  destruct (tm_nth _ _ _ _ _ _ H HT Hi) as (t & e & d & s & Ht & _ & Hw & Hf).
  exists d. split.
  - apply (HW (d, s)). eapply nth_error_In; eauto.
  - eapply nth_error_In; eauto.
Qed.

Lemma order_single : forall p, In p order -> exists x, C p = Slices [x].
Proof.
  intros p Hp. destruct (order_in p Hp) as [d [Hd Hi]].
  destruct HS as [F [I1 [I2 HF]]]. destruct (HF d p Hd Hi) as [x [Hx _]]. eauto.
Qed.

Lemma order_stack : exists F I1 I2, forall x, In x (epoch C order) -> stackable F I1 I2 x.
Proof.
  destruct HS as [F [I1 [I2 HF]]]. exists F, I1, I2. intros x Hx.
  unfold epoch in Hx. apply in_flat_map in Hx. destruct Hx as [p [Hp Hx]].
  destruct (order_in p Hp) as [d [Hd Hi]]. destruct (HF d p Hd Hi) as [y [Hy Hst]].
  unfold slices_of in Hx. rewrite Hy in Hx. destruct Hx as [<-|[]]. auto.
Qed.

Lemma order_no_faults : no_faults C order.
Proof. intros p l e Hp E. destruct (order_single p Hp) as [x Hx]. congruence. Qed.

Lemma order_len : List.length order = ec_L ec * ec_B ec.
Proof. rewrite (proj1 HT), HB. auto. Qed.

Lemma seg_step : forall t l b, t < ec_L ec -> batch_of (ec_B ec) l b -> List.length l = ec_B ec ->
  (forall e, e < ec_B ec -> nth_error l e = nth_error (epoch C order) (t * ec_B ec + e)) ->
  step_of C (dir_files D) ws t (Some (ORes (CReturn b))).
Proof.
  intros t l b Ht Hb Hl Hn. exists b, l. rewrite HB. split; auto. split; auto. split; auto.
  intros e d s He.
  assert (Le : e < ec_B ec) by (rewrite <- HB; apply nth_error_Some; congruence).
  pose proof (proj2 HT t e d s Ht He) as E. rewrite HB in E.
  destruct (nth_error_Some_lt _ order (t * ec_B ec + e)) as [p Hp].
  { rewrite order_len. nia. }
  destruct (epoch_single C order order_single) as [_ HE]. destruct (HE _ _ Hp) as [x [Hx1 Hx2]].
  exists p, x. rewrite <- E, Hn by auto. auto.
Qed.

(** The wrapped scheduler, started on a spread order, serves step [t] in its
    [t]-th batch. *)
Lemma base_aligned : forall k fuel m t,
  c_randomize (ec_base ec) = false -> distinct_files D fl -> spread (ec_L ec) ws ->
  2 * (ec_L ec * ec_B ec) < fuel -> t < ec_L ec -> t < m ->
  step_of C (dir_files D) ws t
    (nth_error (fst (run (ec_base ec) fuel (gets (repeat (ec_B ec) m)) (init (ec_base ec) order k))) t).
Proof.
  intros k fuel m t HR Hdf Hsp Hf Ht Htm.
  assert (HBpos := eo_B _ _ _ HO). assert (HLpos := eo_L _ _ _ HO).
  assert (HA : no_adjacent_equal order).
  { apply (proj1 (spread_no_adjacent D fl (ec_L ec) ws order ltac:(lia) HW Hdf HLpos HT)). auto. }
  destruct (epoch_single C order order_single) as [E1 _]. rewrite order_len in E1.
  destruct order_stack as [F [I1 [I2 HF]]].
  destruct (c_loop (ec_base ec)) eqn:HLoop.
  - destruct (loop_periodic (ec_base ec) C order k (repeat (ec_B ec) m) fuel) with (j := t) (n := ec_B ec)
      as [b [l [Hr [Hb [Hl Hn]]]]]; auto.
    + apply order_no_faults.
    + exists F, I1, I2; auto.
    + intro E. rewrite E in E1. simpl in E1. nia.
    + rewrite order_len; auto.
    + intros n Hn. apply repeat_spec in Hn. lia.
    + apply nth_repeat_some; auto.
    + rewrite Hr. apply seg_step with (l := l); auto. intros e He. rewrite Hn by auto. f_equal.
      rewrite firstn_repeat, Nat.min_l, sum_repeat, E1 by lia. apply Nat.mod_small. nia.
  - rewrite (init_run_finish (ec_base ec) C order k (repeat (ec_B ec) m) fuel) with (n := ec_B ec); auto.
    + rewrite firstn_repeat, Nat.min_l, sum_repeat by lia.
      set (seg := firstn (ec_B ec) (skipn (t * ec_B ec) (epoch C order))).
      assert (Hl : List.length seg = ec_B ec).
      { unfold seg. rewrite firstn_length, skipn_length, E1. nia. }
      assert (Hne : seg <> []) by (intro E; rewrite E in Hl; simpl in Hl; lia).
      destruct (assemble_ok F I1 I2 false (ec_B ec) seg) as [b [Hb1 Hb2]]; auto; try lia; try discriminate.
      { intros x Hx. apply HF. eapply in_skipn. eapply in_firstn. exact Hx. }
      assert (Hfin : finish (ec_B ec) seg None = CReturn b).
      { unfold finish. rewrite Hb1. destruct seg; [congruence|reflexivity]. }
      rewrite Hfin. apply seg_step with (l := seg); auto.
      intros e He. unfold seg. rewrite nth_error_firstn_lt, nth_error_skipn' by auto. auto.
    + apply order_no_faults.
    + rewrite order_len. lia.
    + apply nth_repeat_some; auto.
Qed.

(** Conversely, without looping, alignment of the last batch forces the
    windows to be spread. *)
Lemma base_aligned_conv : forall k fuel,
  c_randomize (ec_base ec) = false -> c_loop (ec_base ec) = false ->
  distinct_files D fl -> 4 * (ec_L ec * ec_B ec) < fuel ->
  step_of C (dir_files D) ws (ec_L ec - 1)
    (nth_error (fst (run (ec_base ec) fuel (gets (repeat (ec_B ec) (ec_L ec))) (init (ec_base ec) order k)))
       (ec_L ec - 1)) ->
  spread (ec_L ec) ws.
Proof.
  intros k fuel HR HLoop Hdf Hf [b [l [Hr [Hb [Hl _]]]]].
  assert (HBpos := eo_B _ _ _ HO). assert (HLpos := eo_L _ _ _ HO).
  apply (proj2 (spread_no_adjacent D fl (ec_L ec) ws order ltac:(lia) HW Hdf HLpos HT)).
  assert (Hone : order <> []) by (intro E; pose proof order_len as O; rewrite E in O; simpl in O; nia).
  rewrite (duplicates_collapse (ec_base ec) C) in Hr; auto; [|rewrite order_len; lia].
  destruct (collapse_len order) as [L1 L2].
  assert (Hsin : forall p, In p (collapse order) -> exists x, C p = Slices [x]).
  { intros p Hp. apply order_single. apply collapse_in; auto. }
  rewrite (init_run_finish (ec_base ec) C (collapse order) k (repeat (ec_B ec) (ec_L ec)) fuel)
    with (n := ec_B ec) in Hr; auto.
  - rewrite firstn_repeat, Nat.min_l, sum_repeat in Hr by lia.
    set (seg := firstn (ec_B ec) (skipn ((ec_L ec - 1) * ec_B ec) (epoch C (collapse order)))) in *.
    assert (Hls : List.length seg = ec_B ec).
    { unfold finish in Hr. destruct seg as [|x0 seg'] eqn:Eseg.
      - discriminate.
      - destruct (assemble false (ec_B ec) (x0 :: seg')) as [b'|e'] eqn:Ea; [|discriminate].
        inversion Hr; subst b'. rewrite <- Eseg in *.
        destruct order_stack as [F [I1 [I2 HF]]].
        assert (Hseg : batch_of (ec_B ec) seg b).
        { apply (assemble_returned F I1 I2 false); auto; try congruence; try discriminate.
          - unfold seg. rewrite firstn_length. lia.
          - intros x Hx. apply HF. apply (epoch_collapse_in C). unfold seg in Hx.
            eapply in_skipn. eapply in_firstn. exact Hx. }
        rewrite HB in Hb, Hl.
        pose proof (valid_rows_batch _ _ _ Hb) as V1. pose proof (valid_rows_batch _ _ _ Hseg) as V2.
        rewrite V1 in V2. apply (f_equal (@List.length _)) in V2. rewrite !map_length in V2. lia. }
    assert (Hlc : List.length (epoch C (collapse order)) = List.length (collapse order)) by
      (apply epoch_single; auto).
    assert (Hge : ec_L ec * ec_B ec <= List.length (collapse order)).
    { rewrite <- Hlc. unfold seg in Hls. rewrite firstn_length, skipn_length in Hls. nia. }
    apply L2. rewrite order_len in *. lia.
  - apply collapse_distinct.
  - intros p l0 e Hp E. destruct (Hsin p Hp) as [x Hx]. congruence.
  - rewrite order_len in L1. lia.
  - apply nth_repeat_some; lia.
Qed.

End Align.
