(** Random keys: no key is drawn from twice, none is both drawn from and split. *)
From Coq Require Import List Arith ZArith Lia.
From Verif Require Import Prelude Model.Keys Spec.KeySpec Spec.SamplerSpec.
Import ListNotations.
Local Open Scope nat_scope.

(** The place of a purpose in the tree below a device key, as a path. *)
Definition path (p : use) : list nat :=
  match p with
  | UDensity => [1]
  | UHide1 i => [0; i; 0] | UHide2 i => [0; i; 1] | UPositions i => [0; i; 2]
  | UDx i => [0; i; 3; 0] | UDy i => [0; i; 3; 1] | URho i => [0; i; 3; 2] | UIn i => [0; i; 3; 3]
  | UNoiseDx i => [0; i; 3; 4] | UNoiseDy i => [0; i; 3; 5] | UNoiseRho i => [0; i; 3; 6] | UNoiseIn i => [0; i; 3; 7]
  | UNoise1Uniform i => [0; i; 4; 0] | UNoise1Gauss i => [0; i; 4; 1]
  | UNoise2Uniform i => [0; i; 5; 0] | UNoise2Gauss i => [0; i; 5; 1]
  | UDiameterIdx i => [0; i; 6] | UIntensityIdx i => [0; i; 7] | URhoIdx i => [0; i; 8]
  end.

Fixpoint down (k : key) (l : list nat) : key :=
  match l with [] => k | i :: l => down (Child k i) l end.

Lemma down_app : forall l1 l2 k, down k (l1 ++ l2) = down (down k l1) l2.
Proof. induction l1; cbn; auto. Qed.

Definition img_of (p : use) : option nat :=
  match p with
  | UDensity => None
  | UDiameterIdx i | UIntensityIdx i | URhoIdx i | UHide1 i | UHide2 i | UPositions i
  | UDx i | UDy i | URho i | UIn i | UNoiseDx i | UNoiseDy i | UNoiseRho i | UNoiseIn i
  | UNoise1Uniform i | UNoise1Gauss i | UNoise2Uniform i | UNoise2Gauss i => Some i
  end.

(** A drawn key is the one at its purpose's path; each purpose occurs. *)
Lemma draws_in : forall k b p x, In (p, x) (draws k b) <->
  x = down k (path p) /\ match img_of p with None => True | Some i => i < b end.
Proof.
  intros k b p x. unfold draws, split2. cbn [In]. rewrite in_flat_map. split.
  - intros [E|(i & Hi & H)]; [injection E as <- <-; cbn; auto|].
    apply in_seq in Hi. unfold scan_draws, noise_draws, split2 in H. cbn in H.
    repeat (destruct H as [H|H]; [injection H as <- <-; cbn; split; [reflexivity|lia]|]). contradiction.
  - intros [-> H]. destruct p; cbn in H |- *; [left; reflexivity|..];
      right; eexists; (split; [apply in_seq; split; [|exact H]; lia|]);
      unfold scan_draws, noise_draws, split2; cbn; auto 20.
Qed.

Lemma path_inj : forall p q, path p = path q -> p = q.
Proof. intros p q H. destruct p, q; cbn in H; congruence. Qed.

(** No path is a proper prefix of another. *)
Lemma path_prefix : forall p q l, path q = path p ++ l -> l = [].
Proof.
  intros p q l H. destruct p, q; cbn in H; try discriminate H; try congruence;
    try (injection H; intros; subst; try discriminate; auto; fail);
    (destruct l; [reflexivity | discriminate]).
Qed.

(** Trees below a fixed root. *)
Fixpoint kdepth (k : key) : nat := match k with Seed _ => 0 | Child k _ => S (kdepth k) end.

Lemma depth_down : forall l k, kdepth (down k l) = kdepth k + List.length l.
Proof. induction l; intros k; cbn; [lia|]. rewrite IHl. cbn. lia. Qed.

Lemma down_snoc : forall l k i, down k (l ++ [i]) = Child (down k l) i.
Proof. intros. rewrite down_app. reflexivity. Qed.

Lemma down_inj : forall l1 l2 k, down k l1 = down k l2 -> l1 = l2.
Proof.
  induction l1 as [|i l1 IH] using rev_ind; intros l2 k H.
  - apply (f_equal kdepth) in H. rewrite !depth_down in H. cbn in H.
    destruct l2; cbn in H; [reflexivity | lia].
  - destruct l2 as [|j l2 _] using rev_ind.
    + apply (f_equal kdepth) in H. rewrite !depth_down, app_length in H. cbn in H. lia.
    + rewrite !down_snoc in H. injection H as H ->. f_equal. eapply IH; eassumption.
Qed.

Lemma chain_down : forall m k, chain k m = down k (repeat 0 m).
Proof.
  induction m as [|m IH]; intros k; cbn [chain]; [reflexivity|]. rewrite IH.
  replace (repeat 0 (S m)) with (repeat 0 m ++ [0]); [rewrite down_snoc; reflexivity|].
  clear. induction m; cbn; [reflexivity|]. f_equal. assumption.
Qed.

Lemma device_down : forall seed m d l,
  down (device_key seed m d) l = down (Seed seed) (repeat 0 m ++ 1 :: d :: l).
Proof.
  intros. unfold device_key. rewrite chain_down, down_app. reflexivity.
Qed.

Lemma zeros_one : forall m1 m2 l1 l2, repeat 0 m1 ++ 1 :: l1 = repeat 0 m2 ++ 1 :: l2 -> m1 = m2 /\ l1 = l2.
Proof.
  induction m1; intros [|m2] l1 l2 H; cbn in H; try discriminate; injection H as H; auto.
  destruct (IHm1 _ _ _ H). auto.
Qed.

Lemma key_unique : forall seed b b' m m' d d' p p' k,
  In (p, k) (draws (device_key seed m d) b) -> In (p', k) (draws (device_key seed m' d') b') ->
  m = m' /\ d = d' /\ p = p'.
Proof.
  intros seed b b' m m' d d' p p' k H H'. apply draws_in in H as [-> _]. apply draws_in in H' as [H' _].
  rewrite !device_down in H'. apply down_inj in H'. apply zeros_one in H' as [-> H'].
  injection H' as -> H'. apply path_inj in H'. auto.
Qed.

Lemma above_down : forall a k, above a k -> exists l, l <> [] /\ k = down a l.
Proof.
  intros a k H. induction H as [i|k i H (l & N & ->)].
  - exists [i]. split; [discriminate | reflexivity].
  - exists (l ++ [i]). split; [destruct l; discriminate|]. rewrite down_snoc. reflexivity.
Qed.

Lemma zeros_one_app : forall m1 m2 l1 l2 l3,
  (repeat 0 m1 ++ 1 :: l1) ++ l3 = repeat 0 m2 ++ 1 :: l2 -> m1 = m2 /\ l1 ++ l3 = l2.
Proof.
  intros. rewrite <- app_assoc in H. cbn in H. apply zeros_one in H. assumption.
Qed.

Lemma key_not_split : forall seed b b' m m' d d' p p' k k',
  In (p, k) (draws (device_key seed m d) b) -> In (p', k') (draws (device_key seed m' d') b') -> ~ above k k'.
Proof.
  intros seed b b' m m' d d' p p' k k' H H' A. apply draws_in in H as [-> _]. apply draws_in in H' as [-> _].
  apply above_down in A as (l & N & E). rewrite <- down_app in E. rewrite !device_down in E.
  apply down_inj in E. symmetry in E.
  change (1 :: d :: path p ++ l) with ((1 :: d :: path p) ++ l) in E. rewrite app_assoc in E.
  apply zeros_one_app in E as [_ E]. cbn in E. injection E as -> E. symmetry in E.
  apply path_prefix in E. contradiction.
Qed.

(** Keys the sampler keeps ([_rng]) or splits ([subkey], device keys) are never
    drawn from. *)
Lemma key_not_chain : forall seed b m m' d p k, In (p, k) (draws (device_key seed m d) b) ->
  k <> chain (Seed seed) m' /\ k <> Child (chain (Seed seed) m') 1 /\ forall d', k <> device_key seed m' d'.
Proof.
  intros seed b m m' d p k H. apply draws_in in H as [-> _].
  assert (P : path p <> []) by (destruct p; discriminate).
  rewrite device_down. split; [|split].
  - rewrite chain_down. intros E. apply down_inj in E.
    assert (I1 : In 1 (repeat 0 m')) by (rewrite <- E; apply in_or_app; right; left; reflexivity).
    apply repeat_spec in I1. discriminate.
  - rewrite chain_down, <- down_snoc. intros E. apply down_inj, zeros_one in E. destruct E; discriminate.
  - intros d' E. change (device_key seed m' d') with (down (device_key seed m' d') []) in E.
    rewrite device_down in E. apply down_inj, zeros_one in E. destruct E as [_ E]. injection E as _ E. contradiction.
Qed.

(** Each purpose is drawn once. *)
Lemma scan_uses : forall k i, map fst (scan_draws k i) =
  [UDiameterIdx i; UIntensityIdx i; URhoIdx i; UHide1 i; UHide2 i; UPositions i; UDx i; UDy i; URho i; UIn i;
   UNoiseDx i; UNoiseDy i; UNoiseRho i; UNoiseIn i; UNoise1Uniform i; UNoise1Gauss i; UNoise2Uniform i; UNoise2Gauss i].
Proof. reflexivity. Qed.

Lemma uses_nodup : forall k b, NoDup (map fst (draws k b)).
Proof.
  intros k b. unfold draws, split2. cbn [map fst].
  assert (G : forall n a, NoDup (map fst (flat_map (scan_draws (Child k 0)) (seq a n))) /\
    forall p, In p (map fst (flat_map (scan_draws (Child k 0)) (seq a n))) -> exists i, img_of p = Some i /\ a <= i).
  { induction n as [|n IH]; intros a; [split; [constructor | intros p []]|].
    cbn [seq flat_map]. rewrite map_app, scan_uses. destruct (IH (S a)) as [N1 N2]. split.
    - assert (D : forall p, img_of p = Some a -> ~ In p (map fst (flat_map (scan_draws (Child k 0)) (seq (S a) n)))).
      { intros p E H. destruct (N2 p H) as (i & E' & Hi). rewrite E in E'. injection E' as ->. lia. }
      cbn [app]. repeat (constructor; [cbn [In]; intros Hx;
        repeat (destruct Hx as [Hx|Hx]; [discriminate Hx|]); revert Hx; apply D; reflexivity|]).
      assumption.
    - intros p H. apply in_app_or in H as [H|H].
      + exists a. split; [|lia]. repeat (destruct H as [<-|H]; [reflexivity|]). contradiction.
      + destruct (N2 p H) as (i & E & Hi). exists i. split; [assumption | lia]. }
  destruct (G b 0) as [N1 N2]. constructor; [|assumption].
  intros H. destruct (N2 _ H) as (i & E & _). discriminate.
Qed.

(** The keys [make] gives to the episodic wrapper and the sampler. *)
Lemma window_down : forall j k, window_key k j = down k (repeat 0 j ++ [1]).
Proof. induction j; intros k; cbn; auto. Qed.

Lemma epi_overlap : forall seed j b m d p, 
  In (p, window_key (snd (make_keys seed)) j) (draws (device_key seed m d) b) <->
  m = 1 /\ d = 0 /\ (j = 1 /\ p = UDensity \/ j = 3 /\ p = UHide2 0 /\ 0 < b).
Proof.
  intros seed j b m d p. rewrite draws_in, device_down, window_down.
  change (snd (make_keys seed)) with (down (Seed seed) [0; 1]). rewrite <- down_app. split.
  - intros [E B]. apply down_inj in E. cbn in E.
    change (0 :: 1 :: repeat 0 j ++ [1]) with (repeat 0 1 ++ 1 :: (repeat 0 j ++ [1])) in E.
    apply zeros_one in E as [<- E]. split; [reflexivity|].
    assert (J : j <= 4).
    { apply (f_equal (@List.length nat)) in E. rewrite app_length, repeat_length in E. cbn in E.
      destruct p; cbn in E; lia. }
    destruct j as [|[|[|[|[|j]]]]]; [..|lia]; destruct p; cbn in E, B; try discriminate;
      injection E; intros; subst; try discriminate; auto 10.
  - intros (-> & -> & [[-> ->]|(-> & -> & B)]); cbn; auto.
Qed.
