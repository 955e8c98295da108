(** Rejected configurations, the seed, and configurations that never work. *)
From Coq Require Import List Arith ZArith QArith String Bool Lia Permutation.
From Verif Require Import Prelude Model.PyVal Model.Types Spec.TypesSpec Model.Base Model.Files Spec.FilesSpec
  Model.Loaders Model.Episodic Model.Prefetch Model.Sampler Model.Stack Model.Geometry Model.Make Model.Keys
  Spec.MakeSpec Spec.SamplerSpec Proofs.MakeProofs Proofs.StackProofs Proofs.PrefetchProofs.
Import ListNotations.
Local Open Scope string_scope.
Local Open Scope nat_scope.

(** What [make] raises before it comes to the sampler. *)
Definition refusal (e : exn) : Prop := e = ValueError \/ e = TypeError \/ e = OtherExn 1.

Lemma bind_err : forall {A B} (r : result A) (f : A -> result B) e, bind r f = Err e ->
  r = Err e \/ exists a, r = Ok a /\ f a = Err e.
Proof. intros A B [a|e0] f e H; cbn [bind] in H; [right; eauto | left; congruence]. Qed.

Lemma ep_construct_err : forall D c g s B L k e, ep_construct D c g s B L k = Err e -> e = ValueError.
Proof.
  intros D c g s B L k e H. unfold ep_construct in H. destruct (B =? 0); [congruence|]. destruct (L =? 0); [congruence|].
  apply bind_err in H. destruct H as [H|(st & H1 & H)].
  - unfold calculate_starts in H. destruct (forallb _ _); congruence.
  - apply bind_err in H. destruct H as [H|(x & _ & H)]; [|discriminate]. unfold sample in H. cbn [ec_starts] in H.
    destruct st; [congruence | discriminate].
Qed.

Lemma build_err : forall w d e, build w d = Err e -> refusal e.
Proof.
  intros w d e H. unfold build in H. unfold refusal.
  destruct (negb _); [left; congruence|]. apply bind_err in H. destruct H as [H|(cls & _ & H)].
  { apply get_base_scheduler_err in H. tauto. }
  destruct (negb _); [left; congruence|]. apply bind_err in H. destruct H as [H|(B & _ & H)].
  { apply pos_int_err in H. tauto. }
  destruct (dict_get d "include_images" (PBool false)) as [ | inc | | | | | | ]; try (right; left; congruence).
  apply bind_err in H. destruct H as [H|(N & _ & H)]; [apply nonneg_int_err in H; tauto|].
  apply bind_err in H. destruct H as [H|(L & _ & H)]; [apply nonneg_int_err in H; tauto|].
  destruct (negb _); [left; congruence|]. apply bind_err in H. destruct H as [H|(k & _ & H)].
  { unfold prng_key in H. destruct (int_of _); [destruct (_ && _)%bool; [discriminate|] |]; inversion H; tauto. }
  cbn [split2] in H. apply bind_err in H. destruct H as [H|(sh & Hs & H)].
  { unfold shape_arg in H. destruct inc; [|discriminate]. destruct cls; [left; congruence | | left; congruence].
    apply bind_err in H. destruct H as [H|(l & _ & H)].
    - unfold py_iter in H. destruct (dict_get _ _ _); try discriminate; right; left; congruence.
    - destruct l as [|a [|b [|]]]; try (left; congruence). apply bind_err in H. destruct H as [H|(x & _ & H)]; [apply pos_int_err in H; tauto|].
      apply bind_err in H. destruct H as [H|(y & _ & H)]; [apply pos_int_err in H; tauto | discriminate]. }
  assert (IM : inc = true -> cls = Mat).
  { intros ->. unfold shape_arg in Hs. destruct cls; [discriminate | reflexivity | discriminate]. }
  apply bind_err in H. destruct H as [H|(file & _ & H)].
  { left. exact (file_scheduler_err w d (mkFattrs cls inc sh) e IM H). }
  apply bind_err in H. destruct H as [H|(x & _ & H)]; [|discriminate].
  unfold wrap_episodes in H. destruct (0 <? L); [|discriminate]. destruct file; try discriminate.
  cbn [split2] in H. apply bind_err in H. destruct H as [H|(r & _ & H)]; [|discriminate].
  left. exact (ep_construct_err _ _ _ _ _ _ _ _ H).
Qed.

Lemma setting_unique : forall d k def v v', setting d k def v -> setting d k def v' -> v = v'.
Proof. intros d k def v v' H H'. apply setting_get in H, H'. congruence. Qed.

Lemma rejected : forall w d, invalid d -> exists e, make w (PDict d) = Err e /\ refusal e.
Proof.
  intros w d HI. unfold make. cbn [load_config bind]. rewrite make_dict_build.
  destruct (build w d) as [r|e] eqn:HB; [|exists e; split; [reflexivity | exact (build_err _ _ _ HB)]].
  destruct r as [[[[[cls B] inc] N] L] sch]. pose proof HB as HB'. apply build_ok in HB. destruct HB as (seed & a & c & s & SS & _).
  destruct HI as [H|v H H'|H|v H H'|H|H|H|H H'|H H'].
  - rewrite (ss_class _ _ _ _ _ _ _ SS) in H. discriminate.
  - rewrite (ss_class _ _ _ _ _ _ _ SS) in H. inversion H. subst v. exfalso. exact (H' cls eq_refl).
  - exfalso. exact (H B (ss_batch _ _ _ _ _ _ _ SS)).
  - destruct (ss_images _ _ _ _ _ _ _ SS) as [E|[E _]]; rewrite E in H; [inversion H; subst v; exfalso; exact (H' inc eq_refl) | discriminate].
  - exfalso. exact (H N (ss_buffer _ _ _ _ _ _ _ SS)).
  - exfalso. exact (H L (ss_episode _ _ _ _ _ _ _ SS)).
  - exfalso. exact (ss_flows _ _ _ _ _ _ _ SS H).
  - pose proof (ss_images _ _ _ _ _ _ _ SS) as E. assert (inc = true) as ->.
    { destruct E as [E|[E _]]; rewrite E in H; [congruence | discriminate]. }
    rewrite (ss_class _ _ _ _ _ _ _ SS), (ss_supported _ _ _ _ _ _ _ SS eq_refl) in H'. exfalso. exact (H' eq_refl).
  - assert (E : PBool inc = PBool false) by exact (setting_unique _ _ _ _ _ (ss_images _ _ _ _ _ _ _ SS) H).
    inversion E. subst inc. cbn [bind finish]. apply setting_get in H'. rewrite H'. exists ValueError. split; [reflexivity | left; reflexivity].
Qed.

(** * The seed *)

Lemma file_stage_unique : forall w d a c s a' c' s', (fa_images a = true -> fa_class a = Mat) ->
  fa_class a = fa_class a' -> fa_images a = fa_images a' ->
  file_stage w d a c s -> file_stage w d a' c' s' -> a = a' /\ c = c' /\ s = s'.
Proof.
  intros w d a c s a' c' s' IM EC EI H H'.
  assert (ES : fa_shape a = fa_shape a').
  { pose proof (fst_shape _ _ _ _ _ H) as P. pose proof (fst_shape _ _ _ _ _ H') as P'. rewrite <- EI in P'.
    assert (Q : shape_arg d (fa_class a) (fa_images a) = Ok (fa_shape a)).
    { apply shape_arg_ok. split; assumption. }
    assert (Q' : shape_arg d (fa_class a) (fa_images a) = Ok (fa_shape a')).
    { apply shape_arg_ok. split; assumption. }
    congruence. }
  assert (EA : a = a') by (destruct a, a'; cbn in *; congruence). subst a'.
  assert (F : file_scheduler w a (kwargs_of d (fa_images a))  = Ok (SFile a c s)).
  { apply file_scheduler_ok; [exact IM | exact (fst_shape _ _ _ _ _ H) | exists c, s; split; [reflexivity | exact H]]. }
  assert (F' : file_scheduler w a (kwargs_of d (fa_images a))  = Ok (SFile a c' s')).
  { apply file_scheduler_ok; [exact IM | exact (fst_shape _ _ _ _ _ H) | exists c', s'; split; [reflexivity | exact H']]. }
  rewrite F in F'. inversion F'. auto.
Qed.

Lemma setting_transfer : forall d1 d2 k def v, same_but_seed d1 d2 -> k <> "seed" -> setting d1 k def v -> setting d2 k def v.
Proof. intros d1 d2 k def v E N H. unfold setting in *. rewrite <- (E k N). exact H. Qed.

Lemma file_stage_transfer : forall w d1 d2 a c s, same_but_seed d1 d2 -> file_stage w d1 a c s -> file_stage w d2 a c s.
Proof.
  intros w d1 d2 a c s E [P1 P2 (fl & segs & (F1 & F2 & F3) & R)]. split; [| exact P2 |].
  - unfold image_setting in *. destruct (fa_images a); [|exact P1]. destruct P1 as (v & x & y & H & R1). exists v, x, y. split; [|exact R1].
    eapply setting_transfer; [eassumption | discriminate | exact H].
  - exists fl, segs. split; [|exact R]. split; [|split]; (eapply setting_transfer; [eassumption | discriminate | assumption]).
Qed.

Lemma setting_size_unique : forall d k n m, size_setting d k n -> size_setting d k m -> n = m.
Proof.
  intros d k n m (v & H & I) (v' & H' & I'). assert (v = v') by exact (setting_unique _ _ _ _ _ H H'). subst v'.
  pose proof (integer_fun _ _ _ I I'). lia.
Qed.
Lemma positive_unique : forall d k n m, positive_setting d k n -> positive_setting d k m -> n = m.
Proof.
  intros d k n m (v & H & I & _) (v' & H' & I' & _). assert (v = v') by congruence. subst v'.
  pose proof (integer_fun _ _ _ I I'). lia.
Qed.

Lemma stack_settings_transfer : forall d1 d2 cls1 cls2 B1 B2 N1 N2 L1 L2 i1 i2 s1 s2, same_but_seed d1 d2 ->
  stack_settings d1 cls1 B1 N1 L1 i1 s1 -> stack_settings d2 cls2 B2 N2 L2 i2 s2 ->
  cls1 = cls2 /\ B1 = B2 /\ N1 = N2 /\ L1 = L2 /\ i1 = i2.
Proof.
  intros d1 d2 cls1 cls2 B1 B2 N1 N2 L1 L2 i1 i2 s1 s2 E [A1 A2 A3 A4 A5 A6 A7 A8] [C1 C2 C3 C4 C5 C6 C7 C8].
  assert (T : forall k n, k <> "seed" -> size_setting d1 k n -> size_setting d2 k n).
  { intros k n Nk (v & H & I). exists v. split; [eapply setting_transfer; eauto | exact I]. }
  assert (TP : positive_setting d2 "batch_size" B1).
  { destruct A2 as (v & H & I). exists v. rewrite <- (E "batch_size") by discriminate. auto. }
  split; [|split; [|split; [|split]]].
  - rewrite (E "scheduler_class") in A1 by discriminate. rewrite A1 in C1. inversion C1. apply extension_inj. assumption.
  - exact (positive_unique _ _ _ _ TP C2).
  - apply (setting_size_unique d2 "buffer_size"); [apply T; [discriminate|] |]; assumption.
  - apply (setting_size_unique d2 "episode_length"); [apply T; [discriminate|] |]; assumption.
  - assert (H : PBool i1 = PBool i2); [|inversion H; auto].
    apply (setting_unique d2 "include_images" (PBool false)); [eapply setting_transfer; [exact E | discriminate | exact A5] | exact C5].
Qed.

(** * Wrong sizes *)

Section WrongSize.
Variables (si : sif) (len : option nat) (B N : nat).
Hypothesis Npos : 1 <= N.
Hypothesis Lpos : forall L, len = Some L -> 0 < L.

Definition at_start (u : tst si len B) : Prop := calm si len B N u /\ p_t (t_st u) = 0.

Lemma at_start_steps : forall u, at_start u -> si_steps (prefetch_sif si len B N) u <> 0%Z.
Proof.
  intros u [_ H]. cbn [prefetch_sif si_steps]. unfold psteps_remaining. rewrite H. cbn [sched_of sc_len]. clear - Lpos.
  destruct len as [L|]; [specialize (Lpos L eq_refl)|]; lia.
Qed.

Lemma at_start_get : forall n u, n <> B -> at_start u ->
  exists u', si_get (prefetch_sif si len B N) n u = (Err ValueError, u') /\ at_start u'.
Proof.
  intros n u Hn [C T]. cbn [prefetch_sif si_get]. pose proof C as [_ Cp]. pose proof (pf_wrong_size si len B N n u Hn Cp) as E.
  rewrite E. eexists. split; [reflexivity|]. split.
  - exact (calm_get si len B N Npos n u _ _ C E).
  - cbn [t_st]. destruct (wait_exec si len B N (fst (t_time u 0)) (t_st u)) as (ls & es & _ & _ & _ & _ & H & _). rewrite H. exact T.
Qed.

Lemma at_start_next : forall u r u', at_start u -> si_next (prefetch_sif si len B N) u = (r, u') -> at_start u'.
Proof.
  intros u r u' [C T] E. cbn [prefetch_sif si_next] in E. split; [exact (proj2 (calm_next si len B N Npos u r u' C E))|].
  destruct C as [Cb Cp]. destruct (pf_next_exec si len B N Npos u r u' Cb Cp E) as (_ & ls & es & _ & _ & H1 & H2 & _).
  assert (D : len <> None \/ len = None) by (clear; destruct len; [left; discriminate | right; reflexivity]).
  destruct D as [D|D]; [exact (H1 D) | rewrite (H2 D); exact T].
Qed.

Lemma at_start_reset : forall u, at_start u -> at_start (si_reset (prefetch_sif si len B N) u).
Proof.
  intros u [C _]. cbn [prefetch_sif si_reset]. split; [exact (calm_reset si len B N Npos u C)|].
  destruct C as [Cb Cp]. destruct (pf_reset_exec si len B N Npos u Cb Cp) as (ls & es & v & _ & H & _). rewrite H. reflexivity.
Qed.
End WrongSize.

(** The prefetcher asked for its own batch size never complains about it. *)
Lemma pf_right_size : forall si len B N u, fst (pf_get si len B N B u) <> Err ValueError.
Proof.
  intros si len B N u. unfold pf_get. destruct (pstep _ _ _ _ (LCallGet B)) as [[e s1]|] eqn:E; [|cbn; congruence].
  apply call_get_cases in E. destruct E as (_ & [(H & _)|[(_ & _ & -> & _)|(_ & _ & -> & _)]]); [congruence | cbn; congruence |].
  destruct (pstep _ _ _ _ LTake) as [[[|[] ?] s3]|]; cbn; congruence.
Qed.

(** A ValueError out of the stack asked for its own batch size is one of the
    file scheduler's. *)
Lemma right_size : forall fuel sch B, (match sch with SFile _ _ _ => True | SEpisodic _ ec _ => ec_B ec = B | SPrefetch B' _ _ => B' = B end) ->
  forall u, fst (si_get (sif_of fuel sch) B u) = Err ValueError ->
  exists s, fst (get_batch (file_config sch) fuel B s) = CRaise ValueError.
Proof.
  intros fuel sch B HB u H. destruct sch as [a c s|a ec s|B' N inner]; cbn [sif_of file_config] in *.
  - cbn [base_sif si_get] in H. exists u. destruct (get_batch c fuel B u) as [[d|e|] s']; cbn in *; congruence.
  - cbn [episodic_sif si_get] in H. unfold ep_get in H. rewrite HB, Nat.eqb_refl in H.
    destruct (ec_L ec <=? e_t u); [cbn in H; congruence|]. exists (e_base u).
    destruct (get_batch (ec_base ec) fuel B (e_base u)) as [[d|e|] s']; cbn in *; congruence.
  - subst B'. cbn [prefetch_sif si_get] in H. exfalso. exact (pf_right_size (sif_of fuel inner) (episode_len inner) B N u H).
Qed.

Lemma construct_fields : forall D c g s B L k ec es, ep_construct D c g s B L k = Ok (ec, es) ->
  ec_base ec = c /\ ec_B ec = B /\ ec_L ec = L /\ 0 < L /\ e_t es = 0.
Proof.
  intros D c g s B L k ec es H. unfold ep_construct in H. destruct (B =? 0); [discriminate|].
  destruct (Nat.eqb_spec L 0); [discriminate|]. apply bind_ok in H. destruct H as (st & _ & H). apply bind_ok in H. destruct H as (s' & H' & H).
  inversion H; subst. cbn [ec_base ec_B ec_L]. repeat (split; [reflexivity || lia|]).
  unfold sample in H'. cbn [ec_starts] in H'. destruct st; inversion H'. reflexivity.
Qed.

Lemma next_episode_t : forall ec s, e_t s = 0 -> e_t (next_episode ec s) = 0.
Proof. intros ec s H. unfold next_episode. destruct (sample ec s); [reflexivity | exact H]. Qed.

Lemma wrong_size : forall w B N L k a c s sch, wrapped w B N L k a c s sch -> 0 < B -> (forall a c s, sch <> SFile a c s) ->
  forall fuel tm oflow bflow img (cf : scfg (sif_of fuel sch) oflow bflow img), sc_F cf <> B ->
  forall ops j, nth_error ops j = Some SNext ->
  nth_error (fst (srun cf ops (syn_init cf (start_of fuel tm sch)))) j = Some (SRaise ValueError).
Proof.
  intros w B N L k a c s sch (core & HC & HN) PB NF fuel tm oflow bflow img cf HF.
  assert (EP : forall a' ec es, core = SEpisodic a' ec es -> ec_B ec = B /\ 0 < ec_L ec /\ e_t es = 0).
  { intros a' ec es E. destruct HC as [[_ ->]|(_ & ec' & es' & H & ->)]; inversion E. subst.
    apply construct_fields in H. destruct H as (_ & H2 & H3 & H4 & H5). split; [auto|]. split; [rewrite H3; exact H4 | exact H5]. }
  destruct HN as [[_ ->]|[PN ->]].
  - destruct core as [a' c' s'|a' ec es|]; [exfalso; exact (NF _ _ _ eq_refl) | | destruct HC as [[_ H]|(_ & ? & ? & _ & H)]; discriminate].
    destruct (EP _ _ _ eq_refl) as (E1 & E2 & E3). intros ops.
    apply (never_a_batch _ _ _ _ cf (fun u : si_state (episodic_sif ec fuel) => e_t u = 0)).
    + intros u Hu. cbn [sif_of episodic_sif si_steps]. unfold steps_remaining. rewrite Hu. lia.
    + intros u Hu. cbn [sif_of episodic_sif si_get]. unfold ep_get.
      assert (H : (sc_F cf =? ec_B ec) = false) by (apply Nat.eqb_neq; congruence).
      cbn [sif_of] in cf, H |- *. rewrite H. cbn [get_result]. eauto.
    + intros u r u' Hu H. cbn [sif_of episodic_sif si_next] in H. inversion H. apply next_episode_t. exact Hu.
    + intros u Hu. apply next_episode_t. exact Hu.
    + exact E3.
    + reflexivity.
  - set (len := episode_len core) in *.
    assert (LP : forall M, len = Some M -> 0 < M).
    { intros M E. destruct core as [| a' ec es |]; try discriminate. cbn in E. inversion E. subst. apply (EP _ _ _ eq_refl). }
    intros ops.
    apply (never_a_batch _ _ _ _ cf (at_start (sif_of fuel core) len B N)).
    + intros u Hu. exact (at_start_steps _ _ _ _ LP u Hu).
    + intros u Hu. exact (at_start_get _ _ _ _ PN _ u HF Hu).
    + intros u r u' Hu H. exact (at_start_next _ _ _ _ PN u r u' Hu H).
    + intros u Hu. exact (at_start_reset _ _ _ _ PN u Hu).
    + split; [apply calm_init | reflexivity]. 
    + reflexivity.
Qed.

(** The sizes of the sampler that [make] builds are what the batch loop needs. *)
Lemma settings_sizes : forall w d sch (p : synthetic w), 0 < w_devices w -> synthetic_settings w d sch p ->
  forall fuel oflow bflow img adapt bounds render, sizes_ok (@scfg_of w fuel p sch oflow bflow img adapt bounds render).
Proof.
  intros w d sch p WD S fuel oflow bflow img adapt bounds render. unfold sizes_ok, scfg_of.
  cbn [sc_nd sc_bpf sc_F sc_B].
  destruct (sn_batch _ _ _ _ S) as (B & PB & H1 & [H2 H3] & [q H4]).
  destruct (sn_flows _ _ _ _ S) as (v & _ & _ & PF).
  assert (ND : 1 <= List.length (sy_devices p)).
  { destruct (sn_devices _ _ _ _ S) as [[_ ->]|(x & l & _ & _ & _ & H)]; [rewrite seq_length; lia | destruct (sy_devices p); [congruence | cbn; lia]]. }
  destruct (sn_repeat _ _ _ _ S) as (b & (v' & _ & _ & Pb) & Hb).
  repeat split; try lia.
  - destruct sch; lia.
  - rewrite H4. apply Nat.mod_mul. lia.
Qed.

(** Synthetic images need the entry "seed". *)
Lemma synthetic_needs_seed : forall w d sch p, synthetic_from_config w d sch = Ok p -> given "seed" d <> None.
Proof.
  intros w d sch p H G. unfold synthetic_from_config in H.
  apply bind_ok in H. destruct H as (mask & _ & H). apply bind_ok in H. destruct H as (hist & _ & H). apply bind_ok in H. destruct H as (gs & _ & H).
  unfold synthetic_constructor in H. cbv zeta in H.
  apply bind_ok in H. destruct H as (x1 & _ & H). apply bind_ok in H. destruct H as (x2 & _ & H).
  apply bind_ok in H. destruct H as (x3 & _ & H). apply bind_ok in H. destruct H as (x4 & _ & H).
  apply bind_ok in H. destruct H as (x5 & _ & H). apply bind_ok in H. destruct H as (x6 & H & _).
  apply dict_item_ok in H. congruence.
Qed.
