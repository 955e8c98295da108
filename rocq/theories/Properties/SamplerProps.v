(** Properties C31-C38, C75, C76: the samplers' batch loop and random keys. *)
From Coq Require Import List Arith ZArith Lia String Bool.
From Verif Require Import Prelude Model.Sampler Model.Keys Spec.SamplerSpec Spec.KeySpec.
From Verif Require Import Proofs.SamplerProofs Proofs.SamplerRuns Proofs.SamplerMore Proofs.KeyProofs.
Import ListNotations.
Local Open Scope nat_scope.

(** * Schedulers for the concrete cases *)

(** Delivers the numbers u*n, ..., u*n+n-1 on call number u, [J] times. *)
Definition toy (J : nat) : sif :=
  mkSif nat nat nat
    (fun n u => if u <? J
                then (Ok (mkFdata (map (fun i => u * n + i) (seq 0 n)) (Some (repeat u n)) (Some (repeat u n))
                            (Some (repeat true n)) None), u + 1)
                else (Err StopIteration, u + 1))
    false false (fun _ => 0%Z) (fun u => (Err AttributeError, u)) (fun _ => 0).

(** Episodes of [L] steps: step [t] of episode [e] carries 100*e+t; [cls] tells
    whether the sampler sees the episodic class itself. *)
Definition toy_data (n e t : nat) : fdata nat nat :=
  mkFdata (repeat (100 * e + t) n) None None (Some (repeat true n)) None.
Definition toy_ep (cls : bool) (L : nat) : sif :=
  mkSif (nat * nat) nat nat
    (fun n u => if snd u <? L then (Ok (toy_data n (fst u) (snd u)), (fst u, S (snd u)))
                else (Err EpisodeEnd, u))
    true cls (fun u => (Z.of_nat L - Z.of_nat (snd u))%Z)
    (fun u => (Ok tt, (S (fst u), 0))) (fun u => (S (fst u), 0)).

Definition toy_cfg (si : sif) (H : si_flow si = nat) (nd B F bpf : nat) : scfg si nat nat (key * nat * nat) :=
  mkScfg si nat nat (key * nat * nat) nd B F bpf 7%Z
    (fun f => match H in _ = t return t with eq_refl => f end)
    (fun f => match H in _ = t return t with eq_refl => f end)
    (fun k j f => (k, j, f)).

Lemma toy_ep_episodic : forall cls L n,
  episodic (toy_ep cls L) n L (toy_data n) (fun u e t => u = (e, t) /\ t <= L).
Proof.
  intros cls L n. constructor; cbn [toy_ep si_state si_get si_protocol si_steps si_next].
  - reflexivity.
  - intros u e t [-> H]. cbn. auto.
  - intros u e t [-> _] H. cbn [fst snd]. rewrite (proj2 (Nat.ltb_lt t L) H). eexists. split; [reflexivity|]. auto.
  - intros u e t [-> _]. cbn. eexists. split; [reflexivity|]. split; [reflexivity | lia].
Qed.

(** ** C31 *)

(** At zero remaining steps [next] raises EpisodeEnd and nothing changes. *)
Theorem C31_episode_end : forall si oflow bflow img (c : scfg si oflow bflow img) s,
  si_protocol si = true -> si_steps si (y_sched s) = 0%Z -> syn_next c s = (Err EpisodeEnd, s).
Proof. intros. apply next_ended; assumption. Qed.
Print Assumptions C31_episode_end.

(** Any interleaving of [next] and [next_episode], over any episodic
    scheduler: one batch per step, done exactly on the last, then EpisodeEnd. *)
Theorem C31_any_calls : forall si oflow bflow img (c : scfg si oflow bflow img) L D at_,
  sizes_ok c -> sc_bpf c = 1 -> episodic si (sc_F c) L D at_ -> (forall e t, t < L -> shardable c (D e t)) ->
  forall ops u e, Forall (fun o => o = SNext \/ o = SNextEpisode) ops -> at_ u e 0 ->
  plays c L D e 0 0 ops (fst (srun c ops (syn_init c u))).
Proof.
  intros si oflow bflow img c L D at_ OK B1 EP SH ops u e FA A.
  apply (plays_ok c OK L D at_ EP SH B1); auto.
Qed.
Print Assumptions C31_any_calls.

(** The same after a reset that puts the scheduler at the start of an episode. *)
Theorem C31_after_reset : forall si oflow bflow img (c : scfg si oflow bflow img) L D at_,
  sizes_ok c -> sc_bpf c = 1 -> episodic si (sc_F c) L D at_ -> (forall e t, t < L -> shardable c (D e t)) ->
  forall ops s e, Forall (fun o => o = SNext \/ o = SNextEpisode) ops -> at_ (si_reset si (y_sched s)) e 0 ->
  plays c L D e 0 0 ops (fst (srun c ops (syn_reset c true s))).
Proof.
  intros si oflow bflow img c L D at_ OK B1 EP SH ops s e FA A.
  apply (plays_ok c OK L D at_ EP SH B1); auto.
Qed.
Print Assumptions C31_after_reset.

Theorem C31_real : forall (si : sif) B L D at_, episodic si B L D at_ ->
  forall u e t, at_ u e t ->
  (t < L -> forall a b, fd_images1 (D e t) = Some a -> fd_images2 (D e t) = Some b ->
     exists u', real_next si B u =
       (Ok (mkBatch (combine a b) (fd_flows (D e t)) (Some (repeat (S t =? L) B)) (fd_mask (D e t)) (fd_files (D e t))), u') /\
       at_ u' e (S t)) /\
  (t = L -> real_next si B u = (Err EpisodeEnd, u)).
Proof. exact real_episode. Qed.
Print Assumptions C31_real.

(** An episode of 3 steps, one cut short. *)
Example C31_case : let c := toy_cfg (toy_ep true 3) eq_refl 1 2 2 1 in
  sizes_ok c /\ shardable c (toy_data 2 5 1) /\
  map (fun o => match o with SBatch b => inl (ba_flows b, ba_done b) | SUnit => inr true | SRaise _ => inr false end)
    (fst (srun c [SNext; SNext; SNextEpisode; SNext; SNext; SNext; SNext] (syn_init c (5, 0)))) =
  [inl ([500; 500], Some [false; false]); inl ([501; 501], Some [false; false]); inr true;
   inl ([600; 600], Some [false; false]); inl ([601; 601], Some [false; false]); inl ([602; 602], Some [true; true]);
   inr false].
Proof. cbv zeta. split; [|split]; [repeat split; cbn; lia | split; reflexivity | reflexivity]. Qed.

(** ** C32 *)
Theorem C32_reuse : forall si oflow bflow img (c : scfg si oflow bflow img) u D S_,
  sizes_ok c -> delivers si (sc_F c) u D S_ -> (forall j, shardable c (D j)) ->
  (forall j, si_protocol si = true -> si_steps si (S_ j) <> 0%Z) ->
  forall s m, fresh c s -> y_sched s = u ->
  (exists b, nth_error (fst (srun c (repeat SNext (S m)) s)) m = Some (SBatch b) /\
             made_from c m (D (m / sc_bpf c)) b) /\
  y_sched (snd (srun c (repeat SNext m) s)) = S_ ((m + sc_bpf c - 1) / sc_bpf c).
Proof.
  intros si oflow bflow img c u D S_ OK [D0 DS] SH GO s m Fr Us.
  assert (Hb : 1 <= sc_bpf c) by apply OK.
  split.
  - destruct (reuse_obs c OK u D S_ (S m) D0 (fun j _ => DS j) (fun j _ => SH j) GO s Fr Us m) as (b & E & M); [nia|].
    exists b. split; [|assumption]. rewrite obs_nth by lia. rewrite E. reflexivity.
  - apply (reuse_calls c OK u D S_ m D0 (fun j _ => DS j) (fun j _ => SH j) GO s Fr Us). nia.
Qed.
Print Assumptions C32_reuse.

(** Freshly constructed and reset samplers are covered. *)
Theorem C32_starts : forall si oflow bflow img (c : scfg si oflow bflow img),
  (forall u, fresh c (syn_init c u)) /\ (forall r s, fresh c (syn_reset c r s)).
Proof. intros. split; intros; [apply init_fresh | apply reset_fresh]. Qed.
Print Assumptions C32_starts.

Example C32_case : let c := toy_cfg (toy 9) eq_refl 1 3 2 2 in
  sizes_ok c /\
  map (fun o => match o with SBatch b => ba_flows b | _ => [] end)
    (fst (srun c (repeat SNext 5) (syn_init c 0))) = [[0; 1; 0]; [0; 1; 0]; [2; 3; 2]; [2; 3; 2]; [4; 5; 4]] /\
  y_sched (snd (srun c (repeat SNext 5) (syn_init c 0))) = 3.
Proof. cbv zeta. split; [repeat split; cbn; lia | split; reflexivity]. Qed.

(** ** C33 *)
Theorem C33_synthetic : forall si oflow bflow img (c : scfg si oflow bflow img) J u D S_,
  sizes_ok c -> 1 <= J -> delivers_upto si (sc_F c) J u D S_ -> (forall j, j < J -> shardable c (D j)) ->
  (forall j, si_protocol si = true -> si_steps si (S_ j) <> 0%Z) ->
  forall s, fresh c s -> y_sched s = u ->
  (* first every flow batch, reused as usual *)
  (forall m, m < J * sc_bpf c -> exists b,
     nth_error (fst (srun c (repeat SNext (S m)) s)) m = Some (SBatch b) /\ made_from c m (D (m / sc_bpf c)) b) /\
  (* then periodically one StopIteration and reuses of the last flow batch *)
  forall n,
  let call := J * sc_bpf c + n in
  let r := nth_error (fst (srun c (repeat SNext (S call)) s)) call in
  (n mod (sc_bpf c + 1) = 0 -> r = Some (SRaise StopIteration)) /\
  (n mod (sc_bpf c + 1) <> 0 -> exists b, r = Some (SBatch b) /\
     made_from c (call - (n + sc_bpf c) / (sc_bpf c + 1)) (D (J - 1)) b).
Proof.
  intros si oflow bflow img c J u D S_ OK J1 (D0 & DS & ST) SH GO s Fr Us. split.
  - intros m Hm. destruct (reuse_obs c OK u D S_ J D0 DS SH GO s Fr Us m Hm) as (b & E & M).
    exists b. split; [|assumption]. rewrite obs_nth by lia. rewrite E. reflexivity.
  - intros n call r. subst r. rewrite obs_nth by lia.
    destruct (exhausted_obs c OK u D S_ J D0 DS SH GO s Fr Us J1 ST n) as [A B]. fold call in A, B. split.
    + intros H. rewrite (A H). reflexivity.
    + intros H. destruct (B H) as (b & E & M). exists b. rewrite E. auto.
Qed.
Print Assumptions C33_synthetic.

(** So StopIteration is not permanent: the call after it returns a batch. *)
Theorem C33_permanent_refuted : forall bpf, 1 <= bpf ->
  exists si (c : scfg si nat nat (key * nat * nat)) u n b, sc_bpf c = bpf /\ sizes_ok c /\
    nth_error (fst (srun c (repeat SNext (S (S n))) (syn_init c u))) n = Some (SRaise StopIteration) /\
    nth_error (fst (srun c (repeat SNext (S (S n))) (syn_init c u))) (S n) = Some (SBatch b).
Proof.
  intros bpf H. set (c := toy_cfg (toy 1) eq_refl 1 1 1 bpf).
  assert (OK : sizes_ok c) by (repeat split; cbn; lia).
  destruct (C33_synthetic _ _ _ _ c 1 0 (fun j => mkFdata [j] (Some [j]) (Some [j]) (Some [true]) None) (fun j => j) OK (le_n 1)) with (s := syn_init c 0) as [_ K].
  - split; [reflexivity|]. split; intros j Hj; cbn.
    + assert (j = 0) as -> by lia. reflexivity.
    + destruct j; [lia | reflexivity].
  - intros j Hj. assert (j = 0) as -> by lia. split; reflexivity.
  - discriminate.
  - apply init_fresh.
  - reflexivity.
  - assert (E : sc_bpf c = bpf) by reflexivity.
    destruct (K 0) as [K0 _]. destruct (K 1) as [_ K1]. rewrite E in *.
    destruct K1 as (b & K1 & _). { rewrite Nat.mod_small by lia. lia. }
    exists (toy 1), c, 0, bpf, b. split; [reflexivity|]. split; [exact OK|].
    replace (1 * bpf + 1) with (S bpf) in K1 by lia. split; [|exact K1].
    assert (Z : 0 mod (bpf + 1) = 0) by (apply Nat.mod_0_l; lia). specialize (K0 Z). replace (1 * bpf + 0) with bpf in K0 by lia.
    rewrite obs_nth in K0 by apply le_n. rewrite obs_nth by apply Nat.lt_lt_succ_r, Nat.lt_succ_diag_r. exact K0.
Qed.
Print Assumptions C33_permanent_refuted.

(** The real-image sampler does stay exhausted. *)
Theorem C33_real : forall (si : sif) B (S_ : nat -> si_state si) J n,
  (forall j, si_protocol si = true -> si_steps si (S_ j) <> 0%Z) ->
  (forall j, J <= j -> si_get si B (S_ j) = (Err StopIteration, S_ (j + 1))) ->
  forall r, In r (fst (real_run si B n (S_ J))) -> r = Err StopIteration.
Proof. exact real_stop. Qed.
Print Assumptions C33_real.

Example C33_case : let c := toy_cfg (toy 2) eq_refl 1 1 1 2 in
  map (fun o => match o with SBatch b => Some (ba_flows b) | _ => None end)
    (fst (srun c (repeat SNext 11) (syn_init c 0))) =
  [Some [0]; Some [0]; Some [1]; Some [1]; None; Some [1]; Some [1]; None; Some [1]; Some [1]; None] /\
  fst (real_run (toy 1) 2 3 0) =
  [Ok (mkBatch [(0, 0); (0, 0)] [0; 1] None (Some [true; true]) None); Err StopIteration; Err StopIteration].
Proof. split; reflexivity. Qed.

(** ** C34 *)

(** The constructor's sizes: the batch is rounded up to a multiple of the
    number of devices. *)
Theorem C34_constructor : forall si oflow bflow img nd BS F bpf seed adapt bounds render (c : scfg si oflow bflow img),
  make_scfg si nd BS F bpf seed adapt bounds render = Ok c ->
  sizes_ok c /\ sc_nd c = nd /\ sc_F c = F /\ BS <= sc_B c < BS + nd.
Proof.
  intros si oflow bflow img nd BS F bpf seed adapt bounds render c H. apply make_sizes in H.
  destruct H as (A & _ & _ & B & C & D). auto.
Qed.
Print Assumptions C34_constructor.

(** Whatever is called, whatever the scheduler answers (as long as its batches
    have the size asked for), every batch returned is made from one scheduler
    batch: flow [i] and images [i] are both made from its field [source i]. *)
Theorem C34_same_field : forall si oflow bflow img (c : scfg si oflow bflow img),
  sizes_ok c -> sc_F c mod sc_nd c = 0 ->
  (forall u d u', si_get si (sc_F c) u = (Ok d, u') -> List.length (fd_flows d) = sc_F c) ->
  forall ops u j b, nth_error (fst (srun c ops (syn_init c u))) j = Some (SBatch b) ->
  exists d u1 u2, si_get si (sc_F c) u1 = (Ok d, u2) /\
    List.length (ba_images b) = sc_B c /\ List.length (ba_flows b) = sc_B c /\
    forall i, i < sc_B c -> exists f k n,
      nth_error (fd_flows d) (source (sc_nd c) (sc_B c) (sc_F c) i) = Some f /\
      nth_error (ba_flows b) i = Some (sc_adapt c f) /\
      nth_error (ba_images b) i = Some (sc_render c k n (sc_bounds c f)).
Proof.
  intros si oflow bflow img c OK FM LD ops u j b H.
  assert (SH : forall u d u', si_get si (sc_F c) u = (Ok d, u') -> shardable c d) by (intros; split; eauto).
  destruct (sane_run c OK SH ops _ (sane_init c u) j b H) as (m & d & u1 & u2 & G & (M1 & M2 & M3 & _)).
  exists d, u1, u2. rewrite (LD _ _ _ G) in M3. repeat split; auto.
  intros i Hi. destruct (M3 i Hi) as (f & A & B & C). eauto 8.
Qed.
Print Assumptions C34_same_field.

Theorem C34_every_field_used : forall nd B F k, 1 <= nd -> 1 <= F -> F mod nd = 0 -> B mod nd = 0 -> F <= B ->
  k < F -> exists i, i < B /\ source nd B F i = k.
Proof. exact source_onto. Qed.
Print Assumptions C34_every_field_used.

Theorem C34_one_device : forall B F i, i < B -> source 1 B F i = i mod F.
Proof. exact source_one. Qed.
Print Assumptions C34_one_device.

(** With two devices image 2 of 8 is not made from field 2 of 4. *)
Theorem C34_modulo_refuted : exists si (c : scfg si nat nat (key * nat * nat)) u b d u',
  sizes_ok c /\ shardable c d /\ si_get si (sc_F c) u = (Ok d, u') /\
  fst (srun c [SNext] (syn_init c u)) = [SBatch b] /\
  exists i f, i < sc_B c /\ nth_error (ba_flows b) i = Some (sc_adapt c f) /\
    (forall g, nth_error (fd_flows d) (i mod sc_F c) = Some g -> sc_adapt c g <> sc_adapt c f).
Proof.
  set (c := toy_cfg (toy 1) eq_refl 2 8 4 1).
  exists (toy 1), c, 0. eexists _, _, 1. repeat split; cbn; try lia.
  exists 2, 0. split; [lia|]. split; [reflexivity|]. intros g H. injection H as <-. discriminate.
Qed.
Print Assumptions C34_modulo_refuted.

(** ** C35 *)
Theorem C35_mask_length : forall si oflow bflow img (c : scfg si oflow bflow img),
  sizes_ok c -> sc_F c mod sc_nd c = 0 ->
  (forall u d u', si_get si (sc_F c) u = (Ok d, u') ->
     List.length (fd_flows d) = sc_F c /\
     (forall l, fd_mask d = Some l -> List.length l = sc_F c) /\
     (forall l, fd_files d = Some l -> List.length l = sc_F c)) ->
  forall ops u j b, nth_error (fst (srun c ops (syn_init c u))) j = Some (SBatch b) ->
  (forall l, ba_mask b = Some l -> List.length l = sc_F c /\ (List.length l = List.length (ba_images b) <-> sc_F c = sc_B c)) /\
  (forall l, ba_files b = Some l -> List.length l = sc_F c /\ (List.length l = List.length (ba_images b) <-> sc_F c = sc_B c)).
Proof.
  intros si oflow bflow img c OK FM LD ops u j b H.
  assert (SH : forall u d u', si_get si (sc_F c) u = (Ok d, u') -> shardable c d).
  { intros u0 d u' G. split; [eapply LD; eassumption | assumption]. }
  destruct (sane_run c OK SH ops _ (sane_init c u) j b H) as (m & d & u1 & u2 & G & (M1 & M2 & _ & M4 & M5)).
  destruct (LD _ _ _ G) as (_ & K1 & K2). rewrite M4, M5, M1.
  split; intros l E; [specialize (K1 l E) | specialize (K2 l E)]; (split; [assumption | lia]).
Qed.
Print Assumptions C35_mask_length.

(** With as many fields as images, entry [i] of mask and files describes the
    field that image [i] is made from; with fewer, some image has no entry. *)
Theorem C35_alignment : forall si oflow bflow img (c : scfg si oflow bflow img) m d b,
  sizes_ok c -> sc_F c mod sc_nd c = 0 -> List.length (fd_flows d) = sc_F c -> made_from c m d b ->
  (forall l, fd_mask d = Some l -> List.length l = sc_F c) ->
  (sc_F c = sc_B c -> ba_mask b = fd_mask d /\ ba_files b = fd_files d /\
     forall i, i < sc_B c -> exists f k n, nth_error (fd_flows d) i = Some f /\
       nth_error (ba_images b) i = Some (sc_render c k n (sc_bounds c f))) /\
  (sc_F c <> sc_B c -> forall l, ba_mask b = Some l -> exists i x, nth_error (ba_images b) i = Some x /\ nth_error l i = None).
Proof.
  intros si oflow bflow img c m d b OK FM LD (M1 & M2 & M3 & M4 & M5) ML. split.
  - intros E. split; [assumption|]. split; [assumption|]. intros i Hi.
    destruct (M3 i Hi) as (f & A & B & C). rewrite LD, E in A.
    destruct OK as (N1 & _ & _ & _ & _ & BM). rewrite (source_id _ _ _ N1 BM Hi) in A. eauto 8.
  - intros NE l E. rewrite M4 in E. specialize (ML l E).
    assert (FB : sc_F c < sc_B c) by (destruct OK as (_ & _ & _ & FB & _); lia).
    exists (sc_F c). destruct (M3 (sc_F c) FB) as (f & A & B & C). rewrite C. eexists. split; [reflexivity|].
    apply nth_error_None. lia.
Qed.
Print Assumptions C35_alignment.

(** 3 images, 2 flow fields: a mask of 2 entries. *)
Example C35_case : let c := toy_cfg (toy 9) eq_refl 1 3 2 2 in
  exists b, fst (srun c [SNext] (syn_init c 0)) = [SBatch b] /\ ba_mask b = Some [true; true] /\
    List.length (ba_images b) = 3.
Proof. eexists. split; [reflexivity | split; reflexivity]. Qed.

(** ** C36 *)

(** Directly over the episodic scheduler, one use per step (then C31 applies). *)
Theorem C36_forced : forall si oflow bflow img nd BS F bpf seed adapt bounds render (c : scfg si oflow bflow img),
  si_class si = true -> make_scfg si nd BS F bpf seed adapt bounds render = Ok c -> sc_bpf c = 1.
Proof.
  intros si oflow bflow img nd BS F bpf seed adapt bounds render c K H. apply make_sizes in H.
  destruct H as (_ & _ & E & _). rewrite K in E. assumption.
Qed.
Print Assumptions C36_forced.

(** Otherwise an episode of [L] steps gives (L-1)*bpf + 1 batches (the last step
    only one), then EpisodeEnd ... *)
Theorem C36_last_step_once : forall si oflow bflow img (c : scfg si oflow bflow img) L D at_,
  sizes_ok c -> episodic si (sc_F c) L D at_ -> (forall e t, t < L -> shardable c (D e t)) -> 1 <= L ->
  forall s e, fresh c s -> at_ (y_sched s) e 0 ->
  forall m, let r := nth_error (fst (srun c (repeat SNext (S m)) s)) m in
  (m <= (L - 1) * sc_bpf c -> exists b, r = Some (SBatch b) /\ made_from c m (D e (m / sc_bpf c)) b /\
     ba_done b = Some (repeat (m / sc_bpf c + 1 =? L) (sc_B c))) /\
  ((L - 1) * sc_bpf c < m -> r = Some (SRaise EpisodeEnd)).
Proof.
  intros si oflow bflow img c L D at_ OK EP SH L1 s e Fr A m r. subst r. rewrite obs_nth by lia. split.
  - intros H. destruct (factor_obs c OK L D at_ EP SH L1 s e Fr A m H) as (b & E & M & Dn). exists b. rewrite E. auto.
  - intros H. destruct (factor_end c OK L D at_ EP SH L1 s e Fr A (m - ((L - 1) * sc_bpf c + 1))) as [_ E].
    replace ((L - 1) * sc_bpf c + 1 + (m - ((L - 1) * sc_bpf c + 1))) with m in E by lia. rewrite E. reflexivity.
Qed.
Print Assumptions C36_last_step_once.

(** ... and [next_episode] while the current flow batch has uses left is
    followed by a batch of the old episode. *)
Theorem C36_old_episode_leaks : forall si oflow bflow img (c : scfg si oflow bflow img) L D at_,
  sizes_ok c -> episodic si (sc_F c) L D at_ -> (forall e t, t < L -> shardable c (D e t)) -> 1 <= L ->
  forall s e, fresh c s -> at_ (y_sched s) e 0 ->
  forall m, 1 <= m <= (L - 1) * sc_bpf c + 1 -> m mod sc_bpf c <> 0 ->
  exists b, fst (srun c (repeat SNext m ++ [SNextEpisode; SNext]) s) =
              fst (srun c (repeat SNext m) s) ++ [SUnit; SBatch b] /\
            made_from c m (D e (m / sc_bpf c)) b.
Proof. intros. apply (factor_cross c) with (L := L) (at_ := at_); auto. Qed.
Print Assumptions C36_old_episode_leaks.

Example C36_case : let c := toy_cfg (toy_ep false 2) eq_refl 1 1 1 2 in
  map (fun o => match o with SBatch b => Some (ba_flows b) | _ => None end)
    (fst (srun c [SNext; SNext; SNext; SNext; SNextEpisode; SNext; SNext] (syn_init c (5, 0)))) =
  [Some [500]; Some [500]; Some [501]; None; None; Some [501]; Some [600]].
Proof. reflexivity. Qed.

(** ** C37 *)

(** After reset, from any state, the run is that of a sampler newly
    constructed over the scheduler's state (after its own reset, if asked). *)
Theorem C37_reset : forall si oflow bflow img (c : scfg si oflow bflow img) r ops s,
  fst (srun c ops (syn_reset c r s)) =
  fst (srun c ops (syn_init c (if r then si_reset si (y_sched s) else y_sched s))).
Proof. intros. apply reset_run. Qed.
Print Assumptions C37_reset.

(** In particular over a scheduler whose reset restores its first state [u0],
    after any calls whatever. *)
Theorem C37_reproducible : forall si oflow bflow img (c : scfg si oflow bflow img) u0,
  (forall u, si_reset si u = u0) ->
  forall before ops,
  fst (srun c (before ++ SReset true :: ops) (syn_init c u0)) =
  fst (srun c before (syn_init c u0)) ++ SUnit :: fst (srun c ops (syn_init c u0)).
Proof.
  intros si oflow bflow img c u0 H before ops. rewrite srun_app. cbn [fst]. f_equal. cbn [srun do_sop].
  pose proof (reset_run c true ops (snd (srun c before (syn_init c u0)))) as E. rewrite H in E.
  destruct (srun c ops (syn_reset c true (snd (srun c before (syn_init c u0))))) as [rs s2]. cbn in *. f_equal. assumption.
Qed.
Print Assumptions C37_reproducible.

(** Without scheduler reset: the flows go on, the keys restart. *)
Example C37_case : let c := toy_cfg (toy 9) eq_refl 1 1 1 1 in
  map (fun o => match o with SBatch b => (ba_flows b, ba_images b) | _ => ([], []) end)
    (fst (srun c [SNext; SNext; SReset false; SNext; SReset true; SNext] (syn_init c 0))) =
  [([0], [(device_key 7 0 0, 0, 0)]); ([1], [(device_key 7 1 0, 0, 1)]); ([], []);
   ([2], [(device_key 7 0 0, 0, 2)]); ([], []); ([0], [(device_key 7 0 0, 0, 0)])].
Proof. reflexivity. Qed.

(** ** C38 *)

(** The keys of different (batch, device, purpose) differ; purposes carry the
    image index.  [b], [b'] are per-device batch sizes. *)
Theorem C38_keys_distinct : forall seed b b' m m' d d' p p' k,
  In (p, k) (draws (device_key seed m d) b) -> In (p', k) (draws (device_key seed m' d') b') ->
  m = m' /\ d = d' /\ p = p'.
Proof. exact key_unique. Qed.
Print Assumptions C38_keys_distinct.

(** A key that is drawn from is never split as well, nor is it one of the keys
    the sampler keeps or hands to devices. *)
Theorem C38_not_split : forall seed b b' m m' d d' p p' k k',
  In (p, k) (draws (device_key seed m d) b) ->
  (In (p', k') (draws (device_key seed m' d') b') -> ~ above k k') /\
  k <> chain (Seed seed) m' /\ k <> Child (chain (Seed seed) m') 1 /\ k <> device_key seed m' d'.
Proof.
  intros seed b b' m m' d d' p p' k k' H. split; [intros; eapply key_not_split; eassumption|].
  destruct (key_not_chain seed b m m' d p k H) as (A & B & C). auto.
Qed.
Print Assumptions C38_not_split.

Theorem C38_each_purpose_once : forall k b, NoDup (map fst (draws k b)).
Proof. exact uses_nodup. Qed.
Print Assumptions C38_each_purpose_once.

(** The sampler really uses these device keys: batch [m] since reset, entry [i]. *)
Theorem C38_sampler_keys : forall si oflow bflow img (c : scfg si oflow bflow img) u D S_,
  sizes_ok c -> delivers si (sc_F c) u D S_ -> (forall j, shardable c (D j)) ->
  (forall j, si_protocol si = true -> si_steps si (S_ j) <> 0%Z) ->
  forall m i, i < sc_B c -> exists b f,
    nth_error (fst (srun c (repeat SNext (S m)) (syn_init c u))) m = Some (SBatch b) /\
    nth_error (ba_images b) i =
      Some (sc_render c (device_key (sc_seed c) m (i / (sc_B c / sc_nd c))) (i mod (sc_B c / sc_nd c)) f).
Proof.
  intros si oflow bflow img c u D S_ OK DE SH GO m i Hi.
  destruct (C32_reuse _ _ _ _ c u D S_ OK DE SH GO (syn_init c u) m (init_fresh c u) eq_refl) as [(b & E & (_ & _ & M & _)) _].
  destruct (M i Hi) as (f & _ & _ & A). eauto.
Qed.
Print Assumptions C38_sampler_keys.

(** ** C75 *)

(** [make] gives one seed to both the episodic wrapper and the sampler.  Their
    keys coincide in exactly two places: the second and fourth drawing of
    windows. *)
Theorem C75_shared_keys : forall seed j b m d p,
  In (p, window_key (snd (make_keys seed)) j) (draws (device_key seed m d) b) <->
  m = 1 /\ d = 0 /\ (j = 1 /\ p = UDensity \/ j = 3 /\ p = UHide2 0 /\ 0 < b).
Proof. exact epi_overlap. Qed.
Print Assumptions C75_shared_keys.

Theorem C75_streams_disjoint_refuted : forall seed b, exists j m d p,
  In (p, window_key (snd (make_keys seed)) j) (draws (device_key seed m d) b).
Proof. intros seed b. exists 1, 1, 0, UDensity. apply epi_overlap. auto. Qed.
Print Assumptions C75_streams_disjoint_refuted.

(** ** C76 *)

(** A number of fields that the devices do not divide: every call raises
    ValueError; the scheduler is asked once. *)
Theorem C76_indivisible : forall si oflow bflow img (c : scfg si oflow bflow img),
  sizes_ok c -> sc_F c mod sc_nd c <> 0 ->
  forall s d u, fresh c s -> (si_protocol si = true -> si_steps si (y_sched s) <> 0%Z) ->
  (si_protocol si = true -> si_steps si u <> 0%Z) ->
  si_get si (sc_F c) (y_sched s) = (Ok d, u) -> List.length (fd_flows d) = sc_F c ->
  forall m, nth_error (fst (srun c (repeat SNext (S m)) s)) m = Some (SRaise ValueError) /\
    y_sched (snd (srun c (repeat SNext (S m)) s)) = u.
Proof.
  intros si oflow bflow img c OK NM s d u Fr P0 P1 G Ld m. rewrite obs_nth by lia.
  destruct (unshardable c OK NM s d u Fr P0 P1 G Ld m) as [A B]. rewrite A. auto.
Qed.
Print Assumptions C76_indivisible.

Example C76_case : exists c, make_scfg (toy 9) 2 3 3 4 0 (fun f : nat => f) (fun f : nat => f) (fun k (j f : nat) => (k, j, f)) = Ok c /\
  sizes_ok c /\ sc_F c mod sc_nd c <> 0 /\ sc_B c = 4.
Proof. eexists. split; [reflexivity|]. split; [repeat split; cbn; lia | split; [discriminate | reflexivity]]. Qed.
