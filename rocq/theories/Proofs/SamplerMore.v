(** More about the sampler: source fields, masks, the real-image sampler, and
    flow batches that cannot be sharded. *)
From Coq Require Import List Arith ZArith String Bool Lia.
From Verif Require Import Prelude Model.Sampler Spec.SamplerSpec Proofs.SamplerProofs Proofs.SamplerRuns.
Import ListNotations.
Local Open Scope nat_scope.

(** * Source fields *)
Lemma source_one : forall B F i, i < B -> source 1 B F i = i mod F.
Proof.
  intros B F i H. unfold source. rewrite !Nat.div_1_r. rewrite (Nat.div_small i B), (Nat.mod_small i B) by lia.
  lia.
Qed.

Lemma source_bound : forall nd B F i, 1 <= nd -> 1 <= F -> F mod nd = 0 -> 1 <= B -> B mod nd = 0 -> i < B ->
  source nd B F i < F.
Proof.
  intros nd B F i N1 F1 FM B1 BM H. unfold source.
  pose proof (div_exact_mul _ _ N1 BM) as EB. pose proof (div_exact_mul _ _ N1 FM) as EF.
  set (b := B / nd) in *. set (f := F / nd) in *.
  assert (0 < b) by nia. assert (0 < f) by nia.
  assert (i / b < nd) by (apply Nat.div_lt_upper_bound; lia).
  pose proof (Nat.mod_upper_bound (i mod b) f). nia.
Qed.

Lemma source_onto : forall nd B F k, 1 <= nd -> 1 <= F -> F mod nd = 0 -> B mod nd = 0 -> F <= B -> k < F ->
  exists i, i < B /\ source nd B F i = k.
Proof.
  intros nd B F k N1 F1 FM BM FB H. unfold source.
  pose proof (div_exact_mul _ _ N1 BM) as EB. pose proof (div_exact_mul _ _ N1 FM) as EF.
  set (b := B / nd) in *. set (f := F / nd) in *.
  assert (0 < f) by nia. assert (f <= b) by nia.
  exists ((k / f) * b + k mod f).
  pose proof (Nat.mod_upper_bound k f). assert (k / f < nd) by (apply Nat.div_lt_upper_bound; lia).
  split; [nia|]. rewrite div_of, mod_of by lia. rewrite (Nat.mod_small (k mod f) f) by lia.
  pose proof (Nat.div_mod k f). lia.
Qed.

Lemma source_id : forall nd B i, 1 <= nd -> B mod nd = 0 -> i < B -> source nd B B i = i.
Proof.
  intros nd B i N1 BM H. unfold source.
  pose proof (div_exact_mul _ _ N1 BM) as EB. set (b := B / nd) in *. assert (0 < b) by nia.
  pose proof (Nat.mod_upper_bound i b). rewrite (Nat.mod_small (i mod b) b) by lia.
  pose proof (Nat.div_mod i b). lia.
Qed.

Section Syn.
Context {si : sif} {oflow bflow img : Type}.
Variable c : scfg si oflow bflow img.
Notation st := (sst si oflow bflow).

(** * Flow batches that cannot be sharded *)
Lemma unshardable : sizes_ok c -> sc_F c mod sc_nd c <> 0 ->
  forall (s : st) d u, fresh c s -> (si_protocol si = true -> si_steps si (y_sched s) <> 0%Z) ->
  (si_protocol si = true -> si_steps si u <> 0%Z) ->
  si_get si (sc_F c) (y_sched s) = (Ok d, u) -> List.length (fd_flows d) = sc_F c ->
  forall m, fst (do_sop c SNext (after c m s)) = SRaise ValueError /\ y_sched (after c (S m) s) = u.
Proof.
  intros (N1 & B1 & F1 & FB & BB & BM) NM s d u Fr P0 P1 G Ld.
  assert (E0 : do_sop c SNext s = (SRaise ValueError, mkSst u (y_rng s) CurRaw 0 (fd_mask d) (fd_files d))).
  { unfold do_sop, syn_next, sampler_next.
    assert (K : (si_protocol si && (si_steps si (y_sched s) =? 0)%Z)%bool = false).
    { destruct (si_protocol si); [|reflexivity]. apply Z.eqb_neq. auto. }
    rewrite K. unfold syn_get_next, syn_fetch. destruct Fr as (F0 & _). rewrite F0, G.
    unfold shard. rewrite Ld. destruct (Nat.eqb_spec (sc_F c mod sc_nd c) 0); [contradiction|]. reflexivity. }
  assert (E1 : forall r, do_sop c SNext (mkSst u r CurRaw 0 (fd_mask d) (fd_files d)) =
    (SRaise ValueError, mkSst u (Child r 0) CurRaw 0 (fd_mask d) (fd_files d))).
  { intros r. unfold do_sop, syn_next, sampler_next. cbn [y_sched].
    assert (K : (si_protocol si && (si_steps si u =? 0)%Z)%bool = false).
    { destruct (si_protocol si); [|reflexivity]. apply Z.eqb_neq. auto. }
    rewrite K. unfold syn_get_next, syn_fetch. cbn [y_cur y_gen].
    destruct (Nat.leb_spec (sc_bpf c) 0); [lia|]. reflexivity. }
  assert (E2 : forall m, exists r, after c (S m) s = mkSst u r CurRaw 0 (fd_mask d) (fd_files d)).
  { induction m as [|m (r & IH)].
    - exists (y_rng s). rewrite after_S. unfold after at 1. cbn [repeat srun snd]. rewrite E0. reflexivity.
    - exists (Child r 0). rewrite after_S, IH, E1. reflexivity. }
  intros m. split; [|destruct (E2 m) as [r ->]; reflexivity].
  destruct m as [|m]; [unfold after; cbn [repeat srun snd]; rewrite E0; reflexivity|].
  destruct (E2 m) as [r ->]. rewrite E1. reflexivity.
Qed.
End Syn.

(** * Real images *)
Lemma real_stop : forall (si : sif) B (S_ : nat -> si_state si) J n,
  (forall j, si_protocol si = true -> si_steps si (S_ j) <> 0%Z) ->
  (forall j, J <= j -> si_get si B (S_ j) = (Err StopIteration, S_ (j + 1))) ->
  forall r, In r (fst (real_run si B n (S_ J))) -> r = Err StopIteration.
Proof.
  intros si B S_ J n. revert J. induction n as [|n IH]; intros J P G r H; [destruct H|].
  cbn [real_run] in H.
  assert (E : real_next si B (S_ J) = (Err StopIteration, S_ (J + 1))).
  { unfold real_next, sampler_next.
    assert (K : (si_protocol si && (si_steps si (S_ J) =? 0)%Z)%bool = false).
    { destruct (si_protocol si) eqn:E; [|reflexivity]. apply Z.eqb_neq. apply P. reflexivity. }
    rewrite K. unfold real_get_next. rewrite G by lia. reflexivity. }
  rewrite E in H. specialize (IH (J + 1)). destruct (real_run si B n (S_ (J + 1))) as [rs u2]. cbn in *.
  destruct H as [<-|H]; [reflexivity|]. apply IH; auto. intros. apply G. lia.
Qed.

(** One real batch per step, done on the last, then EpisodeEnd. *)
Lemma real_episode : forall (si : sif) B L D at_, episodic si B L D at_ ->
  forall u e t, at_ u e t ->
  (t < L -> forall a b, fd_images1 (D e t) = Some a -> fd_images2 (D e t) = Some b ->
     exists u', real_next si B u =
       (Ok (mkBatch (combine a b) (fd_flows (D e t)) (Some (repeat (S t =? L) B)) (fd_mask (D e t)) (fd_files (D e t))), u') /\
       at_ u' e (S t)) /\
  (t = L -> real_next si B u = (Err EpisodeEnd, u)).
Proof.
  intros si B L D at_ EP u e t A. destruct (ep_range _ _ _ _ _ EP _ _ _ A) as [TL ST]. split.
  - intros LT a b Ha Hb. destruct (ep_step _ _ _ _ _ EP _ _ _ A LT) as (u' & G & A').
    exists u'. split; [|assumption]. unfold real_next, sampler_next. rewrite (ep_proto _ _ _ _ _ EP), ST.
    destruct (Z.eqb_spec (Z.of_nat L - Z.of_nat t) 0); [lia|]. cbn [andb].
    unfold real_get_next. rewrite G, Ha, Hb. unfold set_done.
    cbn [ba_images ba_flows ba_mask ba_files]. do 5 f_equal.
    destruct (ep_range _ _ _ _ _ EP _ _ _ A') as [_ ST']. rewrite ST'.
    destruct (Nat.eqb_spec (S t) L); [apply Z.eqb_eq | apply Z.eqb_neq]; lia.
  - intros ->. unfold real_next, sampler_next. rewrite (ep_proto _ _ _ _ _ EP), ST.
    rewrite Z.sub_diag. reflexivity.
Qed.

(** The real sampler hands on exactly what the scheduler delivers. *)
Lemma real_delivers : forall (si : sif) B u d u' a b, si_protocol si = false ->
  si_get si B u = (Ok d, u') -> fd_images1 d = Some a -> fd_images2 d = Some b ->
  real_next si B u = (Ok (mkBatch (combine a b) (fd_flows d) None (fd_mask d) (fd_files d)), u').
Proof.
  intros si B u d u' a b P G Ha Hb. unfold real_next, sampler_next, real_get_next. rewrite P, G, Ha, Hb. reflexivity.
Qed.
