(** Runs of the sampler: reuse, exhaustion, episodes, reset, pairing. *)
From Coq Require Import List Arith ZArith String Bool Lia.
From Verif Require Import Prelude Model.Sampler Spec.SamplerSpec Proofs.SamplerProofs.
Import ListNotations.
Local Open Scope nat_scope.

Lemma div_of : forall p q r, r < p -> (q * p + r) / p = q.
Proof. intros p q r H. symmetry. apply (Nat.div_unique _ _ q r); lia. Qed.
Lemma mod_of : forall p q r, r < p -> (q * p + r) mod p = r.
Proof. intros p q r H. symmetry. apply (Nat.mod_unique _ _ q r); lia. Qed.

Section Syn.
Context {si : sif} {oflow bflow img : Type}.
Variable c : scfg si oflow bflow img.
Notation st := (sst si oflow bflow).
Notation data := (fdata (si_flow si) (si_img si)).
Hypothesis OK : sizes_ok c.

Lemma fresh_new : forall s : st, fresh c s -> match y_cur s with CurNone => true | _ => sc_bpf c <=? y_gen s end = true.
Proof. intros s (F & _). rewrite F. reflexivity. Qed.

Lemma running_new : forall (s : st) d m g, running c s d m g -> sc_bpf c <= g ->
  match y_cur s with CurNone => true | _ => sc_bpf c <=? y_gen s end = true.
Proof. intros s d m g (R1 & _ & R3 & _) H. rewrite R1, R3. unfold cur_of. apply Nat.leb_le. assumption. Qed.

(** A [next] that needs new flows, one that does not, in terms of observations. *)
Lemma next_new : forall (s : st) d u m,
  (si_protocol si = true -> si_steps si (y_sched s) <> 0%Z) ->
  match y_cur s with CurNone => true | _ => sc_bpf c <=? y_gen s end = true ->
  si_get si (sc_F c) (y_sched s) = (Ok d, u) -> shardable c d ->
  y_rng s = chain (Seed (sc_seed c)) m ->
  exists b s', do_sop c SNext s = (SBatch b, s') /\ made_from c m d b /\
    ba_done b = (if si_protocol si then Some (repeat (si_steps si u =? 0)%Z (sc_B c)) else None) /\
    y_sched s' = u /\ running c s' d (S m) 1.
Proof.
  intros s d u m Hp Hn Hg Hd Hr.
  destruct (get_next_new c s d u m OK Hn Hg Hd Hr) as (b & s' & E & M & B0 & U & R).
  pose proof (next_of c s b s' Hp E) as N. unfold do_sop. rewrite N. eexists _, s'. split; [reflexivity|].
  rewrite <- U. split; [|split; [|split; [reflexivity|assumption]]].
  - destruct (si_protocol si); [apply made_done|]; assumption.
  - destruct (si_protocol si); [reflexivity | assumption].
Qed.

Lemma next_old : forall (s : st) d m g,
  (si_protocol si = true -> si_steps si (y_sched s) <> 0%Z) ->
  shardable c d -> running c s d m g -> g < sc_bpf c ->
  exists b s', do_sop c SNext s = (SBatch b, s') /\ made_from c m d b /\
    ba_done b = (if si_protocol si then Some (repeat (si_steps si (y_sched s) =? 0)%Z (sc_B c)) else None) /\
    y_sched s' = y_sched s /\ running c s' d (S m) (S g).
Proof.
  intros s d m g Hp Hd R Hg.
  destruct (get_next_old c s d m g OK Hd R Hg) as (b & s' & E & M & B0 & U & R').
  pose proof (next_of c s b s' Hp E) as N. unfold do_sop. rewrite N. eexists _, s'. split; [reflexivity|].
  rewrite U. split; [|split; [|split; [reflexivity|assumption]]].
  - destruct (si_protocol si); [apply made_done|]; assumption.
  - destruct (si_protocol si); [reflexivity | assumption].
Qed.

Lemma next_raises : forall (s : st) e u,
  (si_protocol si = true -> si_steps si (y_sched s) <> 0%Z) ->
  match y_cur s with CurNone => true | _ => sc_bpf c <=? y_gen s end = true ->
  si_get si (sc_F c) (y_sched s) = (Err e, u) ->
  do_sop c SNext s = (SRaise e, mkSst u (y_rng s) (y_cur s) 0 (y_mask s) (y_files s)).
Proof.
  intros s e u Hp Hn Hg. unfold do_sop, syn_next, sampler_next.
  assert (K : (si_protocol si && (si_steps si (y_sched s) =? 0)%Z)%bool = false).
  { destruct (si_protocol si); [|reflexivity]. apply Z.eqb_neq. auto. }
  rewrite K. unfold syn_get_next, syn_fetch. rewrite Hn, Hg. reflexivity.
Qed.

Lemma next_ended : forall s : st, si_protocol si = true -> si_steps si (y_sched s) = 0%Z ->
  syn_next c s = (Err EpisodeEnd, s).
Proof. intros s Hp H. unfold syn_next, sampler_next. rewrite Hp, H. reflexivity. Qed.

(** ** C32 *)
Section Reuse.
Variables (u : si_state si) (D : nat -> data) (S_ : nat -> si_state si).
Variable J : nat.     (* number of batches the scheduler delivers, at least *)
Hypothesis del0 : S_ 0 = u.
Hypothesis del : forall j, j < J -> si_get si (sc_F c) (S_ j) = (Ok (D j), S_ (j + 1)).
Hypothesis sh : forall j, j < J -> shardable c (D j).
Hypothesis go : forall j, si_protocol si = true -> si_steps si (S_ j) <> 0%Z.
Variable s : st.
Hypothesis Fr : fresh c s.
Hypothesis Us : y_sched s = u.

Definition phase (m : nat) (s' : st) : Prop :=
  m = 0 /\ fresh c s' /\ y_sched s' = S_ 0 \/
  exists q g, m = q * sc_bpf c + g /\ 1 <= g <= sc_bpf c /\ q < J /\ running c s' (D q) m g /\ y_sched s' = S_ (q + 1).

Lemma reuse_step : forall m s', phase m s' -> m < J * sc_bpf c ->
  exists b s2, do_sop c SNext s' = (SBatch b, s2) /\ made_from c m (D (m / sc_bpf c)) b /\ phase (S m) s2.
Proof.
  intros m s' P Hm. assert (Hb : 1 <= sc_bpf c) by apply OK.
  destruct P as [(-> & F & U)|(q & g & Em & G & Q & R & U)].
  - assert (J0 : 0 < J) by nia.
    destruct (next_new s' (D 0) (S_ (0 + 1)) 0) as (b & s2 & E & M & _ & U2 & R2).
    + rewrite U. apply go.
    + apply fresh_new; assumption.
    + rewrite U. apply del. assumption.
    + apply sh. assumption.
    + apply F.
    + exists b, s2. rewrite Nat.div_0_l by lia. split; [assumption|]. split; [assumption|].
      right. exists 0, 1. repeat split; auto; try lia; apply R2.
  - destruct (Nat.eq_dec g (sc_bpf c)) as [Eg|Ng].
    + assert (E2 : m = (q + 1) * sc_bpf c + 0) by lia.
      assert (Q2 : q + 1 < J) by nia.
      destruct (next_new s' (D (q + 1)) (S_ (q + 1 + 1)) m) as (b & s2 & E & M & _ & U2 & R2).
      * rewrite U. apply go.
      * eapply running_new; [eassumption | lia].
      * rewrite U. apply del. assumption.
      * apply sh. assumption.
      * apply R.
      * exists b, s2. rewrite E2 at 2. rewrite div_of by lia. split; [assumption|]. split; [assumption|].
        right. exists (q + 1), 1. repeat split; auto; try lia; apply R2.
    + destruct (next_old s' (D q) m g) as (b & s2 & E & M & _ & U2 & R2); auto.
      * rewrite U. apply go.
      * lia.
      * exists b, s2. rewrite Em at 2. rewrite div_of by lia. split; [assumption|]. split; [assumption|].
        right. exists q, (S g). rewrite U2. repeat split; auto; try lia; apply R2.
Qed.

Lemma reuse_phase : forall m, m <= J * sc_bpf c -> phase m (after c m s).
Proof.
  induction m as [|m IH]; intros H.
  - left. unfold after. cbn. rewrite Us, del0. auto.
  - destruct (reuse_step m (after c m s)) as (b & s2 & E & _ & P); [apply IH; lia | lia|].
    rewrite after_S, E. assumption.
Qed.

Lemma reuse_obs : forall m, m < J * sc_bpf c -> exists b,
  do_sop c SNext (after c m s) = (SBatch b, after c (S m) s) /\ made_from c m (D (m / sc_bpf c)) b.
Proof.
  intros m H. destruct (reuse_step m (after c m s)) as (b & s2 & E & M & P); [apply reuse_phase; lia | lia|].
  exists b. rewrite after_S, E. auto.
Qed.

Lemma reuse_calls : forall m, m <= J * sc_bpf c -> y_sched (after c m s) = S_ ((m + sc_bpf c - 1) / sc_bpf c).
Proof.
  intros m H. assert (Hb : 1 <= sc_bpf c) by apply OK.
  destruct (reuse_phase m H) as [(-> & F & U)|(q & g & Em & G & Q & R & U)].
  - rewrite U. f_equal. symmetry. apply Nat.div_small. lia.
  - rewrite U. f_equal. replace (m + sc_bpf c - 1) with ((q + 1) * sc_bpf c + (g - 1)) by nia.
    rewrite div_of by lia. reflexivity.
Qed.

(** ** C33 *)
Section Exhausted.
Hypothesis J1 : 1 <= J.
Hypothesis stop : forall j, J <= j -> si_get si (sc_F c) (S_ j) = (Err StopIteration, S_ (j + 1)).

Definition stale (n : nat) (s' : st) : Prop :=
  exists k g, n + sc_bpf c = k * (sc_bpf c + 1) + g /\ g <= sc_bpf c /\
    running c s' (D (J - 1)) (J * sc_bpf c + n - k) g /\ y_sched s' = S_ (J + k).

Lemma stale_step : forall n s', stale n s' ->
  stale (S n) (snd (do_sop c SNext s')) /\
  (n mod (sc_bpf c + 1) = 0 -> fst (do_sop c SNext s') = SRaise StopIteration) /\
  (n mod (sc_bpf c + 1) <> 0 -> exists b, fst (do_sop c SNext s') = SBatch b /\
     made_from c (J * sc_bpf c + n - (n + sc_bpf c) / (sc_bpf c + 1)) (D (J - 1)) b).
Proof.
  intros n s' (k & g & En & G & R & U). assert (Hb : 1 <= sc_bpf c) by apply OK.
  assert (KN : k <= n).
  { destruct (Nat.le_gt_cases k n); auto. nia. }
  destruct (Nat.eq_dec g (sc_bpf c)) as [Eg|Ng].
  - assert (E2 : n = k * (sc_bpf c + 1) + 0) by lia.
    assert (Z : n mod (sc_bpf c + 1) = 0) by (rewrite E2; apply mod_of; lia).
    rewrite (next_raises s' StopIteration (S_ (J + k + 1))).
    + cbn [fst snd]. split; [|split; [reflexivity | congruence]].
      destruct R as (R1 & R2 & R3 & R4 & R5).
      exists (k + 1), 0. replace (J * sc_bpf c + S n - (k + 1)) with (J * sc_bpf c + n - k) by lia.
      repeat split; cbn; auto; try lia. f_equal. lia.
    + rewrite U. apply go.
    + eapply running_new; [eassumption | lia].
    + rewrite U. apply stop. lia.
  - destruct (next_old s' (D (J - 1)) (J * sc_bpf c + n - k) g) as (b & s2 & E & M & _ & U2 & R2); auto.
    + rewrite U. apply go.
    + apply sh. lia.
    + lia.
    + rewrite E. cbn [fst snd]. split; [|split].
      * exists k, (S g). rewrite U2. replace (J * sc_bpf c + S n - k) with (S (J * sc_bpf c + n - k)) by lia.
        split; [lia|]. split; [lia|]. split; assumption.
      * intros Z. apply Nat.mod_divides in Z as [w Z]; [|lia]. exfalso.
        assert (K1 : n = (k - 1) * (sc_bpf c + 1) + (g + 1)).
        { destruct k; [exfalso; nia|]. cbn. nia. }
        assert (K2 : n mod (sc_bpf c + 1) = g + 1) by (rewrite K1; apply mod_of; lia).
        rewrite Z, Nat.mul_comm, Nat.mod_mul in K2; lia.
      * intros _. exists b. split; [reflexivity|]. rewrite En, div_of by lia. assumption.
Qed.

Lemma stale_phase : forall n, stale n (after c (J * sc_bpf c + n) s).
Proof.
  assert (Hb : 1 <= sc_bpf c) by apply OK.
  induction n as [|n IH].
  - rewrite Nat.add_0_r. destruct (reuse_phase (J * sc_bpf c)) as [(E & _)|(q & g & Em & G & Q & R & U)]; [lia|nia|].
    assert (q = J - 1 /\ g = sc_bpf c) as [-> ->] by nia.
    exists 0, (sc_bpf c). split; [lia|]. split; [lia|].
    replace (J * sc_bpf c + 0 - 0) with (J * sc_bpf c) by lia. split; [assumption|].
    rewrite U. f_equal. lia.
  - replace (J * sc_bpf c + S n) with (S (J * sc_bpf c + n)) by lia. rewrite after_S.
    apply stale_step. assumption.
Qed.

Lemma exhausted_obs : forall n,
  (n mod (sc_bpf c + 1) = 0 -> fst (do_sop c SNext (after c (J * sc_bpf c + n) s)) = SRaise StopIteration) /\
  (n mod (sc_bpf c + 1) <> 0 -> exists b, fst (do_sop c SNext (after c (J * sc_bpf c + n) s)) = SBatch b /\
     made_from c (J * sc_bpf c + n - (n + sc_bpf c) / (sc_bpf c + 1)) (D (J - 1)) b).
Proof. intros n. apply (stale_step n _ (stale_phase n)). Qed.
End Exhausted.
End Reuse.

(** ** C31, C36: episodes *)
Section Episodes.
Variables (L : nat) (D : nat -> nat -> data) (at_ : si_state si -> nat -> nat -> Prop).
Hypothesis EP : episodic si (sc_F c) L D at_.
Hypothesis sh : forall e t, t < L -> shardable c (D e t).

(** One use per flow batch: every step once. *)
Lemma plays_ok : sc_bpf c = 1 -> forall ops (s : st) e t m,
  Forall (fun o => o = SNext \/ o = SNextEpisode) ops ->
  at_ (y_sched s) e t -> y_rng s = chain (Seed (sc_seed c)) m ->
  match y_cur s with CurNone => true | _ => sc_bpf c <=? y_gen s end = true ->
  plays c L D e t m ops (fst (srun c ops s)).
Proof.
  intros B1 ops. induction ops as [|o ops IH]; intros s e t m FA A R N; [exact I|].
  inversion FA as [|? ? [->| ->] FA']; subst; cbn [srun].
  - destruct (ep_range _ _ _ _ _ EP _ _ _ A) as [TL ST].
    destruct (t <? L) eqn:LT.
    + apply Nat.ltb_lt in LT.
      destruct (ep_step _ _ _ _ _ EP _ _ _ A LT) as (u' & G & A').
      destruct (next_new s (D e t) u' m) as (b & s' & E & M & Dn & U & RR); auto.
      { intros _. lia. }
      rewrite E. specialize (IH s' e (S t) (S m) FA'). destruct (srun c ops s') as [rs s2]. cbn [fst] in *.
      cbn [plays]. rewrite (proj2 (Nat.ltb_lt _ _) LT). split.
      * exists b. split; [reflexivity|]. split; [assumption|].
        rewrite Dn, (ep_proto _ _ _ _ _ EP). f_equal. f_equal.
        destruct (ep_range _ _ _ _ _ EP _ _ _ A') as [_ ST']. rewrite ST'.
        destruct (Nat.eqb_spec (S t) L); [apply Z.eqb_eq | apply Z.eqb_neq]; lia.
      * apply IH; [rewrite U; assumption | apply RR|]. destruct RR as (R1 & _ & R3 & _).
        rewrite R1, R3, B1. reflexivity.
    + cbn [plays]. apply Nat.ltb_ge in LT. assert (E0 : t = L) by lia.
      unfold do_sop. rewrite (next_ended s (ep_proto _ _ _ _ _ EP)) by lia.
      specialize (IH s e t m FA' A R N). destruct (srun c ops s) as [rs s2]. cbn [fst] in *.
      cbn [plays]. rewrite (proj2 (Nat.ltb_ge _ _) LT). auto.
  - destruct (ep_next _ _ _ _ _ EP _ _ _ A) as (u' & G & A').
    unfold do_sop, syn_next_episode. rewrite (ep_proto _ _ _ _ _ EP), G.
    specialize (IH (set_sched s u') (S e) 0 m FA'). cbn [y_sched y_rng y_cur y_gen set_sched] in IH.
    destruct (srun c ops (set_sched s u')) as [rs s2]. cbn [fst] in *. cbn [plays]. auto.
Qed.

(** With more uses per flow batch. *)
Section Factor.
Hypothesis L1 : 1 <= L.
Variable s : st.
Variable e : nat.
Hypothesis Fr : fresh c s.
Hypothesis A0 : at_ (y_sched s) e 0.

Definition ephase (m : nat) (s' : st) : Prop :=
  m = 0 /\ s' = s \/
  exists q g, m = q * sc_bpf c + g /\ 1 <= g <= sc_bpf c /\ q < L /\ running c s' (D e q) m g /\ at_ (y_sched s') e (S q).

Lemma ephase_step : forall m s', ephase m s' -> m <= (L - 1) * sc_bpf c ->
  exists b s2, do_sop c SNext s' = (SBatch b, s2) /\ made_from c m (D e (m / sc_bpf c)) b /\
    ba_done b = Some (repeat (m / sc_bpf c + 1 =? L) (sc_B c)) /\ ephase (S m) s2.
Proof.
  intros m s' P Hm. assert (Hb : 1 <= sc_bpf c) by apply OK.
  assert (DN : forall u q, at_ u e (S q) -> (si_steps si u =? 0)%Z = (q + 1 =? L)).
  { intros u q A. destruct (ep_range _ _ _ _ _ EP _ _ _ A) as [_ ST]. rewrite ST.
    destruct (Nat.eqb_spec (q + 1) L); [apply Z.eqb_eq | apply Z.eqb_neq]; lia. }
  destruct P as [(-> & ->)|(q & g & Em & G & Q & R & A)].
  - destruct (ep_step _ _ _ _ _ EP _ _ _ A0) as (u' & Gt & A'); [lia|].
    destruct (ep_range _ _ _ _ _ EP _ _ _ A0) as [_ ST].
    destruct (next_new s (D e 0) u' 0) as (b & s2 & E & M & Dn & U2 & R2).
    + intros _. lia.
    + apply fresh_new; assumption.
    + assumption.
    + apply sh. lia.
    + apply Fr.
    + exists b, s2. rewrite Nat.div_0_l by lia. split; [assumption|]. split; [assumption|]. split.
      * rewrite Dn, (ep_proto _ _ _ _ _ EP), (DN u' 0 A'). reflexivity.
      * right. exists 0, 1. rewrite U2. repeat split; auto; try lia; apply R2.
  - destruct (ep_range _ _ _ _ _ EP _ _ _ A) as [_ ST].
    destruct (Nat.eq_dec g (sc_bpf c)) as [Eg|Ng].
    + assert (E2 : m = (q + 1) * sc_bpf c + 0) by lia.
      assert (Q2 : q + 1 < L) by nia.
      destruct (ep_step _ _ _ _ _ EP _ _ _ A) as (u' & Gt & A'); [lia|].
      destruct (next_new s' (D e (S q)) u' m) as (b & s2 & E & M & Dn & U2 & R2).
      * intros _. lia.
      * eapply running_new; [eassumption | lia].
      * assumption.
      * apply sh. lia.
      * apply R.
      * exists b, s2. rewrite E2 at 2 3. rewrite div_of by lia. split; [assumption|].
        replace (q + 1) with (S q) by lia.
        split; [assumption|]. split.
        -- rewrite Dn, (ep_proto _ _ _ _ _ EP), (DN u' (S q) A'). reflexivity.
        -- right. exists (S q), 1. rewrite U2. repeat split; auto; try lia; apply R2.
    + assert (QL : q < L - 1) by nia.
      destruct (next_old s' (D e q) m g) as (b & s2 & E & M & Dn & U2 & R2); auto.
      * intros _. lia.
      * lia.
      * exists b, s2. rewrite Em at 2 3. rewrite div_of by lia. split; [assumption|]. split; [assumption|]. split.
        -- rewrite Dn, (ep_proto _ _ _ _ _ EP), (DN _ q A). reflexivity.
        -- right. exists q, (S g). rewrite U2. repeat split; auto; try lia; apply R2.
Qed.

Lemma ephase_after : forall m, m <= (L - 1) * sc_bpf c + 1 -> ephase m (after c m s).
Proof.
  induction m as [|m IH]; intros H.
  - left. auto.
  - destruct (ephase_step m (after c m s)) as (b & s2 & E & _ & _ & P); [apply IH; lia | lia|].
    rewrite after_S, E. assumption.
Qed.

Lemma factor_obs : forall m, m <= (L - 1) * sc_bpf c -> exists b,
  fst (do_sop c SNext (after c m s)) = SBatch b /\ made_from c m (D e (m / sc_bpf c)) b /\
  ba_done b = Some (repeat (m / sc_bpf c + 1 =? L) (sc_B c)).
Proof.
  intros m H. destruct (ephase_step m (after c m s)) as (b & s2 & E & M & Dn & _); [apply ephase_after; lia | lia|].
  exists b. rewrite E. auto.
Qed.

Lemma factor_end : forall n, after c ((L - 1) * sc_bpf c + 1 + n) s = after c ((L - 1) * sc_bpf c + 1) s /\
  fst (do_sop c SNext (after c ((L - 1) * sc_bpf c + 1 + n) s)) = SRaise EpisodeEnd.
Proof.
  assert (Hb : 1 <= sc_bpf c) by apply OK.
  assert (K : do_sop c SNext (after c ((L - 1) * sc_bpf c + 1) s) = (SRaise EpisodeEnd, after c ((L - 1) * sc_bpf c + 1) s)).
  { destruct (ephase_after ((L - 1) * sc_bpf c + 1)) as [[E _]|(q & g & Em & G & Q & R & A)]; [lia|nia|].
    assert (q = L - 1) as -> by nia.
    destruct (ep_range _ _ _ _ _ EP _ _ _ A) as [_ ST].
    unfold do_sop. rewrite next_ended; [reflexivity | apply EP | lia]. }
  induction n as [|n [IH1 IH2]].
  - rewrite Nat.add_0_r, K. auto.
  - replace ((L - 1) * sc_bpf c + 1 + S n) with (S ((L - 1) * sc_bpf c + 1 + n)) by lia.
    rewrite after_S, IH1, K. cbn [fst snd]. rewrite K. auto.
Qed.

(** [next_episode] with uses of the current flow batch left. *)
Lemma factor_cross : forall m, 1 <= m <= (L - 1) * sc_bpf c + 1 -> m mod sc_bpf c <> 0 -> exists b,
  fst (srun c (repeat SNext m ++ [SNextEpisode; SNext]) s) = fst (srun c (repeat SNext m) s) ++ [SUnit; SBatch b] /\
  made_from c m (D e (m / sc_bpf c)) b.
Proof.
  intros m H NZ. assert (Hb : 1 <= sc_bpf c) by apply OK.
  destruct (ephase_after m) as [[E _]|(q & g & Em & G & Q & R & A)]; [lia|lia|].
  assert (g < sc_bpf c).
  { destruct (Nat.eq_dec g (sc_bpf c)) as [->|]; [|lia]. exfalso. apply NZ.
    replace m with ((q + 1) * sc_bpf c + 0) by lia. apply mod_of. lia. }
  destruct (ep_next _ _ _ _ _ EP _ _ _ A) as (u' & Gt & A').
  destruct (ep_range _ _ _ _ _ EP _ _ _ A') as [_ ST].
  set (s1 := after c m s) in *.
  destruct (next_old (set_sched s1 u') (D e q) m g) as (b & s2 & E & M & _); auto.
  - intros _. cbn. lia.
  - exists b. rewrite srun_app. cbn [fst]. split.
    + f_equal. fold (after c m s). fold s1. cbn [srun]. unfold do_sop at 1. unfold syn_next_episode.
      rewrite (ep_proto _ _ _ _ _ EP), Gt. rewrite E. reflexivity.
    + rewrite Em at 2. rewrite div_of by lia. assumption.
Qed.
End Factor.
End Episodes.

(** ** C34: whatever the calls, a batch is made from one scheduler batch *)
Section Safety.
Hypothesis sh : forall u d u', si_get si (sc_F c) u = (Ok d, u') -> shardable c d.

Definition sane (s : st) : Prop :=
  (exists m, y_rng s = chain (Seed (sc_seed c)) m) /\
  (y_cur s = CurNone \/ exists d, shardable c d /\ (exists u u', si_get si (sc_F c) u = (Ok d, u')) /\
     y_cur s = cur_of c d /\ y_mask s = fd_mask d /\ y_files s = fd_files d).

Lemma sane_step : forall o (s : st), sane s ->
  sane (snd (do_sop c o s)) /\
  forall b, fst (do_sop c o s) = SBatch b ->
    exists m d u u', si_get si (sc_F c) u = (Ok d, u') /\ made_from c m d b.
Proof.
  intros o s [(m & Hr) Hc]. destruct o as [|r|].
  - destruct (match y_cur s with CurNone => true | _ => sc_bpf c <=? y_gen s end) eqn:N.
    + unfold do_sop, syn_next, sampler_next.
      destruct (si_protocol si && (si_steps si (y_sched s) =? 0)%Z)%bool.
      { cbn. split; [split; eauto | discriminate]. }
      destruct (si_get si (sc_F c) (y_sched s)) as [[d|er] u] eqn:G.
      * destruct (get_next_new c s d u m OK N G (sh _ _ _ G) Hr) as (b & s' & E & M & _ & U & R).
        rewrite E. cbn [fst snd]. split.
        { destruct R as (R1 & R2 & R3 & R4 & R5). split; [eauto|]. right. exists d. eauto 10. }
        intros b' Hb. exists m, d, (y_sched s), u. split; [assumption|].
        injection Hb as <-. destruct (si_protocol si); [apply made_done|]; assumption.
      * unfold syn_get_next, syn_fetch. rewrite N, G. cbn [fst snd]. split; [|discriminate].
        split; cbn; eauto.
    + destruct Hc as [Hc|(d & S1 & G & C1 & C2 & C3)]; [rewrite Hc in N; discriminate|].
      unfold do_sop, syn_next, sampler_next.
      destruct (si_protocol si && (si_steps si (y_sched s) =? 0)%Z)%bool.
      { cbn. split; [split; eauto 10 | discriminate]. }
      assert (GB : y_gen s < sc_bpf c).
      { rewrite C1 in N. unfold cur_of in N. apply Nat.leb_gt in N. assumption. }
      destruct (get_next_old c s d m (y_gen s) OK S1) as (b & s' & E & M & _ & U & R); auto.
      { repeat split; auto. }
      rewrite E. cbn [fst snd]. split.
      { destruct R as (R1 & R2 & R3 & R4 & R5). split; [eauto|]. right. exists d. eauto 10. }
      intros b' Hb. destruct G as (u & u' & G). exists m, d, u, u'. split; [assumption|].
      injection Hb as <-. destruct (si_protocol si); [apply made_done|]; assumption.
  - cbn. split; [|discriminate]. destruct (reset_fresh c r s) as (F1 & F2 & _). split; [exists 0; exact F2 | left; exact F1].
  - unfold do_sop, syn_next_episode. destruct (si_protocol si).
    + destruct (si_next si (y_sched s)) as [[[]|er] u]; cbn; (split; [split; eauto | discriminate]).
    + cbn. split; [split; eauto | discriminate].
Qed.

Lemma sane_run : forall ops (s : st), sane s -> forall j b,
  nth_error (fst (srun c ops s)) j = Some (SBatch b) ->
  exists m d u u', si_get si (sc_F c) u = (Ok d, u') /\ made_from c m d b.
Proof.
  induction ops as [|o ops IH]; intros s Hs j b H; cbn in H; [destruct j; discriminate|].
  destruct (sane_step o s Hs) as [S2 B2]. destruct (do_sop c o s) as [r s1].
  specialize (IH s1 S2). destruct (srun c ops s1) as [rs s2]. cbn in *.
  destruct j; cbn in H; [injection H as ->; eauto | eauto].
Qed.

Lemma sane_init : forall u, sane (syn_init c u).
Proof. intros u. split; [exists 0; reflexivity | left; reflexivity]. Qed.
End Safety.

(** ** C37: only the scheduler's state and the seed matter after a reset *)
Definition alike (s1 s2 : st) : Prop :=
  s1 = s2 \/ y_sched s1 = y_sched s2 /\ y_rng s1 = y_rng s2 /\ y_cur s1 = CurNone /\ y_cur s2 = CurNone /\ y_gen s1 = y_gen s2.

Lemma alike_step : forall o (s1 s2 : st), alike s1 s2 ->
  fst (do_sop c o s1) = fst (do_sop c o s2) /\ alike (snd (do_sop c o s1)) (snd (do_sop c o s2)).
Proof.
  intros o s1 s2 [->|(E1 & E2 & E3 & E4 & E5)]; [split; [|left]; reflexivity|].
  destruct o as [|r|].
  - unfold do_sop, syn_next, sampler_next. rewrite E1.
    destruct (si_protocol si && (si_steps si (y_sched s2) =? 0)%Z)%bool.
    { cbn. split; [reflexivity | right; auto]. }
    unfold syn_get_next, syn_fetch. rewrite E3, E4, E1, E2.
    destruct (si_get si (sc_F c) (y_sched s2)) as [[d|er] u].
    + destruct (shard (sc_nd c) (fd_flows d)); cbn [fst snd].
      * match goal with |- context [syn_generate c ?s] => destruct (syn_generate c s) as [[b|er] s'] end;
          cbn; (split; [|left]; reflexivity).
      * split; [|left]; reflexivity.
    + cbn. split; [reflexivity|]. right. auto.
  - cbn. split; [reflexivity|]. right. destruct r; cbn; rewrite ?E1; auto.
  - unfold do_sop, syn_next_episode. rewrite E1. destruct (si_protocol si).
    + destruct (si_next si (y_sched s2)) as [[[]|er] u]; cbn; (split; [reflexivity|]; right; auto).
    + cbn. split; [reflexivity | right; auto].
Qed.

Lemma alike_run : forall ops (s1 s2 : st), alike s1 s2 -> fst (srun c ops s1) = fst (srun c ops s2).
Proof.
  induction ops as [|o ops IH]; intros s1 s2 H; [reflexivity|]. cbn [srun].
  destruct (alike_step o s1 s2 H) as [A B]. destruct (do_sop c o s1) as [r1 t1], (do_sop c o s2) as [r2 t2].
  cbn in A, B. subst. specialize (IH t1 t2 B). destruct (srun c ops t1), (srun c ops t2). cbn in *. congruence.
Qed.

Lemma reset_run : forall r ops (s : st),
  fst (srun c ops (syn_reset c r s)) =
  fst (srun c ops (syn_init c (if r then si_reset si (y_sched s) else y_sched s))).
Proof. intros r ops s. apply alike_run. right. destruct r; cbn; auto. Qed.
End Syn.
