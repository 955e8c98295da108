From Coq Require Import List Arith ZArith QArith String Bool Lia.
From Verif Require Import Prelude Model.PyVal Model.Base Model.Episodic Model.Prefetch Model.BatchSize Spec.BatchSizeSpec.
Import ListNotations.
Local Open Scope nat_scope.

Lemma the_int_fun : forall v i j, the_int v i -> the_int v j -> i = j.
Proof. intros v i j [-> | [[-> ->] | [-> ->]]] [E | [[E ->] | [E ->]]]; try discriminate; try reflexivity. now inversion E. Qed.

Lemma np_ones_takes : forall z v n, np_ones z v = Ok n <-> takes z v n.
Proof.
  intros z v n. unfold takes, the_int. split.
  - unfold np_ones. destruct v as [ |b|i|x|x|l|l|l]; try discriminate.
    + destruct (nz_bool z) eqn:Eb; [|discriminate]. destruct (nz_fails z _) eqn:Ef; [discriminate|].
      intros E. inversion E; subst n. repeat split; auto. destruct b; auto.
    + destruct (i <? 0)%Z eqn:Ei; [discriminate|]. apply Z.ltb_ge in Ei. destruct (nz_fails z _) eqn:Ef; [discriminate|].
      intros E. inversion E; subst n. rewrite Z2Nat.id by assumption. repeat split; auto. intros [b B]; discriminate.
  - intros [[-> | [[-> H] | [-> H]]] [F Hb]]; unfold np_ones.
    + destruct (Z.of_nat n <? 0)%Z eqn:Ei; [apply Z.ltb_lt in Ei; lia|]. rewrite Nat2Z.id, F. reflexivity.
    + rewrite Hb by eauto. replace n with 1 in * by lia. rewrite F. reflexivity.
    + rewrite Hb by eauto. replace n with 0 in * by lia. rewrite F. reflexivity.
Qed.

Lemma np_ones_refuses : forall z v e, np_ones z v = Err e <-> refuses z v e.
Proof.
  intros z v e. split.
  - unfold np_ones. destruct v as [ |b|i|x|x|l|l|l];
      try (intros E; inversion E; subst e; apply R_type; intros i0 [H | [[H _] | [H _]]]; discriminate).
    + destruct (nz_bool z) eqn:Eb.
      * destruct (nz_fails z _) eqn:Ef; [|discriminate]. intros E; inversion E; subst e0.
        apply (R_memory z _ (if b then 1 else 0)); auto. unfold the_int. destruct b; auto.
      * intros E; inversion E; subst e. now apply R_bool.
    + destruct (i <? 0)%Z eqn:Ei.
      * intros E; inversion E; subst e. apply R_negative. now apply Z.ltb_lt.
      * apply Z.ltb_ge in Ei. destruct (nz_fails z _) eqn:Ef; [|discriminate]. intros E; inversion E; subst e0.
        apply (R_memory z _ (Z.to_nat i)); auto; [left; now rewrite Z2Nat.id|intros [b B]; discriminate].
  - intros [i H|v' H|b H|v' n e' H Hb F].
    + unfold np_ones. apply Z.ltb_lt in H. now rewrite H.
    + unfold np_ones. destruct v' as [ |b|i|x|x|l|l|l]; try reflexivity.
      * exfalso. apply (H (if b then 1 else 0)%Z). unfold the_int. destruct b; auto.
      * exfalso. apply (H i). now left.
    + unfold np_ones. now rewrite H.
    + destruct H as [-> | [[-> H] | [-> H]]]; unfold np_ones.
      * destruct (Z.of_nat n <? 0)%Z eqn:Ei; [apply Z.ltb_lt in Ei; lia|]. now rewrite Nat2Z.id, F.
      * rewrite Hb by eauto. replace n with 1 in * by lia. now rewrite F.
      * rewrite Hb by eauto. replace n with 0 in * by lia. now rewrite F.
Qed.

Lemma py_ne_int_spec : forall v n, py_ne_int v n = false <-> equals v n.
Proof.
  intros v n. unfold py_ne_int, equals, the_int.
  assert (K : forall p q, num_leb (Fin p) (Fin q) && num_leb (Fin q) (Fin p) = true <-> p == q).
  { intros p q. cbn [num_leb]. rewrite andb_true_iff, !Qle_bool_iff. split.
    - intros [A B]. now apply Qle_antisym.
    - intros ->. split; apply Qle_refl. }
  destruct v as [ |b|i|x|x|l|l|l]; cbn [num_of];
    try (split; [discriminate | intros [[H | [[H _] | [H _]]] | [q [H _]]]; discriminate]).
  - rewrite negb_false_iff, K. rewrite inject_Z_injective. split.
    + intros E. left. right. destruct b; [left|right]; split; auto.
    + intros [[H | [[H E] | [H E]]] | [q [H _]]]; try discriminate; inversion H; now rewrite E.
  - rewrite negb_false_iff, K. rewrite inject_Z_injective. split.
    + intros E. left. left. now rewrite E.
    + intros [[H | [[H E] | [H E]]] | [q [H _]]]; try discriminate; inversion H; reflexivity.
  - destruct x as [ |s|q].
    + split; [discriminate|]. intros [[H | [[H _] | [H _]]] | [q [H _]]]; discriminate.
    + split; [destruct s; discriminate|]. intros [[H | [[H _] | [H _]]] | [q [H _]]]; discriminate.
    + rewrite negb_false_iff, K. split.
      * intros E. right. exists q. now split.
      * intros [[H | [[H _] | [H _]]] | [q' [H E]]]; try discriminate. inversion H; now subst.
Qed.

Lemma takes_or_refuses : forall z v, (exists n, takes z v n) \/ exists e, refuses z v e.
Proof.
  intros z v. destruct (np_ones z v) as [n|e] eqn:E; [left; exists n; now apply np_ones_takes | right; exists e; now apply np_ones_refuses].
Qed.
Lemma takes_not_refuses : forall z v n e, takes z v n -> refuses z v e -> False.
Proof. intros z v n e T R. apply np_ones_takes in T. apply np_ones_refuses in R. congruence. Qed.

Lemma run_any_sim : forall z c fuel ops s, exists ops',
  without_refused z ops (fst (run_any z c fuel ops s)) ops' (fst (run c fuel ops' s)) /\
  snd (run_any z c fuel ops s) = snd (run c fuel ops' s).
Proof.
  intros z c fuel ops. induction ops as [|o ops IH]; intros s.
  - exists []. split; [constructor|reflexivity].
  - destruct o as [v|].
    + cbn [run_any do_vop]. unfold get_batch_any. destruct (np_ones z v) as [n|e] eqn:E.
      * destruct (get_batch c fuel n s) as [r s1] eqn:G. destruct (IH s1) as [ops' [W S]].
        exists (OGet n :: ops'). cbn [run do_op]. rewrite G.
        destruct (run_any z c fuel ops s1), (run c fuel ops' s1). cbn [fst snd] in *. split; [|assumption].
        apply W_taken; [now apply np_ones_takes|assumption].
      * destruct (IH s) as [ops' [W S]]. exists ops'. destruct (run_any z c fuel ops s). cbn [fst snd] in *.
        split; [|assumption]. apply W_refused; [now apply np_ones_refuses|assumption].
    + destruct (IH (reset c s)) as [ops' [W S]]. exists (OReset :: ops'). cbn [run run_any do_op do_vop].
      destruct (run_any z c fuel ops (reset c s)), (run c fuel ops' (reset c s)). cbn [fst snd] in *.
      split; [now apply W_reset|assumption].
Qed.

Lemma get_zero : forall c fuel s,
  get_batch c fuel 0 s = if c_loop c then (CRaise ValueError, reset c s) else (CRaise StopIteration, s).
Proof. intros c fuel s. unfold get_batch. cbn [collect]. destruct (c_loop c); reflexivity. Qed.

(** ** The episodic scheduler *)

Lemma ep_get_taken : forall z ec fuel v s, takes z v (ec_B ec) -> ep_get_any z ec fuel v s = ep_get ec fuel (ec_B ec) s.
Proof.
  intros z ec fuel v s T. unfold ep_get_any, ep_get. rewrite Nat.eqb_refl.
  assert (py_ne_int v (ec_B ec) = false) as -> by (apply py_ne_int_spec; left; apply T).
  destruct (ec_L ec <=? e_t s); [reflexivity|]. unfold get_batch_any. apply np_ones_takes in T. now rewrite T.
Qed.
Lemma ep_get_lost : forall z ec fuel v e s, equals v (ec_B ec) -> refuses z v e ->
  ep_get_any z ec fuel v s = if ec_L ec <=? e_t s then (CRaise EpisodeEnd, s)
                             else (CRaise e, mkEst (e_base s) (e_key s) (S (e_t s))).
Proof.
  intros z ec fuel v e s Q R. unfold ep_get_any. apply py_ne_int_spec in Q. rewrite Q.
  destruct (ec_L ec <=? e_t s); [reflexivity|]. unfold get_batch_any. apply np_ones_refuses in R. now rewrite R.
Qed.
Lemma ep_get_different : forall z ec fuel v s, ~ equals v (ec_B ec) -> ep_get_any z ec fuel v s = (CRaise ValueError, s).
Proof.
  intros z ec fuel v s Q. unfold ep_get_any. destruct (py_ne_int v (ec_B ec)) eqn:E; [reflexivity|].
  apply py_ne_int_spec in E. contradiction.
Qed.

Lemma erun_any_app : forall z ec fuel a b s,
  erun_any z ec fuel (a ++ b) s =
  (let (ra, s1) := erun_any z ec fuel a s in let (rb, s2) := erun_any z ec fuel b s1 in ((ra ++ rb)%list, s2)).
Proof.
  intros z ec fuel a. induction a as [|o a IH]; intros b s; cbn [app erun_any].
  - destruct (erun_any z ec fuel b s); reflexivity.
  - destruct (do_vep z ec fuel o s) as [r s1]. rewrite IH. destruct (erun_any z ec fuel a s1) as [ra s2].
    destruct (erun_any z ec fuel b s2); reflexivity.
Qed.

Lemma lost_state : forall z ec fuel v e k s, equals v (ec_B ec) -> refuses z v e -> e_t s + k <= ec_L ec ->
  erun_any z ec fuel (repeat (VEGet v) k) s = (repeat (ORes (CRaise e)) k, mkEst (e_base s) (e_key s) (e_t s + k)).
Proof.
  intros z ec fuel v e k. induction k as [|k IH]; intros s Q R H; cbn [repeat erun_any do_vep].
  - destruct s; cbn. now rewrite Nat.add_0_r.
  - rewrite (ep_get_lost _ _ _ _ _ _ Q R). assert ((ec_L ec <=? e_t s) = false) as -> by (apply Nat.leb_gt; lia).
    rewrite IH by (auto; cbn; lia). cbn [e_base e_key e_t]. now rewrite Nat.add_succ_r.
Qed.

Lemma ended : forall z ec fuel v m s, equals v (ec_B ec) -> ec_L ec <= e_t s ->
  fst (erun_any z ec fuel (repeat (VEGet v) m) s) = repeat (ORes (CRaise EpisodeEnd)) m.
Proof.
  intros z ec fuel v m. induction m as [|m IH]; intros s Q H; [reflexivity|]. cbn [repeat erun_any do_vep].
  unfold ep_get_any. pose proof Q as Q'. apply py_ne_int_spec in Q'. rewrite Q'. assert ((ec_L ec <=? e_t s) = true) as -> by now apply Nat.leb_le.
  specialize (IH s Q H). destruct (erun_any z ec fuel (repeat (VEGet v) m) s). cbn [fst] in *. now rewrite IH.
Qed.

(** Ordinary calls from a counter [k] steps further on. *)
Lemma later_counter : forall z ec fuel v k m b key t, takes z v (ec_B ec) -> t + k <= ec_L ec ->
  fst (erun_any z ec fuel (repeat (VEGet v) m) (mkEst b key (t + k))) =
  (firstn (ec_L ec - t - k) (fst (erun ec fuel (repeat (EGet (ec_B ec)) m) (mkEst b key t))) ++
   repeat (ORes (CRaise EpisodeEnd)) (m - (ec_L ec - t - k)))%list.
Proof.
  intros z ec fuel v k m. induction m as [|m IH]; intros b key t T H; [cbn; now rewrite firstn_nil|].
  destruct (Nat.eq_dec (t + k) (ec_L ec)) as [E|E].
  - replace (ec_L ec - t - k) with 0 by lia. cbn [firstn app]. rewrite Nat.sub_0_r.
    apply ended; [left; apply T|cbn; lia].
  - cbn [repeat erun_any erun do_vep do_eop]. rewrite (ep_get_taken _ _ _ _ _ T).
    unfold ep_get. rewrite Nat.eqb_refl. cbn [e_t e_base e_key].
    assert ((ec_L ec <=? t + k) = false) as -> by (apply Nat.leb_gt; lia).
    assert ((ec_L ec <=? t) = false) as -> by (apply Nat.leb_gt; lia).
    destruct (get_batch (ec_base ec) fuel (ec_B ec) b) as [r b'].
    specialize (IH b' key (S t) T ltac:(lia)). rewrite Nat.add_succ_l in IH.
    destruct (erun_any z ec fuel (repeat (VEGet v) m) (mkEst b' key (S (t + k)))) as [ra sa].
    destruct (erun ec fuel (repeat (EGet (ec_B ec)) m) (mkEst b' key (S t))) as [rb sb]. cbn [fst] in *.
    replace (ec_L ec - t - k) with (S (ec_L ec - S t - k)) by lia. cbn [firstn app Nat.sub]. now rewrite IH.
Qed.

Lemma next_forgets : forall ec b key t t', next_episode ec (mkEst b key t) = next_episode ec (mkEst b key t') \/ ec_starts ec = [].
Proof.
  intros ec b key t t'. unfold next_episode, sample. destruct (ec_starts ec); [now right|left]. reflexivity.
Qed.
