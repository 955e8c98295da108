(** Starting the background thread from several consumer threads. *)
From Coq Require Import List Arith Bool Lia.
Import ListNotations.
From Verif Require Import Model.StartRace.

(** No caller reads the flag while another is between reading and writing. *)
Definition no_overlap (l : list nat) : Prop :=
  forall l1 i l2, l = l1 ++ i :: l2 -> s_pc (srun l1) i = SCheck ->
    forall j, s_pc (srun l1) j <> SSaw.

Lemma srun_snoc : forall l i, srun (l ++ [i]) = sstep (srun l) i.
Proof. intros. unfold srun. rewrite fold_left_app. reflexivity. Qed.

Lemma no_overlap_prefix : forall l i, no_overlap (l ++ [i]) -> no_overlap l.
Proof.
  intros l i H l1 j l2 E. apply (H l1 j (l2 ++ [i])). rewrite E, <- app_assoc. reflexivity.
Qed.

(** At most one caller has entered the guarded part and it is the only one to
    start the thread. *)
Definition sinv (s : sst) : Prop :=
  (forall i, s_pc s i <> SError) /\
  (s_flag s = false -> s_starts s = 0 /\ (forall i, s_pc s i <> SSet /\ s_pc s i <> SDone) /\
     (forall i j, s_pc s i = SSaw -> s_pc s j = SSaw -> i = j)) /\
  (s_flag s = true -> (forall i, s_pc s i <> SSaw) /\
     (s_starts s = 1 /\ (forall i, s_pc s i <> SSet) \/
      s_starts s = 0 /\ exists i, s_pc s i = SSet /\ forall j, s_pc s j = SSet -> j = i)).

Lemma upd_same : forall f i c, upd f i c i = c.
Proof. intros. unfold upd. rewrite Nat.eqb_refl. reflexivity. Qed.
Lemma upd_other : forall f i c j, j <> i -> upd f i c j = f j.
Proof. intros. unfold upd. apply Nat.eqb_neq in H. rewrite H. reflexivity. Qed.
Lemma upd_cases : forall f i c j, (j = i /\ upd f i c j = c) \/ (j <> i /\ upd f i c j = f j).
Proof. intros. destruct (Nat.eq_dec j i) as [->|N]; [left | right]; split; auto; [apply upd_same | apply upd_other; auto]. Qed.

Lemma sinv_run : forall l, no_overlap l -> sinv (srun l).
Proof.
  induction l as [|i l IH] using rev_ind; intros H.
  - unfold sinv, srun; cbn. repeat split; try discriminate.
  - specialize (IH (no_overlap_prefix _ _ H)). rewrite srun_snoc.
    assert (NO : s_pc (srun l) i = SCheck -> forall j, s_pc (srun l) j <> SSaw).
    { apply (H l i []). reflexivity. }
    remember (srun l) as s. clear Heqs H l. destruct IH as (I1 & I2 & I3).
    unfold sstep. destruct (s_pc s i) eqn:P.
    + destruct (s_flag s) eqn:F; unfold sinv; cbn; rewrite ?F.
      * destruct (I3 eq_refl) as [A C]. split; [|split; [discriminate|]].
        -- intros j. destruct (upd_cases (s_pc s) i SDone j) as [[-> ->]|[_ ->]]; [discriminate | apply I1].
        -- intros _. split.
           ++ intros j. destruct (upd_cases (s_pc s) i SDone j) as [[-> ->]|[_ ->]]; [discriminate | apply A].
           ++ destruct C as [[C1 C2]|(C1 & k & K1 & K2)]; [left; split; auto | right; split; auto].
              ** intros j. destruct (upd_cases (s_pc s) i SDone j) as [[-> ->]|[_ ->]]; [discriminate | apply C2].
              ** exists k. assert (k <> i) by congruence. rewrite upd_other by assumption. split; [assumption|].
                 intros j. destruct (upd_cases (s_pc s) i SDone j) as [[-> ->]|[_ ->]]; [discriminate | apply K2].
      * destruct (I2 eq_refl) as (A & C & D). split; [|split; [|discriminate]].
        -- intros j. destruct (upd_cases (s_pc s) i SSaw j) as [[-> ->]|[_ ->]]; [discriminate | apply I1].
        -- intros _. split; [assumption|]. split.
           ++ intros j. destruct (upd_cases (s_pc s) i SSaw j) as [[-> ->]|[_ ->]]; [split; discriminate | apply C].
           ++ intros j k. destruct (upd_cases (s_pc s) i SSaw j) as [[-> ->]|[N1 ->]];
                destruct (upd_cases (s_pc s) i SSaw k) as [[-> ->]|[N2 ->]]; auto.
              ** intros _ K. elim (NO eq_refl k K).
              ** intros K. elim (NO eq_refl j K).
    + destruct (s_flag s) eqn:F; [destruct (I3 eq_refl) as [A _]; elim (A i P)|].
      destruct (I2 eq_refl) as (A & C & D). unfold sinv; cbn. split; [|split; [discriminate|]].
      * intros j. destruct (upd_cases (s_pc s) i SSet j) as [[-> ->]|[_ ->]]; [discriminate | apply I1].
      * intros _. split.
        -- intros j. destruct (upd_cases (s_pc s) i SSet j) as [[-> ->]|[N1 ->]]; [discriminate|].
           intros K. apply N1. apply D; assumption.
        -- right. split; [assumption|]. exists i. split; [apply upd_same|].
           intros j. destruct (upd_cases (s_pc s) i SSet j) as [[-> ->]|[N1 ->]]; auto.
           intros K. elim (proj1 (C j) K).
    + destruct (s_flag s) eqn:F; [|destruct (I2 eq_refl) as (_ & C & _); elim (proj1 (C i) P)].
      destruct (I3 eq_refl) as [A [[C1 C2]|(C1 & k & K1 & K2)]]; [elim (C2 i P)|].
      rewrite C1. unfold sinv; cbn. rewrite ?F. split; [|split; [discriminate|]].
      * intros j. destruct (upd_cases (s_pc s) i SDone j) as [[-> ->]|[_ ->]]; [discriminate | apply I1].
      * intros _. split.
        -- intros j. destruct (upd_cases (s_pc s) i SDone j) as [[-> ->]|[N1 ->]]; [discriminate | apply A].
        -- left. split; [reflexivity|]. intros j.
           destruct (upd_cases (s_pc s) i SDone j) as [[-> ->]|[N1 ->]]; [discriminate|].
           intros K. apply N1. rewrite (K2 _ K), (K2 _ P). reflexivity.
    + unfold sinv. auto.
    + elim (I1 i P).
Qed.

(** Without overlap: no error, and the thread is started exactly once as soon
    as some caller has returned. *)
Lemma start_once : forall l, no_overlap l ->
  (forall i, s_pc (srun l) i <> SError) /\ s_starts (srun l) <= 1 /\
  (forall i, s_pc (srun l) i = SDone -> (forall j, s_pc (srun l) j <> SSet) -> s_starts (srun l) = 1).
Proof.
  intros l H. destruct (sinv_run l H) as (I1 & I2 & I3). split; [assumption|].
  destruct (s_flag (srun l)) eqn:F.
  - destruct (I3 eq_refl) as [A [[C1 C2]|(C1 & k & K1 & K2)]]; rewrite C1; split; auto.
    intros i _ K. elim (K k K1).
  - destruct (I2 eq_refl) as (A & C & D). rewrite A. split; auto.
    intros i K. elim (proj2 (C i) K).
Qed.

(** With overlap: one of the two callers gets the error. *)
Lemma start_twice : exists l, (forall i, In i l -> i = 0 \/ i = 1) /\ s_pc (srun l) 0 = SDone /\ s_pc (srun l) 1 = SError.
Proof.
  exists [0; 1; 0; 1; 0; 1]. split; [|split; reflexivity].
  cbn. intuition.
Qed.

(** Any number of callers never starts the thread more than once, whatever
    the interleaving: later attempts fail. *)
Lemma starts_le1 : forall l, s_starts (srun l) <= 1.
Proof.
  induction l as [|i l IH] using rev_ind; [auto|]. rewrite srun_snoc. unfold sstep.
  destruct (s_pc (srun l) i); auto. destruct (s_starts (srun l) =? 0); auto.
Qed.
