(** Rounding errors of sums and products. *)
From Coq Require Import ZArith Reals Lia Lra Psatz.
Local Open Scope R_scope.

Section Errors.
Variables u e : R.
Hypothesis U : 0 <= u <= / 1024.
Hypothesis E : 0 <= e <= / 1024.

(** [a] is the exact number [A], of size at most [S], after [k] roundings. *)
Definition near (k : nat) (S d a A : R) : Prop := Rabs A <= S /\ Rabs (a - A) <= ((1 + u) ^ k - 1) * S + d.

Lemma pow_ge_1 : forall k, 1 <= (1 + u) ^ k.
Proof. induction k; cbn [pow]; [lra|]. nra. Qed.

Lemma near_size : forall k S d a A, near k S d a A -> Rabs a <= (1 + u) ^ k * S + d.
Proof.
  intros k S d a A [H1 H2]. replace a with ((a - A) + A) by ring.
  eapply Rle_trans; [apply Rabs_triang|]. nra.
Qed.

Lemma near_S : forall k S d a A, near k S d a A -> 0 <= S.
Proof. intros k S d a A [H1 _]. pose proof (Rabs_pos A). lra. Qed.

Lemma near_d : forall k S d d' a A, d <= d' -> near k S d a A -> near k S d' a A.
Proof. intros k S d d' a A D [H1 H2]. split; [exact H1 | lra]. Qed.

Lemma near_k : forall k k' S d a A, (k <= k')%nat -> near k S d a A -> near k' S d a A.
Proof.
  intros k k' S d a A K N. pose proof (near_S _ _ _ _ _ N) as P. destruct N as [H1 H2]. split; [exact H1|].
  assert ((1 + u) ^ k <= (1 + u) ^ k') by (apply Rle_pow; [lra | exact K]). nra.
Qed.

Lemma near_exact : forall S A, Rabs A <= S -> near 0 S 0 A A.
Proof. intros S A H. split; [exact H|]. rewrite Rminus_diag_eq, Rabs_R0 by reflexivity. cbn [pow]. lra. Qed.

(** One more rounding. *)
Lemma near_round : forall k S d a A r, near k S d a A -> Rabs (r - a) <= u * Rabs a + e ->
  near (Datatypes.S k) S ((1 + u) * d + e) r A.
Proof.
  intros k S d a A r N H. pose proof (near_size _ _ _ _ _ N) as Z. destruct N as [H1 H2]. split; [exact H1|].
  replace (r - A) with ((r - a) + (a - A)) by ring. eapply Rle_trans; [apply Rabs_triang|]. cbn [pow]. nra.
Qed.

Lemma near_sum : forall k S1 S2 d1 d2 a b A B, near k S1 d1 a A -> near k S2 d2 b B ->
  near k (S1 + S2) (d1 + d2) (a + b) (A + B).
Proof.
  intros k S1 S2 d1 d2 a b A B [H1 H2] [H3 H4]. split.
  - eapply Rle_trans; [apply Rabs_triang | lra].
  - replace (a + b - (A + B)) with ((a - A) + (b - B)) by ring. eapply Rle_trans; [apply Rabs_triang | lra].
Qed.

Lemma near_product : forall k l S1 S2 d1 d2 a b A B, 0 <= d1 -> 0 <= d2 -> near k S1 d1 a A -> near l S2 d2 b B ->
  near (k + l) (S1 * S2) (d1 * ((1 + u) ^ l * S2) + d2 * ((1 + u) ^ k * S1) + d1 * d2) (a * b) (A * B).
Proof.
  intros k l S1 S2 d1 d2 a b A B D1 D2 N1 N2. pose proof (near_size _ _ _ _ _ N2) as Z2.
  pose proof (near_S _ _ _ _ _ N1) as P1. pose proof (near_S _ _ _ _ _ N2) as P2.
  destruct N1 as [H1 H2]. destruct N2 as [H3 H4].
  pose proof (pow_ge_1 k) as K. pose proof (pow_ge_1 l) as L.
  split; [rewrite Rabs_mult; apply Rmult_le_compat; try apply Rabs_pos; assumption|].
  replace (a * b - A * B) with ((a - A) * b + A * (b - B)) by ring.
  eapply Rle_trans; [apply Rabs_triang|]. rewrite !Rabs_mult.
  assert (X : Rabs (a - A) * Rabs b <= (((1 + u) ^ k - 1) * S1 + d1) * ((1 + u) ^ l * S2 + d2))
    by (apply Rmult_le_compat; try apply Rabs_pos; assumption).
  assert (Y : Rabs A * Rabs (b - B) <= S1 * (((1 + u) ^ l - 1) * S2 + d2))
    by (apply Rmult_le_compat; try apply Rabs_pos; assumption).
  rewrite pow_add. set (p := (1 + u) ^ k) in *. set (q := (1 + u) ^ l) in *.
  eapply Rle_trans; [apply Rplus_le_compat; [exact X | exact Y]|]. apply Req_le. ring.
Qed.

(** Eight roundings cost no more than 1 part in 100. *)
Lemma pow_small : forall k, (k <= 8)%nat -> (1 + u) ^ k <= 101 / 100.
Proof.
  intros k K. apply Rle_trans with ((1 + u) ^ 8); [apply Rle_pow; [lra | exact K]|].
  apply Rle_trans with ((1 + / 1024) ^ 8); [apply pow_incr; lra|]. lra.
Qed.

Lemma pow7 : (1 + u) ^ 7 - 1 <= 75 / 10 * u.
Proof.
  assert (u * u <= u * / 1024) by (apply Rmult_le_compat_l; lra).
  assert (P : forall k c, (k < 7)%nat -> 0 <= c <= 8 -> (1 + u) ^ k - 1 <= c * u -> (1 + u) ^ (S k) - 1 <= (c + 1 + / 100) * u).
  { intros k c _ C H1. cbn [pow]. set (p := (1 + u) ^ k) in *.
    assert (u * p <= u * (1 + c * u)) by (apply Rmult_le_compat_l; lra).
    assert (c * (u * u) <= 8 * (u * u)) by (apply Rmult_le_compat_r; nra). nra. }
  assert (H0 : (1 + u) ^ 0 - 1 <= 0 * u) by (cbn [pow]; lra).
  assert (H1' : (1 + u) ^ 1 - 1 <= (0 + 1 + / 100) * u) by (apply P; [lia | lra | exact H0]).
  assert (H2' : (1 + u) ^ 2 - 1 <= ((0 + 1 + / 100) + 1 + / 100) * u) by (apply P; [lia | lra | exact H1']).
  assert (H3' : (1 + u) ^ 3 - 1 <= (((0 + 1 + / 100) + 1 + / 100) + 1 + / 100) * u) by (apply P; [lia | lra | exact H2']).
  assert (H4' : (1 + u) ^ 4 - 1 <= ((((0 + 1 + / 100) + 1 + / 100) + 1 + / 100) + 1 + / 100) * u) by (apply P; [lia | lra | exact H3']).
  assert (H5' : (1 + u) ^ 5 - 1 <= (((((0 + 1 + / 100) + 1 + / 100) + 1 + / 100) + 1 + / 100) + 1 + / 100) * u) by (apply P; [lia | lra | exact H4']).
  assert (H6' : (1 + u) ^ 6 - 1 <= ((((((0 + 1 + / 100) + 1 + / 100) + 1 + / 100) + 1 + / 100) + 1 + / 100) + 1 + / 100) * u) by (apply P; [lia | lra | exact H5']).
  assert (H7' : (1 + u) ^ 7 - 1 <= (((((((0 + 1 + / 100) + 1 + / 100) + 1 + / 100) + 1 + / 100) + 1 + / 100) + 1 + / 100) + 1 + / 100) * u) by (apply P; [lia | lra | exact H6']).
  lra.
Qed.
End Errors.
