From Coq Require Import List Arith QArith String Lia.
From Verif Require Import Prelude Model.Base Model.Loaders Model.Scripts Spec.LoaderSpec Spec.FlowKeysSpec Proofs.LoaderProofs.
Import ListNotations.
Local Open Scope nat_scope.

Lemma no_flow_skipped : forall d k ks, no_flow d k -> read_flow_keys d (k :: ks) = read_flow_keys d ks.
Proof.
  intros d k ks [E|(x & E & N)]; cbn [read_flow_keys]; rewrite E; [reflexivity|].
  destruct (shape x) as [|p [|q [|z [|t s]]]] eqn:S; try reflexivity.
  destruct (Nat.eqb_spec z 2) as [->|]; [destruct (N p q); congruence|].
  destruct (Nat.eqb_spec p 2) as [->|]; [destruct (N q z); congruence|reflexivity].
Qed.

Lemma flow_found : forall d ks a, read_flow_keys d ks = Ok a ->
  exists bef k aft, ks = (bef ++ k :: aft)%list /\ Forall (no_flow d) bef /\ flow_at d k a.
Proof.
  intros d. induction ks as [|k ks IH]; intros a H; [discriminate|]. cbn [read_flow_keys] in H.
  assert (R : read_flow_keys d ks = Ok a -> no_flow d k ->
    exists bef k' aft, k :: ks = (bef ++ k' :: aft)%list /\ Forall (no_flow d) bef /\ flow_at d k' a).
  { intros E NF. destruct (IH a E) as (bef & k' & aft & -> & F & A). exists (k :: bef), k', aft. auto. }
  destruct (lookup k d) as [[x|]|] eqn:E; [|discriminate|apply R; [exact H | left; exact E]].
  assert (R' : read_flow_keys d ks = Ok a -> (forall p q, shape x <> [p; q; 2] /\ shape x <> [2; p; q]) ->
    exists bef k' aft, k :: ks = (bef ++ k' :: aft)%list /\ Forall (no_flow d) bef /\ flow_at d k' a).
  { intros E' NF. apply R; [exact E'|]. right. eauto. }
  destruct (shape x) as [|p [|q [|z [|t s]]]] eqn:S;
    try (apply R'; [exact H|]; intros; split; discriminate).
  destruct (Nat.eqb_spec z 2) as [->|NZ].
  { injection H as <-. exists [], k, ks. split; [reflexivity|]. split; [constructor|]. exists x. split; [exact E|]. left. eauto. }
  destruct (Nat.eqb_spec p 2) as [->|NP].
  - rewrite (transpose_wf x 2 q z S) in H. injection H as <-. exists [], k, ks. split; [reflexivity|].
    split; [constructor|]. exists x. split; [exact E|]. right. exists q, z. split; [exact S|]. split; [exact NZ|].
    split; [reflexivity|]. split; [apply tab3_wf|]. intros i j c I J C. apply tab3_elt; assumption.
  - apply R'; [exact H|]. intros p' q'. split; congruence.
Qed.

Lemma flow_read : forall d bef k aft x h w, Forall (no_flow d) bef -> lookup k d = Some (MArr x) ->
  shape x = [h; w; 2] \/ shape x = [2; h; w] -> exists a, read_flow_keys d (bef ++ k :: aft)%list = Ok a /\ flow_at d k a.
Proof.
  intros d bef k aft x h w F E S.
  assert (X : read_flow_keys d (bef ++ k :: aft)%list = read_flow_keys d (k :: aft)).
  { clear -F. induction F as [|k' bef N F IH]; [reflexivity|]. rewrite <- app_comm_cons, no_flow_skipped by exact N. exact IH. }
  rewrite X. cbn [read_flow_keys]. rewrite E. destruct S as [S|S]; rewrite S.
  - cbn [Nat.eqb]. exists x. split; [reflexivity|]. exists x. split; [exact E|]. left. eauto.
  - destruct (Nat.eqb_spec w 2) as [->|NW].
    + exists x. split; [reflexivity|]. exists x. split; [exact E|]. left. eauto.
    + cbn [Nat.eqb]. rewrite (transpose_wf x 2 h w S). eexists. split; [reflexivity|]. exists x. split; [exact E|].
      right. exists h, w. split; [exact S|]. split; [exact NW|]. split; [reflexivity|]. split; [apply tab3_wf|].
      intros i j c I J C. apply tab3_elt; assumption.
Qed.

Lemma flow_none : forall d ks, Forall (no_flow d) ks -> read_flow_keys d ks = Err ValueError.
Proof. intros d ks F. induction F as [|k ks N F IH]; [reflexivity|]. rewrite no_flow_skipped by exact N. exact IH. Qed.
