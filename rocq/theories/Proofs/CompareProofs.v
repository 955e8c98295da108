(** Proofs for C121. *)
From Coq Require Import List Arith ZArith QArith Bool Lia Lqa.
From Verif Require Import Prelude Model.Interp Model.Apply Model.Keys Model.Render Model.Hist Model.DataGen Model.Geometry Model.Sampler Model.Synthetic.
From Verif Require Import Spec.InterpSpec Spec.HistSpec Spec.RenderSpec Spec.LoaderSpec Spec.CompareSpec.
From Verif Require Import Proofs.DataGenProofs Proofs.SyntheticProofs.
Import ListNotations.
Local Open Scope nat_scope.

Section Runs.
Context {si : sif} {oflow bflow I I' : Type}.
Variables (c : scfg si oflow bflow I) (c' : scfg si oflow bflow I') (R : I -> I' -> Prop).
Hypotheses (E1 : sc_nd c = sc_nd c') (E2 : sc_B c = sc_B c') (E3 : sc_F c = sc_F c') (E4 : sc_bpf c = sc_bpf c')
  (E5 : sc_seed c = sc_seed c') (E6 : sc_adapt c = sc_adapt c') (E7 : sc_bounds c = sc_bounds c').
Hypothesis HR : forall k j f, R (sc_render c k j f) (sc_render c' k j f).

Lemma flat_map_rel : forall {A} (f : A -> list I) (g : A -> list I') l, (forall x, Forall2 R (f x) (g x)) -> Forall2 R (flat_map f l) (flat_map g l).
Proof. intros A f g l H. induction l as [|x l IH]; [constructor|]. cbn [flat_map]. apply Forall2_app; auto. Qed.

Definition result_alike (x : result (batch oflow I)) (y : result (batch oflow I')) : Prop :=
  match x, y with
  | Ok b, Ok b' => ba_flows b = ba_flows b' /\ ba_done b = ba_done b' /\ ba_mask b = ba_mask b' /\ ba_files b = ba_files b' /\
                   Forall2 R (ba_images b) (ba_images b')
  | Err e, Err e' => e = e'
  | _, _ => False
  end.

Lemma fetch_same : forall s, syn_fetch c s = syn_fetch c' s.
Proof. intros s. unfold syn_fetch. rewrite E1, E2, E3, E4, E6, E7. reflexivity. Qed.

Lemma generate_alike : forall s, snd (syn_generate c s) = snd (syn_generate c' s) /\ result_alike (fst (syn_generate c s)) (fst (syn_generate c' s)).
Proof.
  intros s. unfold syn_generate. rewrite <- E1, <- E2. destruct (y_cur s) as [| |outs bounds]; try (split; reflexivity).
  destruct bounds as [|dflt bounds]; [split; reflexivity|]. destruct (shard (sc_nd c) (dflt :: bounds)) as [shards|e]; [|split; reflexivity].
  split; [reflexivity|]. cbn [fst result_alike ba_flows ba_done ba_mask ba_files ba_images]. repeat split.
  apply flat_map_rel. intros x. unfold gen_images. induction (seq 0 (sc_B c / sc_nd c)) as [|j l IH]; [constructor|].
  cbn [map]. constructor; [apply HR | exact IH].
Qed.

Lemma next_alike : forall s, snd (syn_next c s) = snd (syn_next c' s) /\ result_alike (fst (syn_next c s)) (fst (syn_next c' s)).
Proof.
  intros s. unfold syn_next, sampler_next. destruct (si_protocol si && _)%bool; [split; reflexivity|].
  assert (G : snd (syn_get_next c s) = snd (syn_get_next c' s) /\ result_alike (fst (syn_get_next c s)) (fst (syn_get_next c' s))).
  { unfold syn_get_next. rewrite fetch_same. destruct (syn_fetch c' s) as [[u|e] s']; [apply generate_alike | split; reflexivity]. }
  destruct (syn_get_next c s) as [r t], (syn_get_next c' s) as [r' t']. cbn [fst snd] in G. destruct G as [<- G].
  destruct r as [b|e], r' as [b'|e']; cbn [result_alike] in G; try contradiction.
  - split; [reflexivity|]. cbn [fst result_alike]. destruct G as (G1 & G2 & G3 & G4 & G5). rewrite <- E2.
    destruct (si_protocol si); cbn [set_done ba_flows ba_done ba_mask ba_files ba_images]; auto.
  - subst e'. split; reflexivity.
Qed.

Lemma op_alike : forall o s, snd (do_sop c o s) = snd (do_sop c' o s) /\ alike R (fst (do_sop c o s)) (fst (do_sop c' o s)).
Proof.
  intros [|r|] s; cbn [do_sop].
  - destruct (next_alike s) as [A B]. destruct (syn_next c s) as [[b|e] t], (syn_next c' s) as [[b'|e'] t']; cbn [fst snd result_alike] in *; try contradiction; auto.
  - unfold syn_reset, syn_clear. rewrite E5. split; [reflexivity | exact Logic.I].
  - destruct (syn_next_episode s) as [[u|e] t]; split; cbn; auto.
Qed.

Lemma run_alike : forall ops s, snd (srun c ops s) = snd (srun c' ops s) /\ Forall2 (alike R) (fst (srun c ops s)) (fst (srun c' ops s)).
Proof.
  induction ops as [|o ops IH]; intros s; [split; [reflexivity | constructor]|]. cbn [srun].
  destruct (op_alike o s) as [A B]. destruct (do_sop c o s) as [r t], (do_sop c' o s) as [r' t']. cbn [fst snd] in A, B. subst t'.
  destruct (IH t) as [C D]. destruct (srun c ops t) as [rs u], (srun c' ops t) as [rs' u']. cbn [fst snd] in *. split; [exact C | constructor; assumption].
Qed.
End Runs.

Lemma plan_geometry : forall a a', same_plan a a' -> geometry_args a = geometry_args a'.
Proof.
  intros a a' P. unfold geometry_args. rewrite (sl_image _ _ P), (sl_density _ _ P), (sl_hide1 _ _ P), (sl_hide2 _ _ P), (sl_diameters _ _ P), (sl_dt _ _ P),
    (sl_off _ _ P), (sl_size _ _ P), (sl_shape _ _ P), (sl_res _ _ P), (sl_vpp _ _ P), (sl_max _ _ P), (sl_min _ _ P). reflexivity.
Qed.

Lemma plan_per : forall a a', same_plan a a' -> per_device a = per_device a'.
Proof. intros a a' P. unfold per_device. rewrite (sl_batch _ _ P), (sl_devices _ _ P). reflexivity. Qed.

(** Two samplers of the same plan. *)
Lemma samplers_alike : forall ex sq g a ex' sq' g' a' si dec sc sc' (R : pair_out -> pair_out -> Prop),
  same_plan a a' -> synthetic ex sq g a si dec = Ok sc -> synthetic ex' sq' g' a' si dec = Ok sc' ->
  (forall geo, construct exact (geometry_args a) = Ok geo -> forall k j f, R (device_image ex sq g a geo k j f) (device_image ex' sq' g' a' geo k j f)) ->
  forall ops u, snd (srun sc ops (syn_init sc u)) = snd (srun sc' ops (syn_init sc' u)) /\
    Forall2 (alike R) (fst (srun sc ops (syn_init sc u))) (fst (srun sc' ops (syn_init sc' u))).
Proof.
  intros ex sq g a ex' sq' g' a' si dec sc sc' R P H H' HR ops u.
  destruct (synthetic_inv _ _ _ _ _ _ _ H) as (geo & G & _ & A1 & A2 & A3 & A4 & A5 & _ & A6 & A7 & A8).
  destruct (synthetic_inv _ _ _ _ _ _ _ H') as (geo' & G' & _ & B1 & B2 & B3 & B4 & B5 & _ & B6 & B7 & B8).
  rewrite <- (plan_geometry _ _ P), G in G'. injection G' as <-.
  assert (DA : device_adapter a geo = device_adapter a' geo) by (unfold device_adapter; rewrite (plan_geometry _ _ P), (plan_per _ _ P), (sl_units _ _ P); reflexivity).
  assert (SI : syn_init sc u = syn_init sc' u) by (unfold syn_init; rewrite A5, B5, (sl_seed _ _ P); reflexivity).
  rewrite <- SI. apply run_alike.
  - rewrite A1, B1. apply P.
  - rewrite A2, B2, (sl_batch _ _ P), (sl_devices _ _ P). reflexivity.
  - rewrite A3, B3. apply P.
  - rewrite A4, B4, (sl_repeat _ _ P). reflexivity.
  - rewrite A5, B5. apply P.
  - rewrite A6, B6, DA. reflexivity.
  - rewrite A7, B7, DA. reflexivity.
  - intros k j f. rewrite A8, B8. apply HR, G.
Qed.
