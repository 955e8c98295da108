(** Property C97: which configurations are accepted. *)
From Coq Require Import List Arith ZArith QArith Qabs Qminmax String Bool Lia Lqa.
From Verif Require Import Prelude Model.PyVal Model.Types Model.Base Model.Files Model.Loaders Model.Episodic Model.Prefetch Model.Sampler Model.Stack.
From Verif Require Import Model.Interp Model.Apply Model.Render Model.Hist Model.DataGen Model.Geometry Model.Make Model.Synthetic Model.Configured.
From Verif Require Import Spec.SyntheticSpec Spec.TypesSpec Spec.SpecValues Spec.FilesSpec Spec.MakeSpec Spec.ConfiguredSpec Spec.AcceptSpec.
From Verif Require Import Proofs.MakeProofs Proofs.SamplerProofs Proofs.ConfiguredProofs Proofs.AcceptProofs.
From Verif Require Import Properties.MakeProps Properties.SyntheticProps Properties.PipelineProps Properties.EpisodePipelineProps Properties.ConfiguredProps.
Import ListNotations.
Local Open Scope string_scope.
Local Open Scope nat_scope.

Lemma schedulable_build : forall w d B sch, schedulable w d B sch <->
  exists cls N L, build w d = Ok (cls, B, false, N, L, sch).
Proof.
  intros w d B sch. split.
  - intros (cls & N & L & seed & at_ & c & s & H1 & H2 & H3 & H4 & H5). exists cls, N, L. apply build_ok. exists seed, at_, c, s. auto.
  - intros (cls & N & L & H). apply build_ok in H. destruct H as (seed & at_ & c & s & H1 & H2 & H3 & H4 & H5).
    exists cls, N, L, seed, at_, c, s. auto.
Qed.

(** Once its scheduler can be built, the rest is decided by the numbers. *)
Lemma make_verdict : forall w d sch a, 0 < w_devices w -> asked (exact_world w) d sch a ->
  schedulable (exact_world w) d (sp_batch (a_spec a)) sch ->
  (fits (exact_world w) d sch a /\ exists p, make (exact_world w) (PDict d) = Ok (SyntheticSampler p sch)) \/
  (~ fits (exact_world w) d sch a /\ make (exact_world w) (PDict d) = Err ValueError).
Proof.
  intros w d sch a WD AS SC. apply schedulable_build in SC. destruct SC as (cls & N & L & BD).
  assert (E : make (exact_world w) (PDict d) = bind (synthetic_from_config (exact_world w) d sch) (fun p => Ok (SyntheticSampler p sch))).
  { unfold make. cbn [load_config bind]. rewrite make_dict_build, BD. cbn [bind finish].
    destruct (as_repeat _ _ _ _ AS) as (v & G & I & _). rewrite dict_get_given, G.
    destruct I; destruct (0 <? L); reflexivity. }
  rewrite E. destruct (from_config_verdict w d sch a WD AS) as [[F [p H]] | [F H]]; rewrite H; cbn [bind].
  - left. split; [exact F | exists p; reflexivity].
  - right. split; [exact F | reflexivity].
Qed.

(** ** C97 *)

(** A configuration with finite numbers is accepted exactly when its scheduler
    can be built and everything fits. *)
Theorem C97_accepts : forall w d sch a, 0 < w_devices w -> asked (exact_world w) d sch a ->
  ((exists p, make (exact_world w) (PDict d) = Ok (SyntheticSampler p sch)) <->
   schedulable (exact_world w) d (sp_batch (a_spec a)) sch /\ fits (exact_world w) d sch a).
Proof.
  intros w d sch a WD AS.
  split.
  - intros [p H].
    assert (SC : schedulable (exact_world w) d (sp_batch (a_spec a)) sch).
    { pose proof H as H'. apply make_ok in H'. destruct H' as (cls & B & N & L & inc & seed & at_ & c & s & sch' & S1 & S2 & S3 & S4 & S5 & S6).
      destruct inc; [discriminate S6|]. destruct S6 as (p' & v & _ & _ & _ & _ & E). inversion E. subst sch'.
      rewrite (positive_fun _ _ _ _ (as_batch _ _ _ _ AS) (ss_batch _ _ _ _ _ _ _ S1)).
      exists cls, N, L, seed, at_, c, s. auto. }
    split; [exact SC|]. destruct (make_verdict w d sch a WD AS SC) as [[F _] | [_ E]]; [exact F | congruence].
  - intros [SC F]. destruct (make_verdict w d sch a WD AS SC) as [[_ E] | [NF _]]; [exact E | contradiction].
Qed.
Print Assumptions C97_accepts.

(** Otherwise the exception is a ValueError. *)
Theorem C97_refuses : forall w d sch a, 0 < w_devices w -> asked (exact_world w) d sch a ->
  schedulable (exact_world w) d (sp_batch (a_spec a)) sch -> ~ fits (exact_world w) d sch a ->
  make (exact_world w) (PDict d) = Err ValueError.
Proof.
  intros w d sch a WD AS SC NF. destruct (make_verdict w d sch a WD AS SC) as [[F _] | [_ E]]; [contradiction | exact E].
Qed.
Print Assumptions C97_refuses.

(** A case: images of 24 x 24 pixels at 2 pixels per length unit, offset by 6,
    with speeds from -4 to 4 and a time step of 1, need fields of 22 units. *)
Definition build_outline (r : result (fclass * nat * bool * nat * nat * scheduler)) :=
  match r with
  | Ok (cls, B, inc, N, L, SFile at_ c s) => Some (cls, B, inc, N, L, fa_class at_, s_files s)
  | _ => None
  end.

Lemma roomy_still : forall size, roomy 6 (inject_Z 24) (inject_Z size) 2 1 4 (-(4)) <-> (22 <= size)%Z.
Proof.
  intros size. unfold roomy.
  assert (E1 : (Qmax 0 4 * 1 == 4)%Q) by reflexivity.
  assert (E2 : (6 + inject_Z 24 / 2 + Qmax 0 (- -(4)) * 1 == inject_Z 22)%Q) by reflexivity.
  rewrite E1, E2, <- Zle_Qle. split; [tauto|]. intros H. split; [unfold Qle; cbn; lia | exact H].
Qed.

Lemma still_fits : forall size sch, flow_shape (exact_world (still_world 2)) sch = Ok [60; 60; 2] ->
  (fits (exact_world (still_world 2)) (still_dict ".npy" 3 2 0 0 size) sch (still_settings 3 2 2 size 60) <-> (22 <= size)%Z).
Proof.
  intros size sch FS. split.
  - intros F. apply roomy_still. exact (fit_room_y _ _ _ _ F).
  - intros H. constructor.
    + constructor; cbn; repeat (apply conj || apply Forall_cons || apply Forall_nil || discriminate || unfold positive_range, correlation_range, probability, non_negative, lt, le; cbn; try (unfold Qle; cbn; lia)).
    + cbn. lia.
    + eexists _, _. split; [reflexivity|]. split; [left; reflexivity|]. repeat constructor; eexists; (split; [constructor|]); split; cbn; unfold Qle; cbn; lia.
    + exists 60, 60, 2. repeat split; auto; lia.
    + cbn. split; reflexivity.
    + cbn. lia.
    + cbn. split; unfold Qle; cbn; lia.
    + apply roomy_still, H.
    + apply roomy_still, H.
    + intros m (p & G & _). discriminate G.
    + intros h (p & G & _). discriminate G.
Qed.

Example C97_case : forall size, size = 21%Z \/ size = 22%Z ->
  exists sch, asked (exact_world (still_world 2)) (still_dict ".npy" 3 2 0 0 size) sch (still_settings 3 2 2 size 60) /\
    schedulable (exact_world (still_world 2)) (still_dict ".npy" 3 2 0 0 size) 3 sch /\
    (fits (exact_world (still_world 2)) (still_dict ".npy" 3 2 0 0 size) sch (still_settings 3 2 2 size 60) <-> size = 22%Z).
Proof.
  intros size H.
  assert (O : build_outline (build (exact_world (still_world 2)) (still_dict ".npy" 3 2 0 0 size)) =
    Some (Npy, 3, false, 0, 0, Npy, ["d/flow_1.npy"; "d/flow_2.npy"; "d/flow_3.npy"])).
  { destruct H as [-> | ->]; vm_compute; reflexivity. }
  destruct (build (exact_world (still_world 2)) (still_dict ".npy" 3 2 0 0 size)) as [[[[[[cls B] inc] N] L] sch]|e] eqn:E; [|discriminate O].
  destruct sch as [at_ c s|at_ ec s|B' N' inner]; [|discriminate O|discriminate O]. cbn [build_outline] in O.
  injection O as -> -> -> -> -> EC EF.
  assert (FS : flow_shape (exact_world (still_world 2)) (SFile at_ c s) = Ok [60; 60; 2]).
  { unfold flow_shape, file_flow_shape, npy_flow_shape. rewrite EC, EF. reflexivity. }
  exists (SFile at_ c s). split; [apply (still_asked ".npy" 3 2 2 0 0 size 60); try lia; exact FS|].
  split; [apply schedulable_build; eauto|]. rewrite (still_fits size _ FS). destruct H; lia.
Qed.
