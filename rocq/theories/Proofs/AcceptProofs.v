(** The constructor accepts exactly what fits. *)
From Coq Require Import List Arith ZArith QArith Qabs Qminmax String Bool Lia Lqa.
From Verif Require Import Prelude Model.PyVal Model.Types Model.Base Model.Files Model.Loaders Model.Episodic Model.Prefetch Model.Sampler Model.Stack.
From Verif Require Import Model.Interp Model.Apply Model.Render Model.Hist Model.DataGen Model.Geometry Model.Make Model.Synthetic Model.Configured.
From Verif Require Import Spec.SyntheticSpec Spec.TypesSpec Spec.SpecValues Spec.FilesSpec Spec.MakeSpec Spec.ConfiguredSpec Spec.GeometrySpec Spec.AcceptSpec.
From Verif Require Import Proofs.GeometryProofs Proofs.TypesProofs Proofs.MakeProofs Proofs.SamplerProofs Proofs.ConfiguredProofs.
From Verif Require Import Properties.TypesProps.
Import ListNotations.
Local Open Scope string_scope.
Local Open Scope nat_scope.

(** ** Verdicts *)

(** A computation that succeeds under [P] and raises ValueError otherwise. *)
Definition verdict {A} (P : Prop) (r : result A) : Prop := (P /\ exists x, r = Ok x) \/ (~ P /\ r = Err ValueError).

Lemma verdict_ext : forall {A} (P Q : Prop) (r : result A), (P <-> Q) -> verdict P r -> verdict Q r.
Proof. intros A P Q r E [[H K] | [H K]]; [left | right]; split; tauto. Qed.

Lemma verdict_check : forall {A} (P Q : Prop) c (r : unit -> result A), (c = true <-> P) -> (P -> verdict Q (r tt)) ->
  verdict (P /\ Q) (bind (check c) r).
Proof.
  intros A P Q c r E V. destruct c; cbn [check bind].
  - assert (HP : P) by (apply E; reflexivity). apply (verdict_ext Q); [tauto | exact (V HP)].
  - right. split; [|reflexivity]. intros [HP _]. apply E in HP. discriminate HP.
Qed.

Lemma verdict_bind : forall {A B} (P Q : Prop) (r : result A) (f : A -> result B), verdict P r ->
  (forall x, P -> r = Ok x -> verdict Q (f x)) -> verdict (P /\ Q) (bind r f).
Proof.
  intros A B P Q r f [[HP [x E]] | [HP E]] V; rewrite E; cbn [bind].
  - apply (verdict_ext Q); [tauto | exact (V x HP E)].
  - right. tauto.
Qed.

Lemma verdict_last : forall {A} (x : A), verdict True (Ok x).
Proof. intros A x. left. split; [exact I | exists x; reflexivity]. Qed.

(** ** The specification *)

Lemma pair_number_fun : forall v p q, pair_of number v p -> pair_of number v q -> p = q.
Proof.
  intros v p q H1 H2. inversion H1; subst; inversion H2; subst.
  f_equal; eapply number_fun; eassumption.
Qed.

Lemma list_number_fun : forall v l m, list_of (pair_of number) v l -> list_of (pair_of number) v m -> l = m.
Proof.
  intros v l m H1 H2. inversion H1 as [us l' F1]; subst; inversion H2 as [us' m' F2]; subst. clear H1 H2. revert m F2.
  induction F1 as [|u p us l P _ IH]; intros m F2; inversion F2; subst; [reflexivity|].
  f_equal; [eapply pair_number_fun; eassumption | apply IH; assumption].
Qed.

Lemma denotes_fun : forall s t u, denotes s t -> denotes s u -> t = u.
Proof.
  intros s t u H K.
  pose proof (integer_fun _ _ _ (n_batch _ _ H) (n_batch _ _ K)) as E1.
  pose proof (pair_integer_fun _ _ _ (n_shape _ _ H) (n_shape _ _ K)) as E2.
  pose proof (pair_number_fun _ _ _ (n_offset _ _ H) (n_offset _ _ K)) as E3.
  pose proof (pair_number_fun _ _ _ (n_density _ _ H) (n_density _ _ K)) as E4.
  pose proof (number_fun _ _ _ (n_hide1 _ _ H) (n_hide1 _ _ K)) as E5.
  pose proof (number_fun _ _ _ (n_hide2 _ _ H) (n_hide2 _ _ K)) as E6.
  pose proof (list_number_fun _ _ _ (n_diameters _ _ H) (n_diameters _ _ K)) as E7.
  pose proof (number_fun _ _ _ (n_diameter_var _ _ H) (n_diameter_var _ _ K)) as E8.
  pose proof (list_number_fun _ _ _ (n_intensities _ _ H) (n_intensities _ _ K)) as E9.
  pose proof (number_fun _ _ _ (n_intensity_var _ _ H) (n_intensity_var _ _ K)) as E10.
  pose proof (list_number_fun _ _ _ (n_rhos _ _ H) (n_rhos _ _ K)) as E11.
  pose proof (number_fun _ _ _ (n_rho_var _ _ H) (n_rho_var _ _ K)) as E12.
  pose proof (number_fun _ _ _ (n_dt _ _ H) (n_dt _ _ K)) as E13.
  pose proof (number_fun _ _ _ (n_noise_uniform _ _ H) (n_noise_uniform _ _ K)) as E14.
  pose proof (number_fun _ _ _ (n_noise_mean _ _ H) (n_noise_mean _ _ K)) as E15.
  pose proof (number_fun _ _ _ (n_noise_std _ _ H) (n_noise_std _ _ K)) as E16.
  clear H K. destruct t, u. cbn in E1, E2, E3, E4, E5, E6, E7, E8, E9, E10, E11, E12, E13, E14, E15, E16. subst. reflexivity.
Qed.

Lemma not_odd : forall v l, list_of (pair_of number) v l -> ~ odd_entry v.
Proof.
  intros v l H (us & a & b & E & I & N). subst v. inversion H as [us' l' F]; subst. clear H.
  induction F as [|u p us l P _ IH]; [destruct I|]. destruct I as [-> | I]; [|exact (IH I)].
  inversion P; subst. destruct N as [N | N]; apply N; right; eexists; eassumption.
Qed.

Lemma post_init_verdict : forall s t, denotes s t -> verdict (documented t) (post_init s).
Proof.
  intros s t D.
  assert (N1 : i_dt s <> nan) by (intros E; pose proof (n_dt _ _ D) as N; rewrite E in N; inversion N).
  assert (N2 : i_noise_gaussian_std s <> nan) by (intros E; pose proof (n_noise_std _ _ D) as N; rewrite E in N; inversion N).
  pose proof (C61_accepts s N1 N2) as A. destruct (post_init s) as [[]|e] eqn:E.
  - left. split; [|exists tt; reflexivity]. destruct (proj1 A eq_refl) as (t' & D' & H). rewrite (denotes_fun _ _ _ D D'). exact H.
  - right. split.
    + intros H. assert (C : Err e = Ok tt) by (apply A; exists t; split; assumption). discriminate C.
    + destruct (C61_errors s e E) as [-> | [_ O]]; [reflexivity|]. exfalso.
      destruct O as [O | [O | [O | [O | O]]]].
      * apply O. right. eexists. exact (n_hide1 _ _ D).
      * apply O. right. eexists. exact (n_hide2 _ _ D).
      * exact (not_odd _ _ (n_diameters _ _ D) O).
      * exact (not_odd _ _ (n_intensities _ _ D) O).
      * exact (not_odd _ _ (n_rhos _ _ D) O).
Qed.

Lemma make_spec_verdict : forall s t, denotes s t -> verdict (documented t) (make_spec s).
Proof.
  intros s t D. unfold make_spec. apply (verdict_ext (documented t /\ True)); [tauto|].
  apply verdict_bind; [exact (post_init_verdict s t D)|]. intros x _ _. apply verdict_last.
Qed.

Lemma make_spec_is : forall s s', make_spec s = Ok s' -> s' = s.
Proof. intros s s' H. unfold make_spec in H. apply bind_ok in H. destruct H as (u & _ & H). congruence. Qed.

(** The tuples of a configuration. *)
Lemma py_tuple_sequence : forall c l, sequence c l -> py_tuple c = Ok (PTuple l).
Proof. intros c l [-> | ->]; reflexivity. Qed.

Lemma py_iter_sequence : forall c l, sequence c l -> py_iter c = Ok l.
Proof. intros c l [-> | ->]; reflexivity. Qed.

Lemma read_tuple : forall {A} (P : pyval -> A -> Prop) d k r, pair_setting P d k r ->
  exists v, bind (dict_item d k) py_tuple = Ok v /\ pair_of P v r.
Proof.
  intros A P d k [r1 r2] (v & x & y & G & S & X & Y). exists (PTuple [x; y]).
  rewrite (proj2 (dict_item_ok d k v) G). cbn [bind]. rewrite (py_tuple_sequence _ _ S). split; [reflexivity|].
  constructor; assumption.
Qed.

Lemma read_tuples : forall d k l, ranges_setting d k l -> exists v, bind (dict_item d k) tuples = Ok v /\ list_of (pair_of finite) v l.
Proof.
  intros d k l (v & vs & G & S & F).
  assert (M : exists us, mapM py_tuple vs = Ok us /\ Forall2 (pair_of finite) us l).
  { clear G S. induction F as [|c [r1 r2] vs l (x & y & S & X & Y) _ (us & E & F)].
    - exists []. split; [reflexivity | constructor].
    - exists (PTuple [x; y] :: us). cbn [mapM]. rewrite (py_tuple_sequence _ _ S), E. split; [reflexivity|].
      constructor; [constructor; assumption | exact F]. }
  destruct M as (us & E & F'). exists (PList us). rewrite (proj2 (dict_item_ok d k v) G). cbn [bind].
  unfold tuples. rewrite (py_iter_sequence _ _ S). cbn [bind]. rewrite E. split; [reflexivity | constructor; exact F'].
Qed.

Lemma read_item : forall d k q, finite_setting d k q -> exists v, dict_item d k = Ok v /\ finite v q.
Proof. intros d k q (v & G & F). exists v. split; [apply dict_item_ok; exact G | exact F]. Qed.

Lemma pair_typed : forall v r, pair_of finite v r -> pair_of number v (Num (fst r), Num (snd r)).
Proof. intros v r H. inversion H; subst. constructor; assumption. Qed.

Lemma list_typed : forall v l, list_of (pair_of finite) v l -> list_of (pair_of number) v (map (fun r => (Num (fst r), Num (snd r))) l).
Proof.
  intros v l H. inversion H as [us l' F]; subst. constructor. clear H. induction F; cbn [map]; constructor; [|assumption].
  apply pair_typed. assumption.
Qed.

Lemma pair_untyped : forall v r, pair_of number v (Num (fst r), Num (snd r)) -> pair_of finite v r.
Proof. intros v [x y] H. inversion H; subst. constructor; assumption. Qed.

Lemma list_untyped : forall v l, list_of (pair_of number) v (map (fun r => (Num (fst r), Num (snd r))) l) -> list_of (pair_of finite) v l.
Proof.
  intros v l H. inversion H as [us l' F]; subst. constructor. clear H. revert us F. induction l as [|r l IH]; intros us F; inversion F; subst; constructor.
  - apply pair_untyped. assumption.
  - apply IH. assumption.
Qed.

Lemma spec_read : forall w d sch a, asked w d sch a -> exists gs, spec_of_config d = make_spec gs /\ denotes gs (typed a).
Proof.
  intros w d sch a AS. unfold spec_of_config.
  destruct (as_batch _ _ _ _ AS) as (vb & Gb & Ib & _).
  destruct (read_tuple _ _ _ _ (as_image _ _ _ _ AS)) as (v1 & E1 & R1).
  destruct (read_tuple _ _ _ _ (as_off _ _ _ _ AS)) as (v2 & E2 & R2).
  destruct (read_tuple _ _ _ _ (as_density _ _ _ _ AS)) as (v3 & E3 & R3).
  destruct (read_item _ _ _ (as_hide1 _ _ _ _ AS)) as (v4 & E4 & R4).
  destruct (read_item _ _ _ (as_hide2 _ _ _ _ AS)) as (v5 & E5 & R5).
  destruct (read_tuples _ _ _ (as_diameters _ _ _ _ AS)) as (v6 & E6 & R6).
  destruct (read_item _ _ _ (as_diameter_var _ _ _ _ AS)) as (v7 & E7 & R7).
  destruct (read_tuples _ _ _ (as_intensities _ _ _ _ AS)) as (v8 & E8 & R8).
  destruct (read_item _ _ _ (as_intensity_var _ _ _ _ AS)) as (v9 & E9 & R9).
  destruct (read_tuples _ _ _ (as_rhos _ _ _ _ AS)) as (v10 & E10 & R10).
  destruct (read_item _ _ _ (as_rho_var _ _ _ _ AS)) as (v11 & E11 & R11).
  destruct (read_item _ _ _ (as_dt _ _ _ _ AS)) as (v12 & E12 & R12).
  destruct (read_item _ _ _ (as_noise_uniform _ _ _ _ AS)) as (v13 & E13 & R13).
  destruct (read_item _ _ _ (as_noise_mean _ _ _ _ AS)) as (v14 & E14 & R14).
  destruct (read_item _ _ _ (as_noise_std _ _ _ _ AS)) as (v15 & E15 & R15).
  rewrite (proj2 (dict_item_ok d "batch_size" vb) Gb), E1, E2, E3, E4, E5, E6, E7, E8, E9, E10, E11, E12, E13, E14, E15. cbn [bind].
  eexists. split; [reflexivity|]. constructor; cbn; try assumption; try (apply pair_typed; assumption); apply list_typed; assumption.
Qed.

(** ** Mask, histogram, devices *)

Lemma binary_iff : forall m, binary m = true <-> Forall (fun x => x == 0 \/ x == 1)%Q (data m).
Proof.
  intros m. unfold binary. rewrite forallb_forall, Forall_forall. split; intros H x I; specialize (H x I).
  - apply orb_true_iff in H. rewrite !Qeq_bool_iff in H. exact H.
  - apply orb_true_iff. rewrite !Qeq_bool_iff. exact H.
Qed.

Lemma array_read : forall w d k ok m, array_setting w d k m ->
  array_file w (dict_get d k PNone) ok =
  match m with Some x => if ok x then Ok (Some x) else Err ValueError | None => Ok None end.
Proof.
  intros w d k ok [x|] H; cbn [array_setting] in H; rewrite dict_get_given.
  - destruct H as (p & G & F & L). rewrite G. cbn [array_file]. rewrite F, L. reflexivity.
  - destruct H as [G | [G _]]; rewrite G; reflexivity.
Qed.

Lemma devices_read : forall n l r, chosen n l r -> devices_from n l = Ok r.
Proof.
  intros n l r H. induction H as [|v l i r (z & I & L & D) _ IH|v l r a N LE _ IH|l r _ IH]; [reflexivity| | |]; cbn [devices_from].
  - assert (E : py_lt v (PInt (Z.of_nat n)) = Ok true).
    { assert (NV : num_of v = Some (Fin (inject_Z z))) by (inversion I; reflexivity).
      unfold py_lt, py_cmp. rewrite NV. cbn [num_of num_ltb]. f_equal. apply negb_true_iff, not_true_iff_false.
      rewrite Qle_bool_iff, <- Zle_Qle. lia. }
    rewrite E. cbn [bind]. unfold device. rewrite (proj2 (int_of_integer v z) I).
    destruct D as [[D1 D2] | [D1 D2]].
    + rewrite (proj2 (Z.leb_le 0 z) D1). cbn [bind]. rewrite IH. cbn [bind]. do 2 f_equal. lia.
    + rewrite (proj2 (Z.leb_gt 0 z) D1). rewrite (proj2 (Z.leb_le 0 (z + Z.of_nat n))) by lia. cbn [bind]. rewrite IH. cbn [bind].
      do 2 f_equal. lia.
  - assert (E : py_lt v (PInt (Z.of_nat n)) = Ok false).
    { destruct (number_is_num _ _ N) as (x & NV & X). apply is_num_of in NV. unfold py_lt, py_cmp. rewrite NV. cbn [num_of].
      f_equal. destruct x as [|[]|q]; cbn in X; try discriminate X; injection X as <-; cbn in LE; try contradiction; [reflexivity|].
      cbn [num_ltb]. apply negb_false_iff, Qle_bool_iff. exact LE. }
    rewrite E. cbn [bind]. exact IH.
  - exact IH.
Qed.

Lemma select_read : forall d n r, device_settings d n r -> select_devices n (dict_get d "device_ids" PNone) = Ok r.
Proof.
  intros d n r [[S ->] | (v & l & G & S & C & NE)]; rewrite dict_get_given.
  - destruct S as [S | [S _]]; rewrite S; reflexivity.
  - rewrite G. assert (E : select_devices n v = bind (py_iter v) (fun l => bind (devices_from n l) (fun r => match r with [] => Err ValueError | _ => Ok r end))).
    { destruct S as [-> | ->]; reflexivity. }
    rewrite E, (py_iter_sequence _ _ S). cbn [bind]. rewrite (devices_read _ _ _ C). cbn [bind]. destruct r; [contradiction | reflexivity].
Qed.

(** ** The geometry *)

Lemma roomy_iff : forall off image size res dt vmax vmin,
  roomy off image size res dt vmax vmin <->
  (0 <= off - max0 exact vmax * dt /\
   image / res + max0 exact vmax * dt - min0 exact vmin * dt + (off - max0 exact vmax * dt) <= size)%Q.
Proof.
  intros off image size res dt vmax vmin. unfold roomy.
  assert (E1 : (Qmax 0 vmax == max0 exact vmax)%Q).
  { destruct (max0_cases vmax) as [[H ->] | [H ->]]; [apply Q.max_r | apply Q.max_l]; exact H. }
  assert (E2 : (Qmax 0 (- vmin) == - min0 exact vmin)%Q).
  { destruct (min0_cases vmin) as [[H ->] | [H ->]]; [apply Q.max_r; lra|]. rewrite Q.max_l by lra. reflexivity. }
  rewrite E1, E2. generalize (max0 exact vmax) (min0 exact vmin) (image / res)%Q. intros A B L. cbn [carrier exact] in A, B. split; intros [H1 H2]; split; lra.
Qed.

Section Construct.
Variable c : gcfg exact.
Hypotheses (SZ : (0 < fst (g_ffsize c) /\ 0 < snd (g_ffsize c))%Q) (SH : (0 < fst (g_ffshape c) /\ 0 < snd (g_ffshape c))%Z).
Hypotheses (RS : (0 < g_res c /\ 0 < g_vpp c)%Q) (SP : (fst (g_min c) <= fst (g_max c) /\ snd (g_min c) <= snd (g_max c))%Q).

Lemma construct_verdict :
  verdict (roomy (fst (g_off c)) (inject_Z (fst (g_image c))) (fst (g_ffsize c)) (g_res c) (g_dt c) (fst (g_max c)) (fst (g_min c)) /\
           roomy (snd (g_off c)) (inject_Z (snd (g_image c))) (snd (g_ffsize c)) (g_res c) (g_dt c) (snd (g_max c)) (snd (g_min c)))
    (construct exact c).
Proof.
  unfold construct.
  destruct SZ as [S1 S2]. destruct SH as [F1 F2]. destruct RS as [R V]. destruct SP as [PY PX].
  assert (Z0 : n_ofZ exact 0 = 0%Q) by reflexivity. rewrite !Z0.
  rewrite (proj2 (ltbQ 0%Q (fst (g_ffsize c))) S1), (proj2 (ltbQ 0%Q (snd (g_ffsize c))) S2). cbn [andb negb].
  rewrite (proj2 (Z.ltb_lt 0 (fst (g_ffshape c))) F1), (proj2 (Z.ltb_lt 0 (snd (g_ffshape c))) F2). cbn [andb negb].
  rewrite (proj2 (ltbQ 0%Q (g_res c)) R), (proj2 (ltbQ 0%Q (g_vpp c)) V). cbn [andb negb].
  unfold int, ceil. cbn [exact n_trunc n_ceil]. cbn [bind].
  rewrite (proj2 (ltbQ_false (snd (g_max c)) (snd (g_min c))) PX), (proj2 (ltbQ_false (fst (g_max c)) (fst (g_min c))) PY).
  eapply verdict_ext; [symmetry; rewrite !roomy_iff; reflexivity|].
  destruct (orb _ _) eqn:E1.
  { right. split; [|reflexivity]. intros [[A _] [B _]]. apply orb_true_iff in E1.
    destruct E1 as [E1 | E1]; apply ltbQ in E1; cbn [exact n_sub n_mul] in E1; lra. }
  apply orb_false_iff in E1. destruct E1 as [P1 P2]. apply ltbQ_false in P1, P2. cbn [exact n_sub n_mul] in P1, P2.
  destruct (orb _ _) eqn:E1.
  { right. split; [|reflexivity]. intros [[_ A] [_ B]]. apply orb_true_iff in E1.
    destruct E1 as [E1 | E1]; apply ltbQ in E1; cbn [exact n_sub n_mul n_add n_div n_ofZ] in E1; lra. }
  apply orb_false_iff in E1. destruct E1 as [Q1 Q2]. apply ltbQ_false in Q1, Q2. cbn [exact n_sub n_mul n_add n_div n_ofZ] in Q1, Q2.
  left. split; [|eexists; reflexivity]. repeat split; assumption.
Qed.
End Construct.

(** ** The constructor *)

Lemma positive_iff : forall v, positive_number v = true <-> exists e, number v e /\ lt (Num 0) e.
Proof.
  intros v. unfold positive_number. split.
  - destruct (num_of v) as [x|] eqn:E; [|discriminate]. intros H.
    destruct (proj1 (num_ltb_lt (Fin 0) x) H) as (e0 & e & E0 & Ee & L). cbn in E0. injection E0 as <-.
    exists e. split; [|exact L]. apply number_num. exists x. auto.
  - intros (e & N & L). destruct (number_is_num _ _ N) as (x & X & Ex). apply is_num_of in X. rewrite X.
    apply (to_ext_lt (Fin 0) x (Num 0) e); [reflexivity | exact Ex | exact L].
Qed.

Lemma not_le_zero_verdict : forall v q, finite v q -> verdict (0 < q)%Q (not_le_zero v).
Proof.
  intros v q F. unfold not_le_zero. rewrite (finite_num _ _ F). cbn [num_leb]. destruct (Qle_bool q 0) eqn:E.
  - right. apply Qle_bool_iff in E. split; [lra | reflexivity].
  - left. split; [|eexists; reflexivity]. apply Qnot_le_lt. rewrite <- Qle_bool_iff. congruence.
Qed.

Section Constructor.
Variables (w : world) (d : list (string * pyval)) (sch : scheduler) (a : syn_args).
Hypotheses (WD : 0 < w_devices w) (AS : asked (exact_world w) d sch a).

Definition mask_fits (mask : option arr) : Prop :=
  match mask with
  | Some m => map Z.of_nat (shape m) = [fst (sp_image (a_spec a)); snd (sp_image (a_spec a))]
  | None => True
  end.
Definition hist_fits (hist : option arr) : Prop :=
  match hist with
  | Some h => shape h = [256] /\
    let n := inject_Z (fst (sp_image (a_spec a)) * snd (sp_image (a_spec a))) in
    (Qabs (fold_right Qplus 0 (data h) - n) <= (1 # 100000000) + (1 # 100000) * Qabs n)%Q
  | None => True
  end.
Definition sizes_fit : Prop := exists v l, given "flow_field_size" d = Some v /\ sequence v l /\
    Forall (fun x => exists e, number x e /\ lt (Num 0) e) l.
Definition shape_fits : Prop :=
  exists fy fx fc, flow_shape (exact_world w) sch = Ok [fy; fx; fc] /\ 0 < fy /\ 0 < fx /\ (fc = 2 \/ fc = 3).
Definition rooms : Prop :=
  roomy (fst (a_off a)) (inject_Z (fst (sp_image (a_spec a)))) (fst (a_ffsize a)) (a_res a) (sp_dt (a_spec a)) (fst (a_max a)) (fst (a_min a)) /\
  roomy (snd (a_off a)) (inject_Z (snd (sp_image (a_spec a)))) (snd (a_ffsize a)) (a_res a) (sp_dt (a_spec a)) (snd (a_max a)) (snd (a_min a)).

Lemma constructor_verdict : forall gs mask hist, denotes gs (typed a) -> documented (typed a) ->
  verdict (mask_fits mask /\ hist_fits hist /\ a_F a <= sp_batch (a_spec a) /\ sizes_fit /\ shape_fits /\
           (0 < a_res a)%Q /\ (0 < a_vpp a)%Q /\ (0 <= a_seed a)%Z /\ (snd (a_min a) <= snd (a_max a))%Q /\
           (fst (a_min a) <= fst (a_max a))%Q /\ rooms /\ True)
    (synthetic_constructor (exact_world w) d gs sch mask hist).
Proof.
  intros gs mask hist DN DC. unfold synthetic_constructor.
  destruct (as_repeat _ _ _ _ AS) as (v_bpf & G1 & I1 & P1). destruct (as_flows _ _ _ _ AS) as (v_F & G2 & I2 & P2).
  destruct (as_size _ _ _ _ AS) as (v_ff & sy & sx & rest & G3 & SQ & FY & FX).
  destruct (as_res _ _ _ _ AS) as (v_res & G4 & F4). destruct (as_vpp _ _ _ _ AS) as (v_vpp & G5 & F5).
  destruct (as_seed _ _ _ _ AS) as (v_seed & G6 & F6).
  destruct (as_max _ _ _ _ AS) as [(v_maxy & G8 & F8) (v_maxx & G7 & F7)].
  destruct (as_min _ _ _ _ AS) as [(v_miny & G10 & F10) (v_minx & G9 & F9)].
  pose proof (as_units _ _ _ _ AS) as G11.
  rewrite (proj2 (dict_item_ok d _ _) G1), (proj2 (dict_item_ok d _ _) G2), (proj2 (dict_item_ok d _ _) G3),
    (proj2 (dict_item_ok d _ _) G4), (proj2 (dict_item_ok d _ _) G5), (proj2 (dict_item_ok d _ _) G6), (proj2 (dict_item_ok d _ _) G7),
    (proj2 (dict_item_ok d _ _) G8), (proj2 (dict_item_ok d _ _) G9), (proj2 (dict_item_ok d _ _) G10), (proj2 (dict_item_ok d _ _) G11).
  cbn [bind]. rewrite (py_iter_sequence _ _ SQ). cbn [bind].
  rewrite (integer_pair_ints _ _ (n_shape _ _ DN)).
  change (t_shape (typed a)) with (sp_image (a_spec a)). rewrite (surjective_pairing (sp_image (a_spec a))). cbv beta iota zeta.
  destruct (as_batch _ _ _ _ AS) as (vB & _ & _ & PB).
  rewrite (proj2 (pos_int_ok _ _) (conj (n_batch _ _ DN : integer _ (Z.of_nat (sp_batch (a_spec a)))) PB)). cbn [bind].
  assert (VM : forall {A} Q (r : unit -> result A), verdict Q (r tt) -> verdict (mask_fits mask /\ Q)
     (bind match mask with
        | None => Ok tt
        | Some m => check (if list_eq_dec Z.eq_dec (map Z.of_nat (shape m)) [fst (sp_image (a_spec a)); snd (sp_image (a_spec a))] then true else false)
        end r)).
  { intros A Q r V. destruct mask as [m|]; cbn [mask_fits].
    - apply verdict_check; [|intros _; exact V]. destruct (list_eq_dec _ _ _); split; congruence.
    - apply (verdict_ext Q); [tauto | exact V]. }
  apply VM. clear VM.
  assert (VH : forall {A} Q (r : unit -> result A), verdict Q (r tt) -> verdict (hist_fits hist /\ Q)
     (bind match hist with
        | None => Ok tt
        | Some h => check ((if list_eq_dec Nat.eq_dec (shape h) [256] then true else false)
                           && Make.isclose (qsum (data h)) (inject_Z (fst (sp_image (a_spec a)) * snd (sp_image (a_spec a)))))
        end r)).
  { intros A Q r V. destruct hist as [h|]; cbn [hist_fits].
    - apply verdict_check; [|intros _; exact V]. rewrite andb_true_iff. unfold Make.isclose. rewrite Qle_bool_iff.
      destruct (list_eq_dec _ _ _); split; intros [X Y]; split; try exact Y; try assumption; congruence.
    - apply (verdict_ext Q); [tauto | exact V]. }
  apply VH. clear VH.
  destruct (as_devices _ _ _ _ AS) as (dl & DS & ED). change (w_devices (exact_world w)) with (w_devices w) in *.
  rewrite (select_read _ _ _ DS). cbn [bind].
  rewrite (proj2 (pos_int_ok _ _) (conj I1 P1)). cbn [bind]. rewrite (proj2 (pos_int_ok _ _) (conj I2 P2)). cbn [bind].
  apply verdict_check; [apply Nat.leb_le|]. intros FB.
  apply verdict_check.
  { rewrite forallb_forall. unfold sizes_fit. split.
    - intros H. exists v_ff, (sy :: sx :: rest). split; [exact G3|]. split; [exact SQ|]. apply Forall_forall. intros x X. apply positive_iff, H, X.
    - intros (v & l & G & S & F) x X. rewrite G3 in G. injection G as <-. rewrite (sequence_fun _ _ _ SQ S) in X.
      rewrite Forall_forall in F. apply positive_iff, F, X. }
  intros SZ.
  destruct (as_shape _ _ _ _ AS) as (fy & fx & fc & FS & EFS). rewrite FS. cbn [bind].
  apply verdict_check.
  { unfold shape_fits. rewrite !andb_true_iff, orb_true_iff, !Nat.eqb_eq, !Nat.ltb_lt. split.
    - intros [[H1 H2] H3]. exists fy, fx, fc. auto.
    - intros (y & x & c & E & H). rewrite FS in E. injection E as <- <- <-. tauto. }
  intros SF.
  apply verdict_bind; [apply not_le_zero_verdict, F4|]. intros res RP ER. apply not_le_zero_ok in ER. rewrite (finite_num _ _ F4) in ER. injection ER as <-.
  apply verdict_bind; [apply not_le_zero_verdict, F5|]. intros vpp VP EV. apply not_le_zero_ok in EV. rewrite (finite_num _ _ F5) in EV. injection EV as <-.
  assert (U : String.eqb (py_str (PStr (if a_pixels a then "pixels" else "measure units per second"))) "pixels"
     || String.eqb (py_str (PStr (if a_pixels a then "pixels" else "measure units per second"))) "measure units per second" = true)
    by (destruct (a_pixels a); reflexivity).
  rewrite U. cbn [check bind]. clear U.
  rewrite (proj2 (int_of_integer _ _) F6).
  apply verdict_bind.
  { destruct (Z.leb_spec 0 (a_seed a)); [left | right]; (split; [lia|]); [eexists|]; reflexivity. }
  intros seed _ _.
  unfold a_number. rewrite (finite_num _ _ F7), (finite_num _ _ F8), (finite_num _ _ F9), (finite_num _ _ F10). cbn [bind].
  apply verdict_check; [cbn [num_ltb]; rewrite negb_involutive; apply Qle_bool_iff|]. intros PX.
  apply verdict_check; [cbn [num_ltb]; rewrite negb_involutive; apply Qle_bool_iff|]. intros PY.
  assert (SY : (0 < fst (a_ffsize a) /\ 0 < snd (a_ffsize a))%Q).
  { destruct SZ as (v & l & G & S & F). rewrite G3 in G. injection G as <-. rewrite <- (sequence_fun _ _ _ SQ S) in F.
    inversion F as [|? ? (e1 & N1 & L1) F']; subst. inversion F' as [|? ? (e2 & N2 & L2) _]; subst.
    rewrite <- (number_fun _ _ _ FY N1) in L1. rewrite <- (number_fun _ _ _ FX N2) in L2. split; apply Qnot_le_lt; [apply L1 | apply L2]. }
  change (w_num (exact_world w)) with exact.
  match goal with |- verdict _ (bind (construct exact ?c) _) => assert (EG : c = geometry_args a) end.
  { rewrite (finite_the_num _ _ FY), (finite_the_num _ _ FX).
    rewrite (finite_the_num _ _ (n_dt _ _ DN : finite _ (sp_dt (a_spec a)))), (finite_the_num _ _ (n_hide1 _ _ DN : finite _ (sp_hide1 (a_spec a)))),
      (finite_the_num _ _ (n_hide2 _ _ DN : finite _ (sp_hide2 (a_spec a)))).
    rewrite (finite_pair_nums _ _ (pair_untyped _ _ (n_offset _ _ DN))), (finite_pair_nums _ _ (pair_untyped _ _ (n_density _ _ DN))).
    pose proof (list_untyped _ _ (n_diameters _ _ DN)) as RR. inversion RR as [vs l RL EV EL]. subst l.
    rewrite (upper_ends_finite _ _ RL), num_max_finite. cbn [fst snd]. rewrite eqb_two.
    unfold geometry_args. rewrite EFS. rewrite (surjective_pairing (sp_image (a_spec a))) at 3.
    rewrite (surjective_pairing (a_off a)), (surjective_pairing (a_ffsize a)), (surjective_pairing (a_max a)), (surjective_pairing (a_min a)).
    reflexivity. }
  assert (DT : (0 <= sp_dt (a_spec a))%Q) by (destruct (d_dt _ DC) as [L _]; exact L).
  assert (SHP : (0 < fst (a_ffshape a) /\ 0 < snd (a_ffshape a))%Z).
  { rewrite EFS. cbn [fst snd]. destruct SF as (y & x & c & E & H1 & H2 & _). rewrite FS in E. injection E as <- <- _. lia. }
  apply verdict_bind.
  - rewrite EG. apply (construct_verdict (geometry_args a)); cbn [geometry_args g_ffsize g_ffshape g_res g_vpp g_max g_min]; auto.
  - intros g _ Hg. rewrite EG in Hg.
    apply (verdict_ext (True /\ True)); [tauto|].
    apply verdict_bind; [|intros gs' _ _; apply verdict_last].
    assert (OFF : (0 <= fst (o_off g) /\ 0 <= snd (o_off g))%Z).
    { destruct (accepted_axis _ _ Hg true) as (e1 & A1). destruct (accepted_axis _ _ Hg false) as (e2 & A2).
      destruct (d_shape _ DC) as [I3 I4]. change (t_shape (typed a)) with (sp_image (a_spec a)) in I3, I4. split.
      - apply (axis_crop true (geometry_args a) g e1 A1 DT). apply Z.lt_le_incl, I3.
      - apply (axis_crop false (geometry_args a) g e2 A2 DT). apply Z.lt_le_incl, I4. }
    assert (NB : 0 < round_batch (sp_batch (a_spec a)) (List.length dl) / List.length dl).
    { assert (ND : 0 < List.length dl).
      { destruct DS as [[_ ->] | (? & ? & _ & _ & _ & NE)]; [rewrite seq_length; exact WD|]. destruct dl; [contradiction | cbn; lia]. }
      destruct (round_batch_ok (sp_batch (a_spec a)) (List.length dl) ND) as [[LB _] [q Eq]]. rewrite Eq in *.
      rewrite Nat.div_mul by lia. destruct q; [lia|]. lia. }
    unfold update.
    apply (verdict_ext (documented (mkTspec (Z.of_nat (round_batch (sp_batch (a_spec a)) (List.length dl) / List.length dl)) (t_shape (typed a))
      (Num (inject_Z (fst (o_off g))), Num (inject_Z (snd (o_off g)))) (t_density (typed a)) (t_hide1 (typed a)) (t_hide2 (typed a))
      (t_diameters (typed a)) (t_diameter_var (typed a)) (t_intensities (typed a)) (t_intensity_var (typed a)) (t_rhos (typed a))
      (t_rho_var (typed a)) (t_dt (typed a)) (t_noise_uniform (typed a)) (t_noise_mean (typed a)) (t_noise_std (typed a))))).
    + split; [intros _; exact I|]. intros _. destruct DC. constructor; cbn [t_batch t_shape t_offset t_density t_hide1 t_hide2 t_diameters
        t_diameter_var t_intensities t_intensity_var t_rhos t_rho_var t_dt t_noise_uniform t_noise_mean t_noise_std]; try assumption; [lia|].
      cbn [fst snd non_negative le]. unfold non_negative, le. change 0%Q with (inject_Z 0). rewrite <- !Zle_Qle. exact OFF.
    + apply make_spec_verdict. destruct DN. constructor; cbn [update_fields dict_get i_batch_size i_image_shape i_img_offset i_seeding_density_range
        i_p_hide_img1 i_p_hide_img2 i_diameter_ranges i_diameter_var i_intensity_ranges i_intensity_var i_rho_ranges i_rho_var i_dt i_noise_uniform
        i_noise_gaussian_mean i_noise_gaussian_std t_batch t_shape t_offset t_density t_hide1 t_hide2 t_diameters
        t_diameter_var t_intensities t_intensity_var t_rhos t_rho_var t_dt t_noise_uniform t_noise_mean t_noise_std]; try assumption;
        cbn; repeat constructor.
Qed.

(** ** From the configuration *)

Lemma from_config_verdict : verdict (fits (exact_world w) d sch a) (synthetic_from_config (exact_world w) d sch).
Proof.
  unfold synthetic_from_config.
  destruct (as_mask _ _ _ _ AS) as (mask & HM & _). destruct (as_hist _ _ _ _ AS) as (hist & HH & _ & _).
  rewrite (array_read _ _ _ _ _ HM), (array_read _ _ _ _ _ HH).
  destruct (spec_read _ _ _ _ AS) as (gs & ES & DN). rewrite ES.
  apply (verdict_ext (match mask with Some m => Forall (fun x => x == 0 \/ x == 1)%Q (data m) | None => True end /\ True /\
    documented (typed a) /\ (mask_fits mask /\ hist_fits hist /\ a_F a <= sp_batch (a_spec a) /\ sizes_fit /\ shape_fits /\
           (0 < a_res a)%Q /\ (0 < a_vpp a)%Q /\ (0 <= a_seed a)%Z /\ (snd (a_min a) <= snd (a_max a))%Q /\
           (fst (a_min a) <= fst (a_max a))%Q /\ rooms /\ True))).
  - split.
    + intros (BM & _ & DC & MF & HF & FB & SZ & SF & R & V & SD & PX & PY & [R1 R2] & _). constructor; try assumption; auto.
      * intros m H. rewrite (array_fun _ _ _ _ _ HM H) in *. split; assumption.
      * intros h H. rewrite (array_fun _ _ _ _ _ HH H) in *. exact HF.
    + intros [DC FB SZ SF [R V] SD [PY PX] R1 R2 M H]. split; [|split; [exact I|]; split; [exact DC|]; split; [|split]].
      * destruct mask as [m|]; [exact (proj2 (M m HM)) | exact I].
      * destruct mask as [m|]; [exact (proj1 (M m HM)) | exact I].
      * destruct hist as [h|]; [exact (H h HH) | exact I].
      * exact (conj FB (conj SZ (conj SF (conj R (conj V (conj SD (conj PX (conj PY (conj (conj R1 R2) I))))))))).
  - apply verdict_bind.
    { destruct mask as [m|]; [|apply verdict_last]. destruct (binary m) eqn:E.
      - left. split; [apply binary_iff, E | eexists; reflexivity].
      - right. split; [|reflexivity]. rewrite <- binary_iff. congruence. }
    intros mask' _ EM. assert (mask' = mask) as -> by (destruct mask as [m|]; [destruct (binary m)|]; congruence).
    apply verdict_bind; [destruct hist; apply verdict_last|].
    intros hist' _ EH. assert (hist' = hist) as -> by (destruct hist; congruence).
    apply verdict_bind; [apply make_spec_verdict, DN|].
    intros gs' DC Egs. apply make_spec_is in Egs. subst gs'. apply constructor_verdict; assumption.
Qed.
End Constructor.
