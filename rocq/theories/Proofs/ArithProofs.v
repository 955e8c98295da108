(** What is accepted in any arithmetic (after Proofs/AcceptProofs.v). *)
From Coq Require Import List Arith ZArith QArith Qabs Qminmax String Bool Lia Lqa.
From Verif Require Import Prelude Model.PyVal Model.Types Model.Base Model.Files Model.Loaders Model.Episodic Model.Prefetch Model.Sampler Model.Stack.
From Verif Require Import Model.Interp Model.Apply Model.Render Model.Hist Model.DataGen Model.Geometry Model.Make Model.Synthetic Model.Configured.
From Verif Require Import Spec.SyntheticSpec Spec.TypesSpec Spec.SpecValues Spec.FilesSpec Spec.MakeSpec Spec.ConfiguredSpec Spec.GeometrySpec Spec.AcceptSpec Spec.ArithSpec.
From Verif Require Import Proofs.GeometryProofs Proofs.TypesProofs Proofs.MakeProofs Proofs.SamplerProofs Proofs.ConfiguredProofs Proofs.AcceptProofs.
From Verif Require Import Properties.TypesProps.
Import ListNotations.
Local Open Scope string_scope.
Local Open Scope nat_scope.

(** A computation that succeeds with some [R] value under [P] and raises
    ValueError otherwise. *)
Definition ruling {A} (P : Prop) (R : A -> Prop) (r : result A) : Prop :=
  (P /\ exists x, r = Ok x /\ R x) \/ (~ P /\ r = Err ValueError).

Lemma ruling_ext : forall {A} (P Q : Prop) R (r : result A), (P <-> Q) -> ruling P R r -> ruling Q R r.
Proof. intros A P Q R r E [[H K] | [H K]]; [left | right]; split; tauto. Qed.
Lemma ruling_check : forall {A} (P Q : Prop) R c (r : unit -> result A), (c = true <-> P) -> (P -> ruling Q R (r tt)) ->
  ruling (P /\ Q) R (bind (check c) r).
Proof.
  intros A P Q R c r E V. destruct c; cbn [check bind].
  - assert (HP : P) by (apply E; reflexivity). apply (ruling_ext Q); [tauto | exact (V HP)].
  - right. split; [|reflexivity]. intros [HP _]. apply E in HP. discriminate HP.
Qed.
Lemma ruling_bind : forall {A B} (P Q : Prop) R (r : result A) (f : A -> result B), verdict P r ->
  (forall x, P -> r = Ok x -> ruling Q R (f x)) -> ruling (P /\ Q) R (bind r f).
Proof.
  intros A B P Q R r f [[HP [x E]] | [HP E]] V; rewrite E; cbn [bind].
  - apply (ruling_ext Q); [tauto | exact (V x HP E)].
  - right. tauto.
Qed.

(** The geometry fails with ValueError only. *)
Lemma construct_error : forall N c e, construct N c = Err e -> e = ValueError.
Proof.
  intros N c e. unfold construct, int, ceil.
  repeat match goal with
  | |- (if ?b then _ else _) = _ -> _ => destruct b; [congruence|]
  | |- bind (match ?x with Some _ => _ | None => _ end) _ = _ -> _ => destruct x; cbn [bind]; [|congruence]
  | |- (let _ := _ in _) = _ -> _ => cbv zeta
  end. congruence.
Qed.

Section Constructor.
Variables (w : world) (d : list (string * pyval)) (sch : scheduler) (a : syn_args).
Hypotheses (WD : 0 < w_devices w) (AS : asked w d sch a).

Definition mask_fits (mask : option arr) : Prop :=
  match mask with
  | Some m => map Z.of_nat (shape m) = [fst (sp_image (a_spec a)); snd (sp_image (a_spec a))]
  | None => True
  end.
Definition hist_fits (hist : option arr) : Prop :=
  match hist with
  | Some h => shape h = [256] /\
    let n := inject_Z (fst (sp_image (a_spec a)) * snd (sp_image (a_spec a))) in
    (Qabs (fold_right Qplus 0 (data h) - n) <= (1 # 100000000) + (1 # 100000) * Qabs n)%Q
  | None => True
  end.
Definition sizes_fit : Prop := exists v l, given "flow_field_size" d = Some v /\ sequence v l /\
    Forall (fun x => exists e, number x e /\ lt (Num 0) e) l.
Definition shape_fits : Prop :=
  exists fy fx fc, flow_shape w sch = Ok [fy; fx; fc] /\ 0 < fy /\ 0 < fx /\ (fc = 2 \/ fc = 3).
Definition rooms : Prop := exists g, construct (w_num w) (args_in w a) = Ok g /\ (0 <= fst (o_off g) /\ 0 <= snd (o_off g))%Z.

Definition made (p : Make.synthetic w) : Prop := construct (w_num w) (args_in w a) = Ok (sy_geom p).

Lemma constructor_ruling : forall gs mask hist, denotes gs (typed a) -> documented (typed a) ->
  ruling (mask_fits mask /\ hist_fits hist /\ a_F a <= sp_batch (a_spec a) /\ sizes_fit /\ shape_fits /\
           (0 < a_res a)%Q /\ (0 < a_vpp a)%Q /\ (0 <= a_seed a)%Z /\ (snd (a_min a) <= snd (a_max a))%Q /\
           (fst (a_min a) <= fst (a_max a))%Q /\ rooms /\ True)
    made (synthetic_constructor w d gs sch mask hist).
Proof.
  intros gs mask hist DN DC. unfold synthetic_constructor.
  destruct (as_repeat _ _ _ _ AS) as (v_bpf & G1 & I1 & P1). destruct (as_flows _ _ _ _ AS) as (v_F & G2 & I2 & P2).
  destruct (as_size _ _ _ _ AS) as (v_ff & sy & sx & rest & G3 & SQ & FY & FX).
  destruct (as_res _ _ _ _ AS) as (v_res & G4 & F4). destruct (as_vpp _ _ _ _ AS) as (v_vpp & G5 & F5).
  destruct (as_seed _ _ _ _ AS) as (v_seed & G6 & F6).
  destruct (as_max _ _ _ _ AS) as [(v_maxy & G8 & F8) (v_maxx & G7 & F7)].
  destruct (as_min _ _ _ _ AS) as [(v_miny & G10 & F10) (v_minx & G9 & F9)].
  pose proof (as_units _ _ _ _ AS) as G11.
  rewrite (proj2 (dict_item_ok d _ _) G1), (proj2 (dict_item_ok d _ _) G2), (proj2 (dict_item_ok d _ _) G3),
    (proj2 (dict_item_ok d _ _) G4), (proj2 (dict_item_ok d _ _) G5), (proj2 (dict_item_ok d _ _) G6), (proj2 (dict_item_ok d _ _) G7),
    (proj2 (dict_item_ok d _ _) G8), (proj2 (dict_item_ok d _ _) G9), (proj2 (dict_item_ok d _ _) G10), (proj2 (dict_item_ok d _ _) G11).
  cbn [bind]. rewrite (py_iter_sequence _ _ SQ). cbn [bind].
  rewrite (integer_pair_ints _ _ (n_shape _ _ DN)).
  change (t_shape (typed a)) with (sp_image (a_spec a)). rewrite (surjective_pairing (sp_image (a_spec a))). cbv beta iota zeta.
  destruct (as_batch _ _ _ _ AS) as (vB & _ & _ & PB).
  rewrite (proj2 (pos_int_ok _ _) (conj (n_batch _ _ DN : integer _ (Z.of_nat (sp_batch (a_spec a)))) PB)). cbn [bind].
  assert (VM : forall {A} Q R (r : unit -> result A), ruling Q R (r tt) -> ruling (mask_fits mask /\ Q) R
     (bind match mask with
        | None => Ok tt
        | Some m => check (if list_eq_dec Z.eq_dec (map Z.of_nat (shape m)) [fst (sp_image (a_spec a)); snd (sp_image (a_spec a))] then true else false)
        end r)).
  { intros A Q R r V. destruct mask as [m|]; cbn [mask_fits].
    - apply ruling_check; [|intros _; exact V]. destruct (list_eq_dec _ _ _); split; congruence.
    - apply (ruling_ext Q); [tauto | exact V]. }
  apply VM. clear VM.
  assert (VH : forall {A} Q R (r : unit -> result A), ruling Q R (r tt) -> ruling (hist_fits hist /\ Q) R
     (bind match hist with
        | None => Ok tt
        | Some h => check ((if list_eq_dec Nat.eq_dec (shape h) [256] then true else false)
                           && Make.isclose (qsum (data h)) (inject_Z (fst (sp_image (a_spec a)) * snd (sp_image (a_spec a)))))
        end r)).
  { intros A Q R r V. destruct hist as [h|]; cbn [hist_fits].
    - apply ruling_check; [|intros _; exact V]. rewrite andb_true_iff. unfold Make.isclose. rewrite Qle_bool_iff.
      destruct (list_eq_dec _ _ _); split; intros [X Y]; split; try exact Y; try assumption; congruence.
    - apply (ruling_ext Q); [tauto | exact V]. }
  apply VH. clear VH.
  destruct (as_devices _ _ _ _ AS) as (dl & DS & ED). 
  rewrite (select_read _ _ _ DS). cbn [bind].
  rewrite (proj2 (pos_int_ok _ _) (conj I1 P1)). cbn [bind]. rewrite (proj2 (pos_int_ok _ _) (conj I2 P2)). cbn [bind].
  apply ruling_check; [apply Nat.leb_le|]. intros FB.
  apply ruling_check.
  { rewrite forallb_forall. unfold sizes_fit. split.
    - intros H. exists v_ff, (sy :: sx :: rest). split; [exact G3|]. split; [exact SQ|]. apply Forall_forall. intros x X. apply positive_iff, H, X.
    - intros (v & l & G & S & F) x X. rewrite G3 in G. injection G as <-. rewrite (sequence_fun _ _ _ SQ S) in X.
      rewrite Forall_forall in F. apply positive_iff, F, X. }
  intros SZ.
  destruct (as_shape _ _ _ _ AS) as (fy & fx & fc & FS & EFS). rewrite FS. cbn [bind].
  apply ruling_check.
  { unfold shape_fits. rewrite !andb_true_iff, orb_true_iff, !Nat.eqb_eq, !Nat.ltb_lt. split.
    - intros [[H1 H2] H3]. exists fy, fx, fc. auto.
    - intros (y & x & c & E & H). rewrite FS in E. injection E as <- <- <-. tauto. }
  intros SF.
  apply ruling_bind; [apply not_le_zero_verdict, F4|]. intros res RP ER. apply not_le_zero_ok in ER. rewrite (finite_num _ _ F4) in ER. injection ER as <-.
  apply ruling_bind; [apply not_le_zero_verdict, F5|]. intros vpp VP EV. apply not_le_zero_ok in EV. rewrite (finite_num _ _ F5) in EV. injection EV as <-.
  assert (U : String.eqb (py_str (PStr (if a_pixels a then "pixels" else "measure units per second"))) "pixels"
     || String.eqb (py_str (PStr (if a_pixels a then "pixels" else "measure units per second"))) "measure units per second" = true)
    by (destruct (a_pixels a); reflexivity).
  rewrite U. cbn [check bind]. clear U.
  rewrite (proj2 (int_of_integer _ _) F6).
  apply ruling_bind.
  { destruct (Z.leb_spec 0 (a_seed a)); [left | right]; (split; [lia|]); [eexists|]; reflexivity. }
  intros seed _ _.
  unfold a_number. rewrite (finite_num _ _ F7), (finite_num _ _ F8), (finite_num _ _ F9), (finite_num _ _ F10). cbn [bind].
  apply ruling_check; [cbn [num_ltb]; rewrite negb_involutive; apply Qle_bool_iff|]. intros PX.
  apply ruling_check; [cbn [num_ltb]; rewrite negb_involutive; apply Qle_bool_iff|]. intros PY.
  assert (SY : (0 < fst (a_ffsize a) /\ 0 < snd (a_ffsize a))%Q).
  { destruct SZ as (v & l & G & S & F). rewrite G3 in G. injection G as <-. rewrite <- (sequence_fun _ _ _ SQ S) in F.
    inversion F as [|? ? (e1 & N1 & L1) F']; subst. inversion F' as [|? ? (e2 & N2 & L2) _]; subst.
    rewrite <- (number_fun _ _ _ FY N1) in L1. rewrite <- (number_fun _ _ _ FX N2) in L2. split; apply Qnot_le_lt; [apply L1 | apply L2]. }
    match goal with |- ruling _ _ (bind (construct _ ?c) _) => assert (EG : c = args_in w a) end.
  { rewrite (finite_the_num _ _ FY), (finite_the_num _ _ FX).
    rewrite (finite_the_num _ _ (n_dt _ _ DN : finite _ (sp_dt (a_spec a)))), (finite_the_num _ _ (n_hide1 _ _ DN : finite _ (sp_hide1 (a_spec a)))),
      (finite_the_num _ _ (n_hide2 _ _ DN : finite _ (sp_hide2 (a_spec a)))).
    rewrite (finite_pair_nums _ _ (pair_untyped _ _ (n_offset _ _ DN))), (finite_pair_nums _ _ (pair_untyped _ _ (n_density _ _ DN))).
    pose proof (list_untyped _ _ (n_diameters _ _ DN)) as RR. inversion RR as [vs l RL EV EL]. subst l.
    rewrite (upper_ends_finite _ _ RL), num_max_finite. cbn [fst snd]. rewrite eqb_two.
    unfold args_in, geometry_args, conv2. cbn [g_image g_off g_dt g_ffsize g_ffshape g_res g_vpp g_maxd g_max g_min g_hide fst snd]. rewrite EFS. rewrite (surjective_pairing (sp_image (a_spec a))) at 3.
    rewrite (surjective_pairing (a_off a)), (surjective_pairing (a_ffsize a)), (surjective_pairing (a_max a)), (surjective_pairing (a_min a)).
    reflexivity. }
  rewrite EG. clear EG.
  assert (NB : 0 < round_batch (sp_batch (a_spec a)) (List.length dl) / List.length dl).
  { assert (ND : 0 < List.length dl).
    { destruct DS as [[_ ->] | (? & ? & _ & _ & _ & NE)]; [rewrite seq_length; exact WD|]. destruct dl; [contradiction | cbn; lia]. }
    destruct (round_batch_ok (sp_batch (a_spec a)) (List.length dl) ND) as [[LB _] [q Eq]]. rewrite Eq in *.
    rewrite Nat.div_mul by lia. destruct q; [lia|]. lia. }
  destruct (construct (w_num w) (args_in w a)) as [g|e] eqn:CG; cbn [bind].
  2: { right. split; [|f_equal; exact (construct_error _ _ _ CG)]. intros [(g & Z & _) _]. congruence. }
  unfold update.
  match goal with |- ruling _ _ (bind (make_spec ?s) _) => assert (V : verdict (0 <= fst (o_off g) /\ 0 <= snd (o_off g))%Z (make_spec s)) end.
  { apply (verdict_ext (documented (mkTspec (Z.of_nat (round_batch (sp_batch (a_spec a)) (List.length dl) / List.length dl)) (t_shape (typed a))
      (Num (inject_Z (fst (o_off g))), Num (inject_Z (snd (o_off g)))) (t_density (typed a)) (t_hide1 (typed a)) (t_hide2 (typed a))
      (t_diameters (typed a)) (t_diameter_var (typed a)) (t_intensities (typed a)) (t_intensity_var (typed a)) (t_rhos (typed a))
      (t_rho_var (typed a)) (t_dt (typed a)) (t_noise_uniform (typed a)) (t_noise_mean (typed a)) (t_noise_std (typed a))))).
    - split.
      + intros [_ _ O]. clear - O. cbn [t_offset fst snd] in O. unfold non_negative, le in O. change 0%Q with (inject_Z 0) in O.
        rewrite <- !Zle_Qle in O. exact O.
      + intros OFF. destruct DC. constructor; cbn [t_batch t_shape t_offset t_density t_hide1 t_hide2 t_diameters
        t_diameter_var t_intensities t_intensity_var t_rhos t_rho_var t_dt t_noise_uniform t_noise_mean t_noise_std]; try assumption; [lia|].
        cbn [fst snd non_negative le]. unfold non_negative, le. change 0%Q with (inject_Z 0). rewrite <- !Zle_Qle. exact OFF.
    - apply make_spec_verdict. destruct DN. constructor; cbn [update_fields dict_get i_batch_size i_image_shape i_img_offset i_seeding_density_range
        i_p_hide_img1 i_p_hide_img2 i_diameter_ranges i_diameter_var i_intensity_ranges i_intensity_var i_rho_ranges i_rho_var i_dt i_noise_uniform
        i_noise_gaussian_mean i_noise_gaussian_std t_batch t_shape t_offset t_density t_hide1 t_hide2 t_diameters
        t_diameter_var t_intensities t_intensity_var t_rhos t_rho_var t_dt t_noise_uniform t_noise_mean t_noise_std]; try assumption;
        cbn; repeat constructor. }
  destruct V as [[OFF [gs' E]] | [NOFF E]]; rewrite E; cbn [bind].
  - left. split; [split; [exists g; split; [exact CG | exact OFF] | exact I]|].
    eexists. split; [reflexivity|]. exact CG.
  - right. split; [|reflexivity]. intros [(g' & Z & OFF) _]. rewrite CG in Z. injection Z as <-. contradiction.
Qed.

(** ** From the configuration *)

Lemma from_config_ruling : ruling (exists g, fits_in w d sch a g) made (synthetic_from_config w d sch).
Proof.
  unfold synthetic_from_config.
  destruct (as_mask _ _ _ _ AS) as (mask & HM & _). destruct (as_hist _ _ _ _ AS) as (hist & HH & _ & _).
  rewrite (array_read _ _ _ _ _ HM), (array_read _ _ _ _ _ HH).
  destruct (spec_read _ _ _ _ AS) as (gs & ES & DN). rewrite ES.
  apply (ruling_ext (match mask with Some m => Forall (fun x => x == 0 \/ x == 1)%Q (data m) | None => True end /\ True /\
    documented (typed a) /\ (mask_fits mask /\ hist_fits hist /\ a_F a <= sp_batch (a_spec a) /\ sizes_fit /\ shape_fits /\
           (0 < a_res a)%Q /\ (0 < a_vpp a)%Q /\ (0 <= a_seed a)%Z /\ (snd (a_min a) <= snd (a_max a))%Q /\
           (fst (a_min a) <= fst (a_max a))%Q /\ rooms /\ True))).
  - split.
    + intros (BM & _ & DC & MF & HF & FB & SZ & SF & R & V & SD & PX & PY & (g & RG) & _). exists g. constructor; try assumption; auto.
      * intros m H. rewrite (array_fun _ _ _ _ _ HM H) in *. split; assumption.
      * intros h H. rewrite (array_fun _ _ _ _ _ HH H) in *. exact HF.
    + intros (g & [DC FB SZ SF [R V] SD [PY PX] M H RG]). split; [|split; [exact I|]; split; [exact DC|]; split; [|split]].
      * destruct mask as [m|]; [exact (proj2 (M m HM)) | exact I].
      * destruct mask as [m|]; [exact (proj1 (M m HM)) | exact I].
      * destruct hist as [h|]; [exact (H h HH) | exact I].
      * exact (conj FB (conj SZ (conj SF (conj R (conj V (conj SD (conj PX (conj PY (conj (ex_intro _ g RG) I))))))))).
  - apply ruling_bind.
    { destruct mask as [m|]; [|apply verdict_last]. destruct (binary m) eqn:E.
      - left. split; [apply binary_iff, E | eexists; reflexivity].
      - right. split; [|reflexivity]. rewrite <- binary_iff. congruence. }
    intros mask' _ EM. assert (mask' = mask) as -> by (destruct mask as [m|]; [destruct (binary m)|]; congruence).
    apply ruling_bind; [destruct hist; apply verdict_last|].
    intros hist' _ EH. assert (hist' = hist) as -> by (destruct hist; congruence).
    apply ruling_bind; [apply make_spec_verdict, DN|].
    intros gs' DC Egs. apply make_spec_is in Egs. subst gs'. apply constructor_ruling; assumption.
Qed.
End Constructor.
