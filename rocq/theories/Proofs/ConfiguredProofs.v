(** The arguments a configuration asks for are those the sampler is built with. *)
From Coq Require Import List Arith ZArith QArith Qabs String Bool Lia Lqa.
From Verif Require Import Prelude Model.PyVal Model.Types Model.Base Model.Files Model.Loaders Model.Episodic Model.Prefetch Model.Sampler Model.Stack.
From Verif Require Import Model.Interp Model.Apply Model.Render Model.Hist Model.DataGen Model.Geometry Model.Make Model.Synthetic Model.Configured.
From Verif Require Import Spec.SyntheticSpec Spec.TypesSpec Spec.SpecValues Spec.FilesSpec Spec.MakeSpec Spec.ConfiguredSpec.
From Verif Require Import Proofs.MakeProofs Proofs.SamplerProofs.
Import ListNotations.
Local Open Scope string_scope.
Local Open Scope nat_scope.

(** ** Reading finite values *)

Lemma finite_num : forall v q, finite v q -> num_of v = Some (Fin q).
Proof. intros v q H. inversion H; reflexivity. Qed.

Lemma finite_the_num : forall v q, finite v q -> the_num v = Fin q.
Proof. intros v q H. unfold the_num. rewrite (finite_num _ _ H). reflexivity. Qed.

Lemma finite_pair_nums : forall v p, pair_of finite v p -> pair_nums v = (Fin (fst p), Fin (snd p)).
Proof. intros v p H. inversion H. subst. cbn. rewrite (finite_num _ _ H0), (finite_num _ _ H1). reflexivity. Qed.

Lemma integer_pair_ints : forall v p, pair_of integer v p -> pair_ints v = p.
Proof.
  intros v p H. inversion H. subst. cbn. apply int_of_integer in H0, H1. rewrite H0, H1. reflexivity.
Qed.

Lemma upper_ends_finite : forall vs l, Forall2 (pair_of finite) vs l ->
  upper_ends (PList vs) = map (fun r => Fin (snd r)) l.
Proof.
  intros vs l H. induction H as [|v r vs l P _ IH]; [reflexivity|]. inversion P. subst. cbn [upper_ends flat_map map] in *.
  rewrite (finite_num _ _ H0), IH. reflexivity.
Qed.

Lemma num_max_finite : forall l, num_max (map (fun r : Q * Q => Fin (snd r)) l) = Fin (max_snd l).
Proof.
  intros [|r l]; [reflexivity|]. cbn [map num_max max_snd]. generalize (snd r). induction l as [|e l IH]; intros m; [reflexivity|].
  cbn [map fold_left]. rewrite <- IH. f_equal. cbn [num_ltb]. destruct (Qle_bool (snd e) m); reflexivity.
Qed.

Lemma eqb_two : forall p q, num_eqb (Fin p) (Fin q) = Qeq_bool p q.
Proof.
  intros p q. unfold num_eqb. cbn [num_leb]. apply eq_true_iff_eq. rewrite andb_true_iff, !Qle_bool_iff, Qeq_bool_iff. split.
  - intros [A B]. apply Qle_antisym; assumption.
  - intros ->. split; apply Qle_refl.
Qed.

(** ** From the entries to the specification *)

Lemma as_pair_finite : forall {A} (P : pyval -> A -> Prop) c v x y r, as_pair c v -> sequence c [x; y] ->
  P x (fst r) -> P y (snd r) -> pair_of P v r.
Proof.
  intros A P c v x y [r1 r2] (a & b & S1 & ->) S2 H1 H2. cbn [fst snd] in *.
  assert (E : [a; b] = [x; y]) by (destruct S1 as [-> | ->]; destruct S2 as [S2 | S2]; congruence).
  injection E as -> ->. constructor; assumption.
Qed.

Lemma sequence_fun : forall c l l', sequence c l -> sequence c l' -> l = l'.
Proof. intros c l l' [-> | ->] [E | E]; congruence. Qed.

Lemma as_pairs_finite : forall c v cs l, as_pairs c v -> sequence c cs -> Forall2 range_value cs l -> list_of (pair_of finite) v l.
Proof.
  intros c v cs l (cs' & vs & S1 & -> & F) S2 R. rewrite (sequence_fun _ _ _ S1 S2) in F. clear S1 S2 c cs'. constructor.
  revert vs F. induction R as [|c r cs l (x & y & S & X & Y) _ IH]; intros vs F; inversion F; subst; constructor; [|apply IH; assumption].
  eapply as_pair_finite; eassumption.
Qed.

Section Reading.
Variables (w : world) (d : list (string * pyval)) (sch : scheduler) (a : syn_args) (gs : ispec).
Hypothesis (AS : asked w d sch a) (SS : spec_settings d gs).

Lemma entry : forall name v c, field gs name = Some v -> given name d = Some c -> read_field name c v.
Proof. intros name v c F G. destruct (SS name v F) as (c' & G' & R). rewrite G in G'. injection G' as <-. exact R. Qed.

Lemma read_finite : forall name v q, field gs name = Some v -> finite_setting d name q ->
  existsb (String.eqb name) ["image_shape"; "img_offset"; "seeding_density_range"] = false ->
  existsb (String.eqb name) ["diameter_ranges"; "intensity_ranges"; "rho_ranges"] = false -> finite v q.
Proof.
  intros name v q F (c & G & Q) E1 E2. pose proof (entry name v c F G) as R. unfold read_field in R. rewrite E1, E2 in R. subst v. exact Q.
Qed.

Lemma read_pair : forall {A} (P : pyval -> A -> Prop) name v r, field gs name = Some v -> pair_setting P d name r ->
  existsb (String.eqb name) ["image_shape"; "img_offset"; "seeding_density_range"] = true -> pair_of P v r.
Proof.
  intros A P name v r F (c & x & y & G & S & X & Y) E1. pose proof (entry name v c F G) as R. unfold read_field in R. rewrite E1 in R.
  eapply as_pair_finite; eassumption.
Qed.

Lemma read_ranges : forall name v l, field gs name = Some v -> ranges_setting d name l ->
  existsb (String.eqb name) ["image_shape"; "img_offset"; "seeding_density_range"] = false ->
  existsb (String.eqb name) ["diameter_ranges"; "intensity_ranges"; "rho_ranges"] = true -> list_of (pair_of finite) v l.
Proof.
  intros name v l F (c & cs & G & S & L) E1 E2. pose proof (entry name v c F G) as R. unfold read_field in R. rewrite E1, E2 in R.
  eapply as_pairs_finite; eassumption.
Qed.

Lemma read_batch : integer (i_batch_size gs) (Z.of_nat (sp_batch (a_spec a))).
Proof.
  destruct (as_batch _ _ _ _ AS) as (c & G & I & _). pose proof (entry "batch_size" (i_batch_size gs) c eq_refl G) as R. unfold read_field in R.
  cbn [existsb String.eqb Ascii.eqb Bool.eqb orb] in R. rewrite R. exact I.
Qed.
End Reading.

(** The specification the generator is compiled with is the one asked for, with
    the batch size of one device and the offset in pixels. *)
Lemma device_reads : forall w d sch a gs gs' geo b, asked w d sch a -> spec_settings d gs ->
  (forall name v, field gs' name = Some v ->
     if String.eqb name "batch_size" then v = PInt (Z.of_nat b)
     else if String.eqb name "img_offset" then v = PTuple [PInt (fst (o_off geo)); PInt (snd (o_off geo))]
     else field gs name = Some v) ->
  b = per_device a -> reads gs' (device_spec a geo).
Proof.
  intros w d sch a gs gs' geo b AS SS F ->.
  constructor; cbn [device_spec updated_spec sp_batch sp_image sp_offset sp_density sp_hide1 sp_hide2 sp_diameters sp_diameter_var
    sp_intensities sp_intensity_var sp_rhos sp_rho_var sp_dt sp_noise_uniform sp_noise_mean sp_noise_std].
  - pose proof (F "batch_size" _ eq_refl) as E. cbn in E. rewrite E. constructor.
  - pose proof (F "image_shape" _ eq_refl) as E. cbn in E. injection E as <-.
    apply (read_pair d gs SS integer "image_shape" _ _ eq_refl (as_image _ _ _ _ AS)). reflexivity.
  - pose proof (F "img_offset" _ eq_refl) as E. cbn in E. rewrite E. rewrite (surjective_pairing (o_off geo)) at 3. repeat constructor.
  - pose proof (F "seeding_density_range" _ eq_refl) as E. cbn in E. injection E as <-.
    apply (read_pair d gs SS finite "seeding_density_range" _ _ eq_refl (as_density _ _ _ _ AS)). reflexivity.
  - pose proof (F "p_hide_img1" _ eq_refl) as E. cbn in E. injection E as <-.
    apply (read_finite d gs SS "p_hide_img1" _ _ eq_refl (as_hide1 _ _ _ _ AS)); reflexivity.
  - pose proof (F "p_hide_img2" _ eq_refl) as E. cbn in E. injection E as <-.
    apply (read_finite d gs SS "p_hide_img2" _ _ eq_refl (as_hide2 _ _ _ _ AS)); reflexivity.
  - pose proof (F "diameter_ranges" _ eq_refl) as E. cbn in E. injection E as <-.
    apply (read_ranges d gs SS "diameter_ranges" _ _ eq_refl (as_diameters _ _ _ _ AS)); reflexivity.
  - pose proof (F "diameter_var" _ eq_refl) as E. cbn in E. injection E as <-.
    apply (read_finite d gs SS "diameter_var" _ _ eq_refl (as_diameter_var _ _ _ _ AS)); reflexivity.
  - pose proof (F "intensity_ranges" _ eq_refl) as E. cbn in E. injection E as <-.
    apply (read_ranges d gs SS "intensity_ranges" _ _ eq_refl (as_intensities _ _ _ _ AS)); reflexivity.
  - pose proof (F "intensity_var" _ eq_refl) as E. cbn in E. injection E as <-.
    apply (read_finite d gs SS "intensity_var" _ _ eq_refl (as_intensity_var _ _ _ _ AS)); reflexivity.
  - pose proof (F "rho_ranges" _ eq_refl) as E. cbn in E. injection E as <-.
    apply (read_ranges d gs SS "rho_ranges" _ _ eq_refl (as_rhos _ _ _ _ AS)); reflexivity.
  - pose proof (F "rho_var" _ eq_refl) as E. cbn in E. injection E as <-.
    apply (read_finite d gs SS "rho_var" _ _ eq_refl (as_rho_var _ _ _ _ AS)); reflexivity.
  - pose proof (F "dt" _ eq_refl) as E. cbn in E. injection E as <-.
    apply (read_finite d gs SS "dt" _ _ eq_refl (as_dt _ _ _ _ AS)); reflexivity.
  - pose proof (F "noise_uniform" _ eq_refl) as E. cbn in E. injection E as <-.
    apply (read_finite d gs SS "noise_uniform" _ _ eq_refl (as_noise_uniform _ _ _ _ AS)); reflexivity.
  - pose proof (F "noise_gaussian_mean" _ eq_refl) as E. cbn in E. injection E as <-.
    apply (read_finite d gs SS "noise_gaussian_mean" _ _ eq_refl (as_noise_mean _ _ _ _ AS)); reflexivity.
  - pose proof (F "noise_gaussian_std" _ eq_refl) as E. cbn in E. injection E as <-.
    apply (read_finite d gs SS "noise_gaussian_std" _ _ eq_refl (as_noise_std _ _ _ _ AS)); reflexivity.
Qed.

(** The chosen devices are determined by the list. *)
Lemma chosen_fun : forall n l r, chosen n l r -> forall r', chosen n l r' -> r = r'.
Proof.
  assert (K : forall n v i a, device_number n v i -> number v a -> le (Num (inject_Z (Z.of_nat n))) a -> False).
  { intros n v i a (z & I & L & _) N LE. inversion I; subst; inversion N; subst; cbn in LE.
    - rewrite <- Zle_Qle in LE. lia.
    - change 1%Q with (inject_Z 1) in LE. rewrite <- Zle_Qle in LE. lia.
    - change 0%Q with (inject_Z 0) in LE. rewrite <- Zle_Qle in LE. lia. }
  intros n l r H. induction H as [|v l i r D _ IH|v l r a N LE _ IH|l r _ IH]; intros r' H'; inversion H'; subst.
  - reflexivity.
  - f_equal; [|apply IH; assumption]. destruct D as (z & I & _ & D). destruct H1 as (z' & I' & _ & D').
    rewrite (integer_fun _ _ _ I' I) in D'. lia.
  - exfalso. eapply K; eassumption.
  - exfalso. destruct D as (z & I & _). inversion I.
  - exfalso. eapply K; eassumption.
  - apply IH; assumption.
  - exfalso. inversion N.
  - exfalso. destruct H1 as (z & I & _). inversion I.
  - exfalso. inversion H1.
  - apply IH; assumption.
Qed.

Lemma devices_fun : forall d n r r', device_settings d n r -> device_settings d n r' -> r = r'.
Proof.
  intros d n r r' [[S ->] | (v & l & G & S & C & _)] [[S' ->] | (v' & l' & G' & S' & C' & _)].
  - reflexivity.
  - exfalso. destruct S as [S | [S _]]; rewrite S in G'; [injection G' as <-|discriminate]. destruct S'; discriminate.
  - exfalso. destruct S' as [S' | [S' _]]; rewrite S' in G; [injection G as <-|discriminate]. destruct S; discriminate.
  - rewrite G in G'. injection G' as <-. rewrite (sequence_fun _ _ _ S' S) in C'. exact (chosen_fun _ _ _ C _ C').
Qed.

Lemma array_fun : forall w d k m m', array_setting w d k m -> array_setting w d k m' -> m = m'.
Proof.
  intros w d k [x|] [y|]; cbn [array_setting]; intros H H'; try reflexivity.
  - destruct H as (p & G & _ & L). destruct H' as (p' & G' & _ & L'). congruence.
  - destruct H as (p & G & _). destruct H' as [H' | [H' _]]; congruence.
  - destruct H' as (p & G & _). destruct H as [H | [H _]]; congruence.
Qed.

Lemma positive_fun : forall d k m n, positive_setting d k m -> positive_setting d k n -> m = n.
Proof.
  intros d k m n (v & G & I & _) (v' & G' & I' & _). rewrite G in G'. injection G' as <-.
  pose proof (integer_fun _ _ _ I I'). lia.
Qed.

Lemma qsum_left : forall l, (fold_left Qplus l 0 == qsum l)%Q.
Proof.
  assert (G : forall l q, (fold_left Qplus l q == q + qsum l)%Q).
  { induction l as [|x l IH]; intros q; cbn [fold_left qsum fold_right]; [ring|]. rewrite IH. fold (qsum l). ring. }
  intros l. rewrite G. ring.
Qed.

(** ** The geometry *)
Lemma constructor_geometry : forall w d gs sch mask hist p a, asked (exact_world w) d sch a -> spec_settings d gs ->
  synthetic_constructor (exact_world w) d gs sch mask hist = Ok p -> construct exact (geometry_args a) = Ok (sy_geom p).
Proof.
  intros w d gs sch mask hist p a AS SS H. unfold synthetic_constructor in H.
  apply bind_ok in H. destruct H as (v_bpf & G1 & H). apply bind_ok in H. destruct H as (v_F & G2 & H).
  apply bind_ok in H. destruct H as (ffsize & G3 & H). apply bind_ok in G3. destruct G3 as (v_ff & G3 & I3).
  apply bind_ok in H. destruct H as (v_res & G4 & H). apply bind_ok in H. destruct H as (v_vpp & G5 & H).
  apply bind_ok in H. destruct H as (v_seed & G6 & H). apply bind_ok in H. destruct H as (v_maxx & G7 & H).
  apply bind_ok in H. destruct H as (v_maxy & G8 & H). apply bind_ok in H. destruct H as (v_minx & G9 & H).
  apply bind_ok in H. destruct H as (v_miny & G10 & H). apply bind_ok in H. destruct H as (units & G11 & H).
  clear G11. apply dict_item_ok in G1, G2, G3, G4, G5, G6, G7, G8, G9, G10.
  rewrite (integer_pair_ints (i_image_shape gs) _ (read_pair d gs SS integer "image_shape" _ _ eq_refl (as_image _ _ _ _ AS) eq_refl)) in H.
  destruct (sp_image (a_spec a)) as [Hh Ww] eqn:EI. cbv beta iota zeta in H.
  apply bind_ok in H. destruct H as (BS & _ & H).
  apply bind_ok in H. destruct H as ([] & _ & H). apply bind_ok in H. destruct H as ([] & _ & H).
  apply bind_ok in H. destruct H as (devs & _ & H).
  apply bind_ok in H. destruct H as (bpf & _ & H). apply bind_ok in H. destruct H as (F & _ & H).
  apply bind_ok in H. destruct H as ([] & _ & H). apply bind_ok in H. destruct H as ([] & _ & H).
  apply bind_ok in H. destruct H as (fshape & Hfs & H).
  destruct (as_shape _ _ _ _ AS) as (fy & fx & fc & Hfs' & EFS). rewrite Hfs in Hfs'. injection Hfs' as ->.
  apply bind_ok in H. destruct H as ([] & _ & H).
  apply bind_ok in H. destruct H as (res & Hres & H). apply bind_ok in H. destruct H as (vpp & Hvpp & H).
  apply bind_ok in H. destruct H as ([] & _ & H). apply bind_ok in H. destruct H as (seed & _ & H).
  apply bind_ok in H. destruct H as (maxx & Hmaxx & H). apply bind_ok in H. destruct H as (maxy & Hmaxy & H).
  apply bind_ok in H. destruct H as (minx & Hminx & H). apply bind_ok in H. destruct H as (miny & Hminy & H).
  apply bind_ok in H. destruct H as ([] & _ & H). apply bind_ok in H. destruct H as ([] & _ & H).
  destruct (as_size _ _ _ _ AS) as (v & sy & sx & rest & GS & SQ & FY & FX). rewrite G3 in GS. injection GS as <-.
  assert (EF : ffsize = sy :: sx :: rest).
  { destruct SQ as [-> | ->]; cbn in I3; congruence. }
  subst ffsize.
  apply bind_ok in H. destruct H as (g & Hg & H). apply bind_ok in H. destruct H as (gs' & _ & H). injection H as <-.
  cbn [sy_geom]. rewrite <- Hg. f_equal.
  apply not_le_zero_ok in Hres, Hvpp. apply a_number_ok in Hmaxx, Hmaxy, Hminx, Hminy.
  assert (N : forall k v x q, given k d = Some v -> num_of v = Some x -> finite_setting d k q -> x = Fin q).
  { intros k v x q G X (v' & G' & Q). rewrite G in G'. injection G' as <-. rewrite (finite_num _ _ Q) in X. congruence. }
  destruct (as_max _ _ _ _ AS) as [MY MX]. destruct (as_min _ _ _ _ AS) as [LY LX].
  rewrite (N _ _ _ _ G4 Hres (as_res _ _ _ _ AS)), (N _ _ _ _ G5 Hvpp (as_vpp _ _ _ _ AS)),
    (N _ _ _ _ G7 Hmaxx MX), (N _ _ _ _ G8 Hmaxy MY), (N _ _ _ _ G9 Hminx LX), (N _ _ _ _ G10 Hminy LY).
  rewrite (finite_the_num _ _ FY), (finite_the_num _ _ FX).
  pose proof (read_finite d gs SS "dt" _ _ eq_refl (as_dt _ _ _ _ AS) eq_refl eq_refl) as RD.
  pose proof (read_finite d gs SS "p_hide_img1" _ _ eq_refl (as_hide1 _ _ _ _ AS) eq_refl eq_refl) as R1.
  pose proof (read_finite d gs SS "p_hide_img2" _ _ eq_refl (as_hide2 _ _ _ _ AS) eq_refl eq_refl) as R2.
  pose proof (read_pair d gs SS finite "img_offset" _ _ eq_refl (as_off _ _ _ _ AS) eq_refl) as RO.
  pose proof (read_pair d gs SS finite "seeding_density_range" _ _ eq_refl (as_density _ _ _ _ AS) eq_refl) as RS.
  pose proof (read_ranges d gs SS "diameter_ranges" _ _ eq_refl (as_diameters _ _ _ _ AS) eq_refl eq_refl) as RR.
  cbn [snd] in RD, R1, R2, RO, RS, RR.
  rewrite (finite_the_num _ _ RD), (finite_the_num _ _ R1), (finite_the_num _ _ R2), (finite_pair_nums _ _ RO), (finite_pair_nums _ _ RS).
  inversion RR as [vs l RL EV EL]. subst l. rewrite (upper_ends_finite _ _ RL), num_max_finite. cbn [fst snd]. rewrite eqb_two.
  unfold geometry_args. rewrite EI, EFS.
  rewrite (surjective_pairing (a_off a)), (surjective_pairing (a_ffsize a)), (surjective_pairing (a_max a)), (surjective_pairing (a_min a)).
  reflexivity.
Qed.

(** ** The sampler *)

Lemma class_of : forall fuel sch, si_class (sif_of fuel sch) = is_episodic_class sch.
Proof. intros fuel [a c s|a ec s|B N inner]; reflexivity. Qed.

Lemma round_up_fun : forall B n x y, B <= x < B + n -> Nat.divide n x -> B <= y < B + n -> Nat.divide n y -> x = y.
Proof. intros B n x y Hx [p ->] Hy [q ->]. assert (p = q) by nia. subst. reflexivity. Qed.

Lemma pair_integer_fun : forall v p q, pair_of integer v p -> pair_of integer v q -> p = q.
Proof. intros v p q H H'. rewrite <- (integer_pair_ints _ _ H), <- (integer_pair_ints _ _ H'). reflexivity. Qed.

Lemma isclose_left : forall l q, Make.isclose (qsum l) q = Synthetic.isclose (fold_left Qplus l 0%Q) q.
Proof.
  intros l q. unfold Make.isclose, Synthetic.isclose. apply eq_true_iff_eq. rewrite !Qle_bool_iff, qsum_left. reflexivity.
Qed.

Lemma configured : forall w d p sch a, 0 < w_devices w -> make (exact_world w) (PDict d) = Ok (SyntheticSampler p sch) ->
  asked (exact_world w) d sch a ->
  construct exact (geometry_args a) = Ok (sy_geom p) /\ reads (sy_spec p) (device_spec a (sy_geom p)) /\
  List.length (sy_devices p) = a_devices a /\ sy_batch p = round_batch (sp_batch (a_spec a)) (a_devices a) /\
  sy_F p = a_F a /\ sy_seed p = a_seed a /\ sy_bpf p = (if is_episodic_class sch then 1 else a_bpf a) /\
  forall ex sq g fuel,
    Synthetic.synthetic ex sq g a (sif_of fuel sch) (fun f => Synthetic.read_field (flow_array fuel sch f)) =
    Ok (compiled ex sq g a w p sch fuel).
Proof.
  intros w d p sch a WD H AS. apply make_ok in H.
  destruct H as (cls & B & N & L & inc & seed & at_ & c & s & sch' & _ & _ & _ & _ & _ & H).
  destruct inc; [discriminate|]. destruct H as (p' & v & _ & _ & _ & H & E). inversion E. subst p' sch'. clear E.
  pose proof (synthetic_ok (exact_world w) d sch p WD H) as S.
  assert (G : construct exact (geometry_args a) = Ok (sy_geom p)).
  { unfold synthetic_from_config in H. apply bind_ok in H. destruct H as (mask & _ & H). apply bind_ok in H. destruct H as (hist & _ & H).
    apply bind_ok in H. destruct H as (gs & HS & H). apply spec_of_config_ok in HS. destruct HS as [SS _].
    exact (constructor_geometry _ _ _ _ _ _ _ _ AS SS H). }
  destruct S as [SD (B' & SB & FB & RB & DB) SF (b & Sb & EB) (vs & Gs & Is & Ps) [SU1 SU2] (gs & sh & gc & SS & _ & _ & _ & GE & _ & FI & MA & HI) SM SH _].
  destruct (as_devices _ _ _ _ AS) as (dl & DS & ED). rewrite (devices_fun _ _ _ _ DS SD) in ED.
  rewrite (positive_fun _ _ _ _ SB (as_batch _ _ _ _ AS)) in *.
  pose proof (positive_fun _ _ _ _ SF (as_flows _ _ _ _ AS)) as EF.
  pose proof (positive_fun _ _ _ _ Sb (as_repeat _ _ _ _ AS)) as Eb. subst b.
  assert (EBp : sy_bpf p = if is_episodic_class sch then 1 else a_bpf a) by (destruct sch; exact EB).
  assert (ES : sy_seed p = a_seed a).
  { destruct (as_seed _ _ _ _ AS) as (v' & Gv & Iv). rewrite Gs in Gv. injection Gv as <-. exact (integer_fun _ _ _ Is Iv). }
  destruct SF as (vF & _ & _ & Fp). destruct SB as (vB & _ & _ & Bp). destruct Sb as (vb & _ & _ & bp).
  assert (NP : 0 < List.length (sy_devices p)).
  { destruct (sy_devices p); [|cbn; lia]. cbn in RB. lia. }
  assert (ER : sy_batch p = round_batch (sp_batch (a_spec a)) (a_devices a)).
  { rewrite ED. destruct (round_batch_ok (sp_batch (a_spec a)) (List.length (sy_devices p)) NP) as [R1 R2].
    exact (round_up_fun _ _ _ _ RB DB R1 R2). }
  split; [exact G|]. split; [|split; [congruence|]; split; [exact ER|]; split; [exact EF|]; split; [exact ES|]; split; [exact EBp|]].
  { eapply device_reads; [exact AS | exact SS | exact FI |]. unfold per_device. rewrite <- ER, ED. reflexivity. }
  intros ex sq g fuel.
  assert (IM : g_image gc = sp_image (a_spec a)).
  { apply (pair_integer_fun _ _ _ (ge_image _ _ _ _ _ GE)). exact (read_pair d gs SS integer "image_shape" _ _ eq_refl (as_image _ _ _ _ AS) eq_refl). }
  assert (XT : extras_ok a = true).
  { unfold extras_ok. rewrite IM in MA, HI. destruct (sp_image (a_spec a)) as [h x]. cbn [fst snd] in *.
    apply andb_true_intro. split; [apply andb_true_intro; split|].
    - destruct (as_mask _ _ _ _ AS) as (m & M1 & ->). rewrite (array_fun _ _ _ _ _ M1 SM).
      destruct (sy_mask p) as [m'|]; [|reflexivity]. cbn [option_map]. destruct MA as [MA _]. unfold picture.
      destruct (shape m') as [|r [|k [|]]]; cbn [map] in MA; try discriminate. injection MA as <- <-. cbn [rows cols].
      rewrite !Z.eqb_refl. reflexivity.
    - destruct (as_hist _ _ _ _ AS) as (m & M1 & -> & WF). rewrite (array_fun _ _ _ _ _ M1 SH) in *.
      destruct (sy_hist p) as [m'|]; [|reflexivity]. cbn [option_map]. destruct HI as [HI HC].
      assert (L1 : List.length (data m') = 256) by (rewrite WF, HI; reflexivity).
      rewrite L1, Nat.eqb_refl, <- isclose_left. cbn [andb]. unfold Make.isclose. apply Qle_bool_iff. exact HC.
    - apply Z.leb_le. lia. }
  unfold Synthetic.synthetic. rewrite XT. cbn [negb]. rewrite G. cbn [bind]. unfold make_scfg.
  rewrite (proj2 (Nat.eqb_neq (a_devices a) 0)) by lia. rewrite (proj2 (Nat.eqb_neq (sp_batch (a_spec a)) 0)) by lia.
  rewrite (proj2 (Nat.eqb_neq (a_bpf a) 0)) by lia. rewrite (proj2 (Nat.eqb_neq (a_F a) 0)) by lia.
  rewrite (proj2 (Nat.ltb_ge (sp_batch (a_spec a)) (a_F a))) by lia.
  unfold compiled, scfg_of. rewrite class_of, <- EBp, <- ES, <- EF, <- ER, ED. reflexivity.
Qed.
