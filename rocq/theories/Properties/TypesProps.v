(** Property theorems about specifications and batches (C61, C62). *)
From Coq Require Import List Arith ZArith QArith String Bool Lia Lqa.
From Verif Require Import Prelude Model.PyVal Model.Types Model.DataGen Spec.TypesSpec Spec.RenderSpec Spec.SpecValues Proofs.TypesProofs.
Import ListNotations.

(** ** C61: what validation accepts *)
Theorem C61_accepts : forall s, i_dt s <> nan -> i_noise_gaussian_std s <> nan ->
  (post_init s = Ok tt <-> exists t, denotes s t /\ documented t).
Proof. exact accepted. Qed.
Print Assumptions C61_accepts.

Example C61_case : exists t, denotes default_spec t /\ documented t.
Proof.
  apply accepted; [discriminate | discriminate | vm_compute; reflexivity].
Qed.
Example C61_case_rejected : post_init (update_fields [("rho_ranges"%string, PList [PTuple [PInt 0; PInt 1]])] default_spec) = Err ValueError.
Proof. reflexivity. Qed.

(** NaN as a time step, or as the noise deviation, is accepted. *)
Theorem C61_nan_refuted : exists s, post_init s = Ok tt /\ i_dt s = nan /\ i_noise_gaussian_std s = nan /\
  forall t, ~ denotes s t.
Proof.
  exists (update_fields [("dt"%string, nan); ("noise_gaussian_std"%string, nan)] default_spec).
  split; [vm_compute; reflexivity|]. split; [reflexivity|]. split; [reflexivity|]. intros t D. pose proof (n_dt _ _ D) as H. inversion H.
Qed.
Print Assumptions C61_nan_refuted.

(** A rejection is a ValueError, except that comparing a non-number raises
    TypeError for the hiding probabilities and the entries of the ranges. *)
Theorem C61_errors : forall s e, post_init s = Err e ->
  e = ValueError \/ (e = TypeError /\
    (~ numeric (i_p_hide_img1 s) \/ ~ numeric (i_p_hide_img2 s) \/
     odd_entry (i_diameter_ranges s) \/ odd_entry (i_intensity_ranges s) \/ odd_entry (i_rho_ranges s))).
Proof. exact rejected. Qed.
Print Assumptions C61_errors.

Example C61_case_type_error : post_init (update_fields [("p_hide_img1"%string, PStr "0.5")] default_spec) = Err TypeError /\
  post_init (update_fields [("diameter_ranges"%string, PList [PTuple [PInt 1; PNone]])] default_spec) = Err TypeError.
Proof. split; reflexivity. Qed.

(** Infinities and booleans are numbers for the validation. *)
Theorem C61_infinite : exists s t, post_init s = Ok tt /\ denotes s t /\ t_dt t = PosInf /\ t_diameters t = [(PosInf, PosInf)] /\ t_batch t = 1%Z /\
  i_batch_size s = PBool true.
Proof.
  set (s := update_fields [("dt", PFloat (Inf false)); ("batch_size", PBool true); ("diameter_ranges", PList [PTuple [PFloat (Inf false); PFloat (Inf false)]])]%string default_spec).
  assert (V : post_init s = Ok tt) by (vm_compute; reflexivity).
  assert (E : exists t, denotes s t /\ documented t) by (apply accepted; [discriminate | discriminate | exact V]).
  destruct E as (t & D & _). exists s, t. split; [exact V|]. split; [exact D|].
  split; [pose proof (n_dt _ _ D) as H; inversion H; reflexivity|].
  split.
  - pose proof (n_diameters _ _ D) as H. inversion H as [us l F E1 E2]; subst. inversion F as [|? y ? l' P F' E3 E4]; subst. inversion F'; subst. inversion P as [? ? a b N1 N2]; subst.
    inversion N1; inversion N2; reflexivity.
  - split; [pose proof (n_batch _ _ D) as H; inversion H; reflexivity | reflexivity].
Qed.
Print Assumptions C61_infinite.

(** An accepted specification with finite values meets the hypotheses of the
    theorems about the image generator. *)
Lemma finite_le : forall v q a, finite v q -> number v a -> a = Num q.
Proof. intros v q a A B. exact (number_fun _ _ _ B A). Qed.

Lemma pair_finite : forall v x y, pair_of number v x -> pair_of finite v y -> x = (Num (fst y), Num (snd y)).
Proof.
  intros v x y A B. destruct A as [u w a b A1 A2]. inversion B as [? ? c d B1 B2]; subst. cbn [fst snd].
  rewrite (finite_le _ _ _ B1 A1), (finite_le _ _ _ B2 A2). reflexivity.
Qed.

Lemma ranges_finite : forall (P : ext * ext -> Prop) v l l', list_of (pair_of number) v l -> Forall P l -> list_of (pair_of finite) v l' ->
  (l <> [] -> l' <> []) /\ forall d, In d l' -> P (Num (fst d), Num (snd d)).
Proof.
  intros P v l l' A F B. inversion A as [us ? A']; subst. inversion B as [us' ? B' E1 E2]; subst. clear A B. revert l' B' F. induction A' as [|u x us l H A' IH]; intros l' B F.
  - inversion B; subst. split; [congruence | intros d []].
  - inversion B as [|? y ? l2 H2 B2]; subst. inversion F as [|? ? F1 F2]; subst. split; [discriminate|]. intros d [<-|I].
    + rewrite <- (pair_finite _ _ _ H H2). exact F1.
    + exact (proj2 (IH _ B2 F2) d I).
Qed.

Theorem C61_usable : forall s g, reads s g -> post_init s = Ok tt -> valid_ranges g /\ usable_values g.
Proof.
  intros s g R V.
  assert (ND : i_dt s <> nan) by (intros E; pose proof (r_dt _ _ R) as H; rewrite E in H; inversion H).
  assert (NS : i_noise_gaussian_std s <> nan) by (intros E; pose proof (r_noise_std _ _ R) as H; rewrite E in H; inversion H).
  apply (accepted s ND NS) in V. destruct V as (t & D & P).
  assert (LZ : forall z, non_negative (Num (inject_Z z)) -> (0 <= z)%Z) by (intros z H; rewrite Zle_Qle; exact H).
  assert (FI : forall v z a, integer v z -> number v a -> a = Num (inject_Z z)).
  { intros v z a A B. exact (number_fun _ _ _ B (integer_number _ _ A)). }
  assert (II : forall v z z', integer v z -> integer v z' -> z = z') by (intros v z z' A B; inversion A; subst; inversion B; reflexivity).
  split.
  - split; [|split; [|split]].
    + pose proof (r_density _ _ R) as A. pose proof (n_density _ _ D) as B. pose proof (d_density _ P) as C.
      rewrite (pair_finite _ _ _ B A) in C. destruct C as [C1 C2]. cbn in C1, C2. split; assumption.
    + destruct (d_diameters _ P) as [NE F]. destruct (ranges_finite _ _ _ _ (n_diameters _ _ D) F (r_diameters _ _ R)) as [G1 G2].
      split; [exact (G1 NE)|]. intros d I. destruct (G2 d I) as [[L1 L2] M]. cbn in *. lra.
    + destruct (d_intensities _ P) as [NE F]. destruct (ranges_finite _ _ _ _ (n_intensities _ _ D) F (r_intensities _ _ R)) as [G1 G2].
      split; [exact (G1 NE)|]. intros d I. destruct (G2 d I) as [[L1 L2] M]. cbn in *. lra.
    + destruct (d_rhos _ P) as [NE F]. destruct (ranges_finite _ _ _ _ (n_rhos _ _ D) F (r_rhos _ _ R)) as [G1 G2].
      split; [exact (G1 NE)|]. intros d I. destruct (G2 d I) as ([L1 L2] & M & [K1 K2]). cbn in *. lra.
  - split; [|split; [|split]].
    + pose proof (r_batch _ _ R) as A. pose proof (d_batch _ P) as B. rewrite (II _ _ _ (n_batch _ _ D) A) in B.
      split; [lia|]. pose proof (r_shape _ _ R) as S1. pose proof (n_shape _ _ D) as S2. pose proof (d_shape _ P) as S3.
      pose proof (r_offset _ _ R) as O1. pose proof (n_offset _ _ D) as O2. pose proof (d_offset _ P) as O3.
      destruct (sp_image g) as [h w], (t_shape t) as [h' w'], (sp_offset g) as [oy ox], (t_offset t) as [oy' ox'].
      inversion S1 as [? ? ? ? I1 I2 E1]; subst. rewrite <- E1 in S2. inversion S2 as [? ? ? ? I3 I4]; subst.
      inversion O1 as [? ? ? ? J1 J2 E2]; subst. rewrite <- E2 in O2. inversion O2 as [? ? ? ? J3 J4]; subst. cbn [fst snd] in *.
      rewrite (II _ _ _ I3 I1), (II _ _ _ I4 I2) in S3. rewrite (FI _ _ _ J1 J3), (FI _ _ _ J2 J4) in O3.
      destruct S3, O3. auto.
    + pose proof (d_hide1 _ P) as A. pose proof (d_hide2 _ P) as B. pose proof (d_dt _ P) as C.
      rewrite (finite_le _ _ _ (r_hide1 _ _ R) (n_hide1 _ _ D)) in A. rewrite (finite_le _ _ _ (r_hide2 _ _ R) (n_hide2 _ _ D)) in B.
      rewrite (finite_le _ _ _ (r_dt _ _ R) (n_dt _ _ D)) in C. unfold probability, lt, le in *. destruct A, B, C. repeat split; try assumption. lra.
    + pose proof (d_diameter_var _ P) as A. pose proof (d_intensity_var _ P) as B. pose proof (d_rho_var _ P) as C.
      rewrite (finite_le _ _ _ (r_diameter_var _ _ R) (n_diameter_var _ _ D)) in A. rewrite (finite_le _ _ _ (r_intensity_var _ _ R) (n_intensity_var _ _ D)) in B.
      rewrite (finite_le _ _ _ (r_rho_var _ _ R) (n_rho_var _ _ D)) in C. unfold non_negative, le in *. auto.
    + pose proof (d_noise_uniform _ P) as A. pose proof (d_noise_mean _ P) as B. pose proof (d_noise_std _ P) as C.
      rewrite (finite_le _ _ _ (r_noise_uniform _ _ R) (n_noise_uniform _ _ D)) in A. rewrite (finite_le _ _ _ (r_noise_mean _ _ R) (n_noise_mean _ _ D)) in B.
      rewrite (finite_le _ _ _ (r_noise_std _ _ R) (n_noise_std _ _ D)) in C. unfold non_negative, le in *. auto.
Qed.
Print Assumptions C61_usable.

Definition default_values : gspec := mkGspec 300 (256, 256)%Z (128, 128)%Z (1 # 100, 2 # 100)%Q (1 # 100) (1 # 100)
  [(1 # 10, 1)%Q] 1 [(50, 200)%Q] 1 [(-(99 # 100), 99 # 100)%Q] 1 1 0 0 0.
Example C61_case_usable : reads default_spec default_values /\ post_init default_spec = Ok tt.
Proof.
  split; [|vm_compute; reflexivity].
  constructor; cbn; unfold finite; repeat (constructor; cbn); change 50%Q with (inject_Z 50); change 200%Q with (inject_Z 200); constructor.
Qed.

(** ** C62: updates *)
Theorem C62_chain : forall kws s s', post_init s = Ok tt -> updates kws s = Ok s' ->
  post_init s' = Ok tt /\ forall name, field s' name = option_map (after name kws) (field s name).
Proof. exact updates_spec. Qed.
Print Assumptions C62_chain.

(** A chain raises only because a member of it is not acceptable, and the
    exception is the one of the validation. *)
Theorem C62_raises : forall kws s e, updates kws s = Err e ->
  exists before kw rest s1 s2, kws = before ++ kw :: rest /\ updates before s = Ok s1 /\
    (forall name, field s2 name = option_map (after name [kw]) (field s1 name)) /\ post_init s2 = Err e.
Proof. exact updates_fail. Qed.
Print Assumptions C62_raises.

(** Names that are not fields are ignored, whatever their value. *)
Theorem C62_unknown_ignored : forall kw s, post_init s = Ok tt -> (forall name v, In (name, v) kw -> field s name = None) -> update kw s = Ok s.
Proof.
  intros kw s V U.
  assert (E : update_fields kw s = s).
  { apply field_ext. intros name. rewrite field_update. destruct (field s name) as [v|] eqn:F; [|reflexivity]. cbn [option_map]. f_equal.
    unfold given. destruct (List.find (fun p => String.eqb name (fst p)) kw) as [[k w]|] eqn:L; [|reflexivity].
    apply find_some in L. destruct L as [I N]. cbn [fst] in N. apply String.eqb_eq in N. subst k. rewrite (U _ _ I) in F. discriminate. }
  unfold update, make_spec. rewrite E, V. reflexivity.
Qed.
Print Assumptions C62_unknown_ignored.

Example C62_case : exists s', updates [[("dt", PFloat (Fin (1 # 2))); ("bacth_size", PInt (-3))]; [("batch_size", PInt 7)]; [("dt", PInt 3)]]%string default_spec = Ok s' /\
  field s' "dt"%string = Some (PInt 3) /\ field s' "batch_size"%string = Some (PInt 7) /\ field s' "rho_var"%string = Some (PFloat (Fin 1)) /\
  update [("dt", PInt 0)]%string s' = Err ValueError.
Proof. eexists. split; [vm_compute; reflexivity|]. repeat split; reflexivity. Qed.

(** Batches and scheduler data: every field is the given one or the old one. *)
Theorem C62_batch_update : forall (A : Type) (kw : list (string * A)) (b : sbatch A) (d : sdata A),
  let pick name old := match given name kw with Some v => v | None => old end in
  sb_flatten (sb_update kw b) = [pick "images1" (sb_images1 b); pick "images2" (sb_images2 b); pick "flow_fields" (sb_flow_fields b);
    pick "params" (sb_params b); pick "done" (sb_done b); pick "mask" (sb_mask b); pick "files" (sb_files b)]%string /\
  sdt_update kw d = (mkSdata (pick "flow_fields" (sdt_flow_fields d)) (pick "images1" (sdt_images1 d)) (pick "images2" (sdt_images2 d))
    (pick "mask" (sdt_mask d)) (pick "files" (sdt_files d)))%string.
Proof.
  intros A kw b d pick. unfold sb_update, sb_flatten, sdt_update, pick. cbn [sb_images1 sb_images2 sb_flow_fields sb_params sb_done sb_mask sb_files].
  rewrite !kw_get_given. split; reflexivity.
Qed.
Print Assumptions C62_batch_update.

(** Flattening and unflattening are inverse to each other. *)
Theorem C62_pytree : forall (A : Type) (none : A),
  (forall b, sb_unflatten none (sb_flatten b) = Ok b) /\
  (forall l b, List.length l = 7%nat -> sb_unflatten none l = Ok b -> sb_flatten b = l) /\
  (forall p : gparams A, gp_unflatten (gp_flatten p) = Ok p) /\
  (forall l (p : gparams A), gp_unflatten l = Ok p -> gp_flatten p = l).
Proof.
  intros A none. split; [intros []; reflexivity|]. split; [|split; [intros []; reflexivity|]].
  - intros l b L H. do 8 (destruct l as [|? l]; try discriminate L). cbn in H. inversion H. reflexivity.
  - intros l p H. do 5 (destruct l as [|? l]; try discriminate H). cbn in H. inversion H. reflexivity.
Qed.
Print Assumptions C62_pytree.

Example C62_case_batch : let b := mkSbatch 1 2 3 4 5 6 7 in
  sb_update [("mask", 9); ("maks", 8)]%string b = mkSbatch 1 2 3 4 5 9 7 /\ sb_unflatten 0 (sb_flatten b) = Ok b.
Proof. split; reflexivity. Qed.
