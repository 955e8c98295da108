(** What a pair of synthetic images depends on. *)
From Coq Require Import List Arith ZArith QArith Bool Lia String.
From Verif Require Import Prelude Model.Interp Model.Apply Model.Render Model.Hist Model.DataGen Model.Keys.
From Verif Require Import Model.Geometry Model.Sampler Model.Synthetic.
From Verif Require Import Spec.SamplerSpec Spec.SyntheticSpec Proofs.KeyProofs Proofs.SamplerProofs.
Import ListNotations.
Local Open Scope nat_scope.

Lemma same_picture_refl : forall a, same_picture a a.
Proof. intros a. repeat split. Qed.

Section Agree.
Variables g g' : generator.
Variable sq : Q -> Q.
Variable ex : Q -> Q.

Lemma uniform_agree : forall k, agree g g' k -> forall n lo hi i, uniform_in g k n lo hi i = uniform_in g' k n lo hi i.
Proof. intros k (A & _) n lo hi i. unfold uniform_in. rewrite A. reflexivity. Qed.

Lemma normal_agree : forall k, agree g g' k -> forall n i, g_normal g k n i = g_normal g' k n i.
Proof. intros k (_ & A & _). exact A. Qed.

Lemma unit_agree : forall k, agree g g' k -> forall n i, g_unit g k n i = g_unit g' k n i.
Proof. intros k (A & _). exact A. Qed.

Lemma randint_agree : forall k, agree g g' k -> forall n, g_randint g k n = g_randint g' k n.
Proof. intros k (_ & _ & A). exact A. Qed.

Lemma bernoulli_agree : forall k, agree g g' k -> forall n p i, bernoulli g k n p i = bernoulli g' k n p i.
Proof. intros k A n p i. unfold bernoulli. rewrite (unit_agree k A). reflexivity. Qed.

Variable sp : gspec.
Variable pb : Z * Z.
Variables rx ry : Q.
Variable mask : option image.
Variable histogram : option (list Q).

Lemma density_agree : forall k, agree g g' k -> forall i, density g sp k i = density g' sp k i.
Proof. intros k A i. unfold density. rewrite (uniform_agree k A). reflexivity. Qed.

Lemma position_agree : forall key_i, agree g g' (Child key_i 2) -> forall i, position g sp pb key_i i = position g' sp pb key_i i.
Proof. intros k A i. unfold position. rewrite !(unit_agree _ A). reflexivity. Qed.

(** The keys for the sizes, shapes and brightnesses in the first image. *)
Definition first_params_keys (key_i : key) : list key :=
  [Child key_i 6; Child key_i 7; Child key_i 8; Child (Child key_i 3) 0; Child (Child key_i 3) 1;
   Child (Child key_i 3) 2; Child (Child key_i 3) 3].

Lemma first_params_agree : forall key_i, (forall k, In k (first_params_keys key_i) -> agree g g' k) ->
  forall i, fst (particle_params sq g sp pb key_i i) = fst (particle_params sq g' sp pb key_i i).
Proof.
  intros key_i A i. unfold particle_params. cbn [fst].
  rewrite (randint_agree (Child key_i 6)), (randint_agree (Child key_i 7)), (randint_agree (Child key_i 8)) by (apply A; cbn; auto 10).
  rewrite (uniform_agree (Child (Child key_i 3) 0)), (uniform_agree (Child (Child key_i 3) 1)),
    (uniform_agree (Child (Child key_i 3) 2)), (uniform_agree (Child (Child key_i 3) 3)) by (apply A; cbn; auto 10).
  reflexivity.
Qed.

Lemma second_params_agree : forall key_i, (forall k, In k (first_params_keys key_i) -> agree g g' k) ->
  (forall n, 4 <= n < 8 -> agree g g' (Child (Child key_i 3) n)) ->
  forall i, snd (particle_params sq g sp pb key_i i) = snd (particle_params sq g' sp pb key_i i).
Proof.
  intros key_i A B i. unfold particle_params. cbn [snd].
  rewrite (randint_agree (Child key_i 6)), (randint_agree (Child key_i 7)), (randint_agree (Child key_i 8)) by (apply A; cbn; auto 10).
  rewrite (uniform_agree (Child (Child key_i 3) 0)), (uniform_agree (Child (Child key_i 3) 1)),
    (uniform_agree (Child (Child key_i 3) 2)), (uniform_agree (Child (Child key_i 3) 3)) by (apply A; cbn; auto 10).
  rewrite (normal_agree (Child (Child key_i 3) 4)), (normal_agree (Child (Child key_i 3) 5)),
    (normal_agree (Child (Child key_i 3) 6)), (normal_agree (Child (Child key_i 3) 7)) by (apply B; lia).
  reflexivity.
Qed.

Lemma noisy_agree : forall k im, agree g g' (Child k 0) -> agree g g' (Child k 1) ->
  same_picture (noisy g sp k im) (noisy g' sp k im).
Proof.
  intros k im A B. unfold noisy, add_noise. repeat split. intros r c. cbn [at_].
  rewrite (uniform_agree _ A), (normal_agree _ B). reflexivity.
Qed.

Lemma masked_same : forall a b, same_picture a b -> same_picture (masked mask a) (masked mask b).
Proof.
  intros a b (R & C & E). unfold masked. destruct mask as [m|]; [|repeat split; assumption].
  repeat split; cbn [rows cols at_]; try assumption. intros r c. rewrite E. reflexivity.
Qed.

Lemma ravel_same : forall a b, same_picture a b -> ravel a = ravel b.
Proof.
  intros a b (R & C & E). unfold ravel. rewrite R, C. apply flat_map_ext. intros r. apply map_ext. intros c. apply E.
Qed.

Lemma equalized_same : forall a b, same_picture a b -> same_picture (equalized histogram a) (equalized histogram b).
Proof.
  intros a b S. unfold equalized. destruct histogram as [h|]; [|assumption]. unfold match_histogram.
  rewrite (ravel_same a b S). destruct S as (R & C & E). repeat split; cbn [rows cols at_]; try assumption.
  intros r c. rewrite E. reflexivity.
Qed.

Lemma finish_agree : forall k im im', im = im' -> agree g g' (Child k 0) -> agree g g' (Child k 1) ->
  same_picture (finish g sp mask histogram k im) (finish g' sp mask histogram k im').
Proof.
  intros k im im' -> A B. unfold finish. apply equalized_same, masked_same, noisy_agree; assumption.
Qed.

(** The draws of one iteration and the density of its pair. *)
Definition pair_draws (k density_key : key) (j : nat) : list (use * key) := (UDensity, density_key) :: scan_draws k j.

Let body gg k dk f j := scan_body ex sq gg sp pb rx ry mask histogram k dk [f] j.

Lemma first_image_agree : forall k dk j f,
  (forall p k', In (p, k') (pair_draws k dk j) -> only_second p = false -> agree g g' k') ->
  same_picture (out1 (body g k dk f j)) (out1 (body g' k dk f j)).
Proof.
  intros k dk j f A. unfold body, scan_body. cbn [out1].
  assert (AU : forall p k', In (p, k') (pair_draws k dk j) -> only_second p = false -> agree g g' k') by exact A.
  apply finish_agree.
  - f_equal. apply map_ext. intros i. unfold first_particle.
    rewrite (position_agree (Child k j)) by (apply (A (UPositions j)); [cbn; auto 30 | reflexivity]).
    rewrite (first_params_agree (Child k j)).
    + rewrite (bernoulli_agree (Child (Child k j) 0)) by (apply (A (UHide1 j)); [cbn; auto 30 | reflexivity]).
      rewrite (density_agree dk) by (apply (A UDensity); [left; reflexivity | reflexivity]). reflexivity.
    + intros k' [<- | [<- | [<- | [<- | [<- | [<- | [<- | []]]]]]]].
      * apply (A (UDiameterIdx j)); [cbn; auto 30 | reflexivity].
      * apply (A (UIntensityIdx j)); [cbn; auto 30 | reflexivity].
      * apply (A (URhoIdx j)); [cbn; auto 30 | reflexivity].
      * apply (A (UDx j)); [cbn; auto 30 | reflexivity].
      * apply (A (UDy j)); [cbn; auto 30 | reflexivity].
      * apply (A (URho j)); [cbn; auto 30 | reflexivity].
      * apply (A (UIn j)); [cbn; auto 30 | reflexivity].
  - apply (A (UNoise1Uniform j)); [cbn; auto 30 | reflexivity].
  - apply (A (UNoise1Gauss j)); [cbn; auto 30 | reflexivity].
Qed.

Lemma second_image_agree : forall k dk j f,
  (forall p k', In (p, k') (pair_draws k dk j) -> only_first p = false -> agree g g' k') ->
  same_picture (out2 (body g k dk f j)) (out2 (body g' k dk f j)).
Proof.
  intros k dk j f A. unfold body, scan_body. cbn [out2].
  apply finish_agree.
  - f_equal. apply map_ext. intros i. unfold second_particle.
    rewrite (position_agree (Child k j)) by (apply (A (UPositions j)); [cbn; auto 30 | reflexivity]).
    rewrite (second_params_agree (Child k j)).
    + rewrite (bernoulli_agree (Child (Child k j) 1)) by (apply (A (UHide2 j)); [cbn; auto 30 | reflexivity]).
      rewrite (density_agree dk) by (apply (A UDensity); [left; reflexivity | reflexivity]). reflexivity.
    + intros k' [<- | [<- | [<- | [<- | [<- | [<- | [<- | []]]]]]]].
      * apply (A (UDiameterIdx j)); [cbn; auto 30 | reflexivity].
      * apply (A (UIntensityIdx j)); [cbn; auto 30 | reflexivity].
      * apply (A (URhoIdx j)); [cbn; auto 30 | reflexivity].
      * apply (A (UDx j)); [cbn; auto 30 | reflexivity].
      * apply (A (UDy j)); [cbn; auto 30 | reflexivity].
      * apply (A (URho j)); [cbn; auto 30 | reflexivity].
      * apply (A (UIn j)); [cbn; auto 30 | reflexivity].
    + intros n N. assert (C : n = 4 \/ n = 5 \/ n = 6 \/ n = 7) by lia. destruct C as [-> | [-> | [-> | ->]]].
      * apply (A (UNoiseDx j)); [cbn; auto 30 | reflexivity].
      * apply (A (UNoiseDy j)); [cbn; auto 30 | reflexivity].
      * apply (A (UNoiseRho j)); [cbn; auto 30 | reflexivity].
      * apply (A (UNoiseIn j)); [cbn; auto 30 | reflexivity].
  - apply (A (UNoise2Uniform j)); [cbn; auto 30 | reflexivity].
  - apply (A (UNoise2Gauss j)); [cbn; auto 30 | reflexivity].
Qed.

Lemma params_agree : forall k dk j f,
  (forall p k', In (p, k') (pair_draws k dk j) -> only_first p = false -> only_second p = false -> agree g g' k') ->
  let o := body g k dk f j in let o' := body g' k dk f j in
  out_density o = out_density o' /\ out_diameters o = out_diameters o' /\ out_intensities o = out_intensities o' /\
  out_rhos o = out_rhos o'.
Proof.
  intros k dk j f A. cbv zeta. unfold body, scan_body. cbn [out_density out_diameters out_intensities out_rhos].
  rewrite (density_agree dk) by (apply (A UDensity); [left; reflexivity | reflexivity | reflexivity]).
  rewrite (randint_agree (Child (Child k j) 6)) by (apply (A (UDiameterIdx j)); [cbn; auto 30 | reflexivity | reflexivity]).
  rewrite (randint_agree (Child (Child k j) 7)) by (apply (A (UIntensityIdx j)); [cbn; auto 30 | reflexivity | reflexivity]).
  rewrite (randint_agree (Child (Child k j) 8)) by (apply (A (URhoIdx j)); [cbn; auto 30 | reflexivity | reflexivity]).
  repeat split.
Qed.
End Agree.

(** ** The model's two descriptions of one device call *)
Lemma body_one : forall ex sq g sp pb rx ry mask h k dk l i dflt, l <> [] ->
  scan_body ex sq g sp pb rx ry mask h k dk [nth (i mod List.length l) l dflt] i = scan_body ex sq g sp pb rx ry mask h k dk l i.
Proof.
  intros ex sq g sp pb rx ry mask h k dk l i dflt NE. unfold scan_body. cbn [List.length].
  rewrite Nat.mod_1_r. cbn [nth].
  rewrite (nth_indep l dflt (mkFlow 0 0 (fun _ _ => 0%Q) (fun _ _ => 0%Q))); [reflexivity|].
  destruct l; [congruence|]. apply Nat.mod_upper_bound. cbn. lia.
Qed.

Lemma device_call : forall ex sq g a geo k l dflt, l <> [] ->
  gen_images (device_image ex sq g a geo) k (per_device a) l dflt = device_images ex sq g a geo k l.
Proof.
  intros ex sq g a geo k l dflt NE. unfold gen_images, device_images, generate, device_image. cbn [split2].
  change (sp_batch (device_spec a geo)) with (per_device a). apply map_ext. intros i. apply body_one. exact NE.
Qed.

Lemma device_adapt : forall a geo l,
  flow_field_adapter (device_adapter a geo) l =
  (tile_flows (per_device a) (map (fun f => fst (process_single (device_adapter a geo) f)) l),
   map (fun f => snd (process_single (device_adapter a geo) f)) l).
Proof. intros a geo l. reflexivity. Qed.

(** ** What the constructor stores *)
Lemma synthetic_inv : forall ex sq g a si dec c, synthetic ex sq g a si dec = Ok c ->
  exists geo, construct exact (geometry_args a) = Ok geo /\ sizes_ok c /\
    sc_nd c = a_devices a /\ sc_B c = round_batch (sp_batch (a_spec a)) (a_devices a) /\ sc_F c = a_F a /\
    sc_bpf c = (if si_class si then 1 else a_bpf a) /\ sc_seed c = a_seed a /\
    sc_B c / sc_nd c = per_device a /\
    sc_adapt c = (fun f => fst (process_single (device_adapter a geo) (dec f))) /\
    sc_bounds c = (fun f => snd (process_single (device_adapter a geo) (dec f))) /\
    sc_render c = device_image ex sq g a geo.
Proof.
  intros ex sq g a si dec c H. unfold synthetic in H. destruct (negb _); [discriminate|].
  destruct (construct exact (geometry_args a)) as [geo|e] eqn:E; [|discriminate]. cbn [bind] in H.
  exists geo. split; [reflexivity|]. split; [exact (proj1 (make_sizes _ _ _ _ _ _ _ _ _ H))|].
  unfold make_scfg in H.
  repeat match type of H with (if ?b then _ else _) = _ => destruct b; [discriminate|] end.
  injection H as <-. repeat split.
Qed.

(** ** Batches *)
Lemma nth_error_eq : forall A (l l' : list A), (forall i, nth_error l i = nth_error l' i) -> l = l'.
Proof.
  induction l as [|x l IH]; intros [|y l'] E; try reflexivity.
  - specialize (E 0). discriminate.
  - specialize (E 0). discriminate.
  - pose proof (E 0) as E0. cbn in E0. injection E0 as ->. f_equal. apply IH. intros i. exact (E (S i)).
Qed.

Lemma entry_split : forall B nd i, 1 <= nd -> B mod nd = 0 -> i < B ->
  0 < B / nd /\ i < nd * (B / nd) /\ i / (B / nd) < nd /\ i mod (B / nd) < B / nd.
Proof.
  intros B nd i N M I. pose proof (div_exact_mul B nd N M) as E.
  assert (P : 0 < B / nd). { destruct (B / nd); lia. }
  split; [exact P|]. split; [lia|]. split; [|apply Nat.mod_upper_bound; lia].
  apply Nat.div_lt_upper_bound; lia.
Qed.

Section Made.
Variables (ex sq : Q -> Q) (a : syn_args) (si : sif) (dec : si_flow si -> flow).
Variable g : generator.
Variable c : scfg si flow flow pair_out.
Hypothesis Hc : synthetic ex sq g a si dec = Ok c.
Variable geo : geom exact.
Hypothesis Hgeo : construct exact (geometry_args a) = Ok geo.

Lemma made_entry : forall m d b i, made_from c m d b -> i < sc_B c ->
  exists f, In f (fd_flows d) /\
    nth_error (fd_flows d) (source (a_devices a) (sc_B c) (List.length (fd_flows d)) i) = Some f /\
    nth_error (ba_flows b) i = Some (fst (process_single (device_adapter a geo) (dec f))) /\
    nth_error (ba_images b) i =
      Some (device_image ex sq g a geo (device_key (a_seed a) m (i / per_device a)) (i mod per_device a)
              (snd (process_single (device_adapter a geo) (dec f)))).
Proof.
  intros m d b i (_ & _ & E & _) I.
  destruct (synthetic_inv _ _ _ _ _ _ _ Hc) as (geo' & G & OK & Nd & B & Fe & Bp & Sd & Pd & Ad & Bo & Re).
  rewrite Hgeo in G. injection G as <-.
  destruct (E i I) as (f & F1 & F2 & F3). exists f. rewrite Nd in F1. split; [exact (nth_error_In _ _ F1)|].
  split; [exact F1|]. rewrite Ad in F2. split; [exact F2|]. rewrite Pd, Sd, Re, Bo in F3. exact F3.
Qed.

(** Every batch is what the two compiled functions return on the devices, put
    one after the other. *)
Lemma made_calls : forall m d b, made_from c m d b -> shardable c d ->
  let on dv := map dec (device_part (a_devices a) (fd_flows d) dv) in
  ba_flows b = flat_map (fun dv => fst (flow_field_adapter (device_adapter a geo) (on dv))) (seq 0 (a_devices a)) /\
  ba_images b =
    flat_map (fun dv => device_images ex sq g a geo (device_key (a_seed a) m dv)
                          (snd (flow_field_adapter (device_adapter a geo) (on dv)))) (seq 0 (a_devices a)).
Proof.
  intros m d b MF [LF MD] on.
  destruct (synthetic_inv _ _ _ _ _ _ _ Hc) as (geo' & G & OK & Nd & HB & Fe & Bp & Sd & Pd & _).
  destruct OK as (N1 & _ & F1 & FB & B1 & BM). rewrite Nd in *.
  pose proof (div_exact_mul _ _ N1 MD) as EF. pose proof (div_exact_mul _ _ N1 BM) as EB.
  set (nd := a_devices a) in *. set (w := sc_F c / nd) in *.
  assert (W : 0 < w) by (destruct w; lia).
  assert (PB : 0 < per_device a). { rewrite <- Pd. destruct (sc_B c / nd); lia. }
  assert (SL : forall dv, dv < nd -> List.length (device_part nd (fd_flows d) dv) = w).
  { intros dv D. unfold device_part. rewrite LF. fold w. apply (chunk_length _ w (fd_flows d) dv nd); lia. }
  assert (SN : forall dv j, dv < nd -> j < w -> nth_error (device_part nd (fd_flows d) dv) j = nth_error (fd_flows d) (dv * w + j)).
  { intros dv j D J. unfold device_part. rewrite LF. fold w. apply chunk_nth. exact J. }
  assert (ON : forall dv, dv < nd -> on dv <> []).
  { intros dv D E. apply (f_equal (@List.length _)) in E. unfold on in E. rewrite map_length, SL in E by exact D. cbn in E. lia. }
  pose proof (made_entry m d b) as ME.
  assert (LN : forall dv (f : flow -> flow), dv < nd -> map f (on dv) <> []).
  { intros dv f D E. apply map_eq_nil in E. exact (ON dv D E). }
  split; apply nth_error_eq; intros i.
  - destruct (Nat.lt_ge_cases i (sc_B c)) as [I | I].
    + destruct (ME i MF I) as (f & _ & E1 & E2 & _). rewrite E2.
      destruct (entry_split (sc_B c) nd i N1 BM I) as (_ & I2 & I3 & I4). rewrite Pd in I2, I3, I4.
      rewrite (nth_error_blocks _ _ (per_device a)); [|exact PB| |exact I2].
      * rewrite Nat.add_0_l. rewrite device_adapt. cbn [fst]. rewrite tile_nth by (auto; lia).
        rewrite map_length. unfold on. rewrite map_length, SL by exact I3. rewrite map_map, nth_error_map, SN by (auto; apply Nat.mod_upper_bound; lia).
        unfold source in E1. rewrite LF in E1. fold nd w in E1. rewrite Pd in E1. rewrite E1. reflexivity.
      * intros dv D. rewrite device_adapt. cbn [fst]. apply tile_length. apply LN. lia.
    + rewrite (proj2 (nth_error_None _ _)); [symmetry; apply nth_error_None|].
      * rewrite (length_blocks _ _ (per_device a)); [rewrite <- Pd; lia|].
        intros dv D. rewrite device_adapt. cbn [fst]. apply tile_length. apply LN. lia.
      * destruct MF as (_ & L & _). lia.
  - assert (DL : forall dv, 0 <= dv < 0 + nd -> List.length (device_images ex sq g a geo (device_key (a_seed a) m dv)
                          (snd (flow_field_adapter (device_adapter a geo) (on dv)))) = per_device a).
    { intros dv D. unfold device_images, generate. cbn [split2]. rewrite map_length, seq_length. reflexivity. }
    destruct (Nat.lt_ge_cases i (sc_B c)) as [I | I].
    + destruct (ME i MF I) as (f & _ & E1 & _ & E2). rewrite E2.
      destruct (entry_split (sc_B c) nd i N1 BM I) as (_ & I2 & I3 & I4). rewrite Pd in I2, I3, I4.
      rewrite (nth_error_blocks _ _ (per_device a)); [|exact PB|exact DL|exact I2].
      rewrite Nat.add_0_l. rewrite device_adapt. cbn [snd].
      rewrite <- (device_call ex sq g a geo _ _ (mkFlow 0 0 (fun _ _ => 0%Q) (fun _ _ => 0%Q))) by (apply LN; exact I3).
      unfold gen_images. rewrite nth_error_map. rewrite nth_error_nth' with (d := 0) by (rewrite seq_length; exact I4).
      rewrite seq_nth by exact I4. cbn [option_map]. rewrite Nat.add_0_l. f_equal. f_equal.
      rewrite map_length. unfold on. rewrite map_length, SL by exact I3. symmetry. apply nth_error_nth.
      rewrite map_map, nth_error_map, SN by (auto; apply Nat.mod_upper_bound; lia).
      unfold source in E1. rewrite LF in E1. fold nd w in E1. rewrite Pd in E1. rewrite E1. reflexivity.
    + rewrite (proj2 (nth_error_None _ _)); [symmetry; apply nth_error_None|].
      * rewrite (length_blocks _ _ (per_device a)) by exact DL. rewrite <- Pd. lia.
      * destruct MF as (L & _). lia.
Qed.
End Made.

(** The draws for pair [j] of a device are among the draws of the device. *)
Lemma pair_draws_in : forall K b j p k, j < b ->
  In (p, k) (pair_draws (Child K 0) (Child K 1) j) -> In (p, k) (draws K b).
Proof.
  intros K b j p k J [E | I].
  - left. exact E.
  - right. apply in_flat_map. exists j. split; [apply in_seq; lia | exact I].
Qed.

Lemma pair_draws_of : forall k dk j p k', In (p, k') (pair_draws k dk j) -> pair_of p = None \/ pair_of p = Some j.
Proof.
  intros k dk j p k' [E | I]; [injection E as <- _; left; reflexivity|]. right.
  unfold scan_draws in I. cbn [noise_draws split2] in I. cbn [In] in I.
  repeat (destruct I as [E | I]; [injection E as <- _; reflexivity|]). destruct I.
Qed.
