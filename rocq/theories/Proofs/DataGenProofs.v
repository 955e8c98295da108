(** The image generator: parameter ranges, particle counts, pixel ranges, and
    how the second image follows from the first. *)
From Coq Require Import List Arith ZArith QArith Qround Qminmax Bool Lia Lqa.
From Verif Require Import Prelude Model.Interp Model.Apply Model.Render Model.Hist Model.DataGen.
From Verif Require Import Spec.InterpSpec Spec.WarpSpec Spec.RenderSpec Spec.HistSpec.
From Verif Require Import Proofs.InterpProofs Proofs.RenderProofs Proofs.HistProofs.
Import ListNotations.
Local Open Scope Q_scope.

(** * Clipping *)
Lemma clipQ_range : forall lo hi x, lo <= hi -> lo <= clipQ lo hi x <= hi.
Proof. intros lo hi x H. destruct (clipQ_cases lo hi x H) as [[? ->]|[[? ->]|[? ->]]]; lra. Qed.
Lemma clipQ_id : forall lo hi x, lo <= x <= hi -> clipQ lo hi x = x.
Proof.
  intros lo hi x [A B]. unfold clipQ. rewrite (proj2 (Qle_bool_iff lo x) A). rewrite (proj2 (Qle_bool_iff x hi) B). reflexivity.
Qed.

(** * Drawing depends on particle values only *)
Definition same_particle (p q : particle) : Prop :=
  p_y p == p_y q /\ p_x p == p_x q /\ p_dx p == p_dx q /\ p_dy p == p_dy q /\ p_rho p == p_rho q /\ p_amp p == p_amp q.
Definition same_upd (u v : upd) : Prop :=
  let '(r, c, a) := u in let '(r', c', b) := v in r = r' /\ c = c' /\ a == b.

Lemma gaussian_proper : forall ex x x' y y' sx sx' sy sy' rho rho' a a', respects ex ->
  x == x' -> y == y' -> sx == sx' -> sy == sy' -> rho == rho' -> a == a' ->
  gaussian (ratK ex) x y 0 0 sx sy rho a == gaussian (ratK ex) x' y' 0 0 sx' sy' rho' a'.
Proof.
  intros ex x x' y y' sx sx' sy sy' rho rho' a a' RE E1 E2 E3 E4 E5 E6. unfold gaussian.
  cbn [kT ratK k_ofZ k_add k_sub k_mul k_div k_neg k_exp]. apply Qmult_comp; [assumption|]. apply RE.
  rewrite E1, E2, E3, E4, E5. reflexivity.
Qed.

Lemma Forall2_map_same : forall {A B} (R : B -> B -> Prop) (f g : A -> B) l, (forall a, In a l -> R (f a) (g a)) -> Forall2 R (map f l) (map g l).
Proof.
  intros A B R f g. induction l as [|a l IH]; intros H; cbn [map]; constructor; [apply H; left; reflexivity | apply IH; intros; apply H; right; assumption].
Qed.
Lemma Forall2_flat : forall {A B} (R : B -> B -> Prop) (f g : A -> list B) l,
  (forall a, In a l -> Forall2 R (f a) (g a)) -> Forall2 R (flat_map f l) (flat_map g l).
Proof.
  intros A B R f g. induction l as [|a l IH]; intros H; cbn [flat_map]; [constructor|].
  apply Forall2_app; [apply H; left; reflexivity | apply IH; intros; apply H; right; assumption].
Qed.
Lemma Forall2_flat2 : forall {A B} (S : A -> A -> Prop) (R : B -> B -> Prop) (f g : A -> list B) l m,
  Forall2 S l m -> (forall a b, S a b -> Forall2 R (f a) (g b)) -> Forall2 R (flat_map f l) (flat_map g m).
Proof.
  intros A B S R f g l m F H. induction F; cbn [flat_map]; [constructor|]. apply Forall2_app; [apply H; assumption | assumption].
Qed.

Lemma center_proper : forall n r p q, p == q -> center n r p == center n r q.
Proof.
  intros n r p q E. rewrite <- !clip_center_spec. unfold clip_center. apply clipQ_compat. assumption.
Qed.
Lemma top_left_proper : forall n r p q, p == q -> top_left n r p = top_left n r q.
Proof. intros n r p q E. rewrite !top_left_floor. f_equal. apply Qfloor_comp, center_proper, E. Qed.

Lemma scatter_one_proper : forall ex H W r p q, respects ex -> same_particle p q ->
  Forall2 same_upd (scatter_one ex H W r p) (scatter_one ex H W r q).
Proof.
  intros ex H W r p q RE (E1 & E2 & E3 & E4 & E5 & E6). unfold scatter_one.
  rewrite (top_left_proper H r _ _ E1), (top_left_proper W r _ _ E2).
  apply Forall2_flat. intros i _. apply Forall2_map_same. intros j _. split; [reflexivity|]. split; [reflexivity|].
  apply gaussian_proper; try assumption.
  - rewrite !clip_center_spec, (center_proper W r _ _ E2). reflexivity.
  - rewrite !clip_center_spec, (center_proper H r _ _ E1). reflexivity.
  - rewrite E3. reflexivity.
  - rewrite E4. reflexivity.
Qed.

Definition pointwise (a b : image) : Prop := rows a = rows b /\ cols a = cols b /\ forall r c, at_ a r c == at_ b r c.

Lemma apply_upd_proper : forall a b u v, pointwise a b -> same_upd u v -> pointwise (apply_upd a u) (apply_upd b v).
Proof.
  intros a b [[r c] x] [[r' c'] y] (R & C & E) (<- & <- & V). unfold apply_upd. rewrite R, C.
  destruct (scatter_index (rows b) r), (scatter_index (cols b) c); try (repeat split; assumption).
  repeat split; cbn [rows cols at_]; try assumption. intros i j. destruct ((i =? z) && (j =? z0))%Z; [rewrite E, V|rewrite E]; reflexivity.
Qed.

Lemma fold_upd_proper : forall us vs a b, Forall2 same_upd us vs -> pointwise a b -> pointwise (fold_left apply_upd us a) (fold_left apply_upd vs b).
Proof.
  intros us vs a b F. revert a b. induction F; intros a b P; cbn [fold_left]; [assumption|]. apply IHF. apply apply_upd_proper; assumption.
Qed.

Lemma img_gen_proper : forall ex ps qs H W maxd, respects ex -> Forall2 same_particle ps qs ->
  pointwise (img_gen ex ps H W maxd false) (img_gen ex qs H W maxd false).
Proof.
  intros ex ps qs H W maxd RE F. unfold img_gen. apply fold_upd_proper.
  - apply (Forall2_flat2 same_particle); [assumption|]. intros p q E. apply scatter_one_proper; assumption.
  - split; [reflexivity|]. split; [reflexivity|]. intros; reflexivity.
Qed.

(** * Hidden particles draw nothing *)
Lemma scatter_one_dark : forall ex H W r p u, p_amp p == 0 -> In u (scatter_one ex H W r p) -> snd u == 0.
Proof.
  intros ex H W r p u A I. unfold scatter_one in I. apply in_flat_map in I. destruct I as (i & _ & I). apply in_map_iff in I.
  destruct I as (j & <- & _). cbn [snd]. unfold gaussian. cbn [kT ratK k_ofZ k_add k_sub k_mul k_div k_neg k_exp]. rewrite A. ring.
Qed.

Lemma fold_upd_dark : forall us im, (forall u, In u us -> snd u == 0) -> pointwise (fold_left apply_upd us im) im.
Proof.
  induction us as [|[[r c] v] us IH]; intros im H; cbn [fold_left]; [repeat split; intros; reflexivity|].
  destruct (IH (apply_upd im (r, c, v))) as (I1 & I2 & I3); [intros; apply H; right; assumption|].
  destruct (apply_upd_size im (r, c, v)) as [S1 S2]. split; [congruence|]. split; [congruence|]. intros a b. rewrite I3.
  specialize (H (r, c, v) (or_introl eq_refl)). cbn [snd] in H. unfold apply_upd.
  destruct (scatter_index (rows im) r), (scatter_index (cols im) c); try reflexivity. cbn [at_].
  destruct ((a =? z) && (b =? z0))%Z; [rewrite H; lra | reflexivity].
Qed.

Lemma img_gen_dark : forall ex ps H W maxd r c, (forall p, In p ps -> p_amp p == 0) -> at_ (img_gen ex ps H W maxd false) r c == 0.
Proof.
  intros ex ps H W maxd r c D. unfold img_gen.
  destruct (fold_upd_dark (flat_map (scatter_one ex H W (patch_radius maxd)) ps) (mkImage H W (fun _ _ => 0))) as (_ & _ & E).
  - intros u I. apply in_flat_map in I. destruct I as (p & P & I). apply (scatter_one_dark _ _ _ _ p u (D p P) I).
  - rewrite E. reflexivity.
Qed.

(** * Draws *)
Section Draws.
Variable sq : Q -> Q.
Variable g : generator.

Lemma uniform_range : forall k n lo hi i, lawful g -> lo <= hi -> lo <= uniform_in g k n lo hi i <= hi.
Proof.
  intros k n lo hi i [U _] H. unfold uniform_in. destruct (U k n i) as [A B]. set (u := g_unit g k n i) in *. clearbody u.
  destruct (Qle_bool lo (u * (hi - lo) + lo)) eqn:E; [apply Qle_bool_iff in E | ]; nra.
Qed.

Lemma pick_in : forall l i, l <> [] -> In (pick l i) l.
Proof. intros l i H. unfold pick. apply nth_In. destruct l; [congruence | cbn [List.length]; lia]. Qed.

Section Spec.
Variable sp : gspec.
Variable pb : Z * Z.
Hypothesis LAW : lawful g.
Hypothesis VAL : valid_ranges sp.

Lemma density_within : forall k i, within (sp_density sp) (density g sp k i).
Proof.
  intros k i. destruct VAL as ((A & B) & _). unfold density, max_density, within.
  pose proof (uniform_range k (sp_batch sp) _ _ i LAW B) as U. rewrite clipQ_id by lra. exact U.
Qed.

Lemma params_within : forall key_i i,
  let D := pick (sp_diameters sp) (g_randint g (Child key_i 6) (List.length (sp_diameters sp))) in
  let I := pick (sp_intensities sp) (g_randint g (Child key_i 7) (List.length (sp_intensities sp))) in
  let R := pick (sp_rhos sp) (g_randint g (Child key_i 8) (List.length (sp_rhos sp))) in
  let ok q := let '(dx, dy, rho, amp) := q in within D dx /\ within D dy /\ within R rho /\ within I amp in
  ok (fst (particle_params sq g sp pb key_i i)) /\ ok (snd (particle_params sq g sp pb key_i i)).
Proof.
  intros key_i i D I R ok. destruct VAL as (_ & (D0 & D1) & (I0 & I1) & (R0 & R1)).
  assert (DD : 0 < fst D <= snd D) by (apply D1, pick_in, D0).
  assert (II : 0 < fst I <= snd I) by (apply I1, pick_in, I0).
  assert (RR : -(1) < fst R <= snd R /\ snd R < 1) by (apply R1, pick_in, R0).
  unfold particle_params. fold D I R. unfold ok, within. cbn [fst snd].
  repeat split; try (apply clipQ_range; lra); try (apply uniform_range; [assumption | lra]).
Qed.
End Spec.
End Draws.

(** * Counting particles *)
Lemma filter_lt_seq : forall n m, List.length (filter (fun i => (Z.of_nat i <? m)%Z) (seq 0 n)) = Nat.min n (Z.to_nat m).
Proof.
  intros n m. induction n as [|n IH]; [reflexivity|]. rewrite seq_S, filter_app, app_length, IH. cbn [plus filter].
  destruct (Z.of_nat n <? m)%Z eqn:E; [apply Z.ltb_lt in E | apply Z.ltb_ge in E]; cbn [List.length]; lia.
Qed.

Lemma area_nonneg : forall pb, (0 <= fst pb)%Z -> (0 <= snd pb)%Z -> 0 <= area pb.
Proof.
  intros pb A B. unfold area. apply Qmult_le_0_compat; change 0 with (inject_Z 0); apply inj_le; assumption.
Qed.

Lemma mixed_count : forall sp pb d, (0 <= fst pb)%Z -> (0 <= snd pb)%Z -> 0 <= d <= snd (sp_density sp) ->
  Z.of_nat (List.length (filter (mixed pb d) (seq 0 (num_particles sp pb)))) = Qfloor (area pb * d).
Proof.
  intros sp pb d A B [C D]. pose proof (area_nonneg pb A B) as P. unfold mixed. rewrite (filter_lt_seq (num_particles sp pb) (current_num pb d)).
  unfold num_particles, current_num, max_density, Qtrunc.
  assert (E1 : 0 <= area pb * d) by (apply Qmult_le_0_compat; assumption).
  assert (E2 : area pb * d <= area pb * snd (sp_density sp)) by (rewrite !(Qmult_comm (area pb)); apply Qmult_le_compat_r; assumption).
  rewrite (proj2 (Qle_bool_iff 0 _)) by lra. pose proof (Qfloor_resp_le _ _ E2).
  assert (F : (0 <= Qfloor (area pb * d))%Z) by (apply floor_le_mono; exact E1). lia.
Qed.

(** * After drawing *)
Lemma crop_size : forall off shape im,
  (0 <= fst off)%Z -> (fst off + fst shape <= rows im)%Z -> (0 <= fst shape)%Z ->
  (0 <= snd off)%Z -> (snd off + snd shape <= cols im)%Z -> (0 <= snd shape)%Z ->
  rows (crop off shape im) = fst shape /\ cols (crop off shape im) = snd shape.
Proof. intros. unfold crop, slice_len. cbn [rows cols]. lia. Qed.

Lemma noisy_bounded : forall g sp k im r c, 0 <= at_ (noisy g sp k im) r c <= 255.
Proof. intros. unfold noisy, add_noise. cbn [at_]. apply clipQ_range. lra. Qed.

Lemma masked_bounded : forall mask im, (forall r c, 0 <= at_ im r c <= 255) ->
  (forall m, mask = Some m -> forall r c, pixel im r c -> 0 <= at_ m r c <= 1) -> bounded 0 255 (masked mask im).
Proof.
  intros [m|] im B M r c P; unfold masked; cbn [at_]; [|apply B].
  specialize (M m eq_refl r c P). specialize (B r c). nra.
Qed.

Lemma equalized_bounded : forall h im, bounded 0 255 im -> bounded 0 255 (equalized h im).
Proof.
  intros [h|] im B; [|exact B]. intros r c P. unfold equalized. rewrite match_at. pose proof (out_level_range im h r c) as [L U].
  split; [change 0 with (inject_Z 0) | change 255 with (inject_Z 255)]; apply inj_le; assumption.
Qed.

Lemma finish_size : forall g sp mask h k im,
  rows (finish g sp mask h k im) = rows (crop (sp_offset sp) (sp_image sp) im) /\
  cols (finish g sp mask h k im) = cols (crop (sp_offset sp) (sp_image sp) im).
Proof. intros. unfold finish, equalized, masked, noisy. destruct mask, h; split; reflexivity. Qed.

Lemma noisy_size : forall g sp k im, rows (noisy g sp k im) = rows (crop (sp_offset sp) (sp_image sp) im) /\
  cols (noisy g sp k im) = cols (crop (sp_offset sp) (sp_image sp) im).
Proof. intros. split; reflexivity. Qed.

(** * Matching depends on pixel values only *)
Lemma Qle_bool_proper : forall a b x y, a == b -> x == y -> Qle_bool a x = Qle_bool b y.
Proof. intros a b x y E F. apply eq_true_iff_eq. rewrite !Qle_bool_iff, E, F. reflexivity. Qed.

Lemma ravel_proper : forall a b, same_image a b -> Forall2 Qeq (ravel a) (ravel b).
Proof.
  intros a b (R & C & E). unfold ravel. rewrite <- R, <- C. apply Forall2_flat. intros r IR. apply Forall2_map_same. intros c IC.
  apply in_seq in IR, IC. apply E. split; lia.
Qed.

Lemma s_counts_proper : forall l m, Forall2 Qeq l m -> s_counts l = s_counts m.
Proof.
  intros l m F. unfold s_counts. apply map_ext. intros i. f_equal. f_equal. induction F; [reflexivity|]. cbn [filter].
  assert (E : in_bin i x = in_bin i y).
  { unfold in_bin. rewrite (Qle_bool_proper _ _ x y (Qeq_refl (inject_Z (Z.of_nat i))) H),
      (Qle_bool_proper _ _ x y (Qeq_refl (inject_Z (Z.of_nat i + 1))) H), (Qle_bool_proper x y 256 256 H (Qeq_refl _)). reflexivity. }
  rewrite E. destruct (in_bin i y); cbn [List.length]; congruence.
Qed.

Lemma match_proper : forall a b h, same_image a b -> same_image (match_histogram a h) (match_histogram b h).
Proof.
  intros a b h S. pose proof S as (R & C & E). split; [exact R|]. split; [exact C|]. intros r c P. rewrite !match_at. unfold out_level.
  rewrite (s_counts_proper _ _ (ravel_proper a b S)). unfold digitize. rewrite (Qfloor_comp _ _ (E r c P)). reflexivity.
Qed.

(** * From the first image to the second *)
Lemma bernoulli_always : forall g k n i p, lawful g -> p == 0 -> bernoulli g k n (1 - p) i = true.
Proof.
  intros g k n i p [U _] P. unfold bernoulli. apply negb_true_iff. apply not_true_iff_false. rewrite Qle_bool_iff.
  specialize (U k n i). lra.
Qed.
Lemma bernoulli_never : forall g k n i p, lawful g -> p == 1 -> bernoulli g k n (1 - p) i = false.
Proof.
  intros g k n i p [U _] P. unfold bernoulli. apply negb_false_iff. rewrite Qle_bool_iff. specialize (U k n i). lra.
Qed.

Lemma bilinear_uniform : forall u v f x y, uniform u v f -> (1 <= fH f)%Z -> (1 <= fW f)%Z ->
  bilinear (chan0 f) x y == u /\ bilinear (chan1 f) x y == v.
Proof.
  intros u v f x y U A B. split.
  - assert (H := bilinear_affine (chan0 f) x y u 0 0 (conj A B)). rewrite H; [lra|]. intros r k _. cbn [chan0 at_]. rewrite (proj1 (U r k)). lra.
  - assert (H := bilinear_affine (chan1 f) x y v 0 0 (conj A B)). rewrite H; [lra|]. intros r k _. cbn [chan1 at_]. rewrite (proj2 (U r k)). lra.
Qed.

(** Displacement in pixels of a particle in a uniform flow. *)
Lemma second_uniform : forall pb f dt rx ry u v y x, uniform u v f -> (1 <= fH f)%Z -> (1 <= fW f)%Z ->
  (1 <= fst pb)%Z -> (1 <= snd pb)%Z ->
  let (y', x') := second_position pb f dt rx ry (y, x) in
  y' == y + v * ry * dt * inject_Z (fst pb) / inject_Z (fH f) /\ x' == x + u * rx * dt * inject_Z (snd pb) / inject_Z (fW f).
Proof.
  intros pb f dt rx ry u v y x U A B C D. unfold second_position, update_2d.
  destruct (bilinear_uniform u v f (x * (inject_Z (fW f) / inject_Z (snd pb))) (y * (inject_Z (fH f) / inject_Z (fst pb))) U A B) as [E1 E2].
  rewrite E1, E2.
  assert (N : forall z, (1 <= z)%Z -> ~ inject_Z z == 0).
  { intros z Z0 Z1. change 0 with (inject_Z 0) in Z1. unfold Qeq in Z1. cbn in Z1. lia. }
  split; field; repeat split; apply N; assumption.
Qed.
