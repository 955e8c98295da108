(** Drawing particles: patches, scatter-add and the sum of contributions. *)
From Coq Require Import List Arith ZArith QArith Qround Qminmax Bool Lia Lqa.
From Verif Require Import Prelude Model.Interp Model.Render Model.DataGen Spec.InterpSpec Spec.RenderSpec.
From Verif Require Import Proofs.InterpProofs.
Import ListNotations.
Local Open Scope Q_scope.

Lemma Qle_bool_false : forall a b, Qle_bool a b = false -> b < a.
Proof. intros a b H. apply Qnot_le_lt. intros C. apply Qle_bool_iff in C. congruence. Qed.

(** * Sums *)
Lemma sum_cons : forall a l, sum (a :: l) = a + sum l.
Proof. reflexivity. Qed.
Lemma sum_nil : sum [] = 0.
Proof. reflexivity. Qed.

Lemma sum_app : forall l m, sum (l ++ m) == sum l + sum m.
Proof. induction l; intros; cbn [app]; rewrite ?sum_nil, ?sum_cons; [lra|]. rewrite IHl. lra. Qed.

Lemma sum_zero : forall l, (forall x, In x l -> x == 0) -> sum l == 0.
Proof.
  induction l as [|a l IH]; intros H; [reflexivity|]. rewrite sum_cons.
  rewrite IH by (intros; apply H; right; assumption). rewrite (H a) by (left; reflexivity). reflexivity.
Qed.

Lemma sum_nonneg : forall l, (forall x, In x l -> 0 <= x) -> 0 <= sum l.
Proof.
  induction l as [|a l IH]; intros H; [rewrite sum_nil; lra|]. rewrite sum_cons.
  pose proof (H a (or_introl eq_refl)). assert (0 <= sum l) by (apply IH; intros; apply H; right; assumption). lra.
Qed.

Lemma sum_map_flat : forall {A B} (f : B -> Q) (h : A -> list B) l,
  sum (map f (flat_map h l)) == sum (map (fun a => sum (map f (h a))) l).
Proof.
  intros A B f h. induction l as [|a l IH]; [reflexivity|]. cbn [flat_map map]. rewrite map_app, sum_app, IH, sum_cons. reflexivity.
Qed.

Lemma sum_map_ext : forall {A} (f h : A -> Q) l, (forall a, In a l -> f a == h a) -> sum (map f l) == sum (map h l).
Proof.
  intros A f h. induction l as [|a l IH]; intros E; [reflexivity|]. cbn [map]. rewrite !sum_cons. rewrite IH by (intros; apply E; right; assumption).
  rewrite (E a (or_introl eq_refl)). reflexivity.
Qed.

(** * Ranges *)
Lemma in_zrange : forall a b k, In k (zrange a b) <-> (a <= k < b)%Z.
Proof.
  intros a b k. unfold zrange. rewrite in_map_iff. split.
  - intros (i & <- & H). apply in_seq in H. lia.
  - intros H. exists (Z.to_nat (k - a)). split; [lia|]. apply in_seq. lia.
Qed.

Lemma sum_seq_pick : forall n s (f : nat -> Q) k, (s <= k < s + n)%nat -> (forall i, i <> k -> f i == 0) ->
  sum (map f (seq s n)) == f k.
Proof.
  induction n as [|n IH]; intros s f k H Z; [lia|]. cbn [seq map]. rewrite sum_cons.
  destruct (Nat.eq_dec s k) as [<-|N].
  - rewrite sum_zero; [lra|]. intros x I. apply in_map_iff in I. destruct I as (i & <- & I). apply in_seq in I. apply Z. lia.
  - rewrite (Z s N). rewrite (IH (S s) f k) by (lia || assumption). lra.
Qed.

Lemma sum_zrange_pick : forall a b (f : Z -> Q) k, (forall i, i <> k -> f i == 0) ->
  sum (map f (zrange a b)) == if ((a <=? k) && (k <? b))%Z then f k else 0.
Proof.
  intros a b f k Z. unfold zrange. rewrite map_map. destruct ((a <=? k) && (k <? b))%Z eqn:E.
  - apply andb_true_iff in E. destruct E as [E1 E2]. apply Z.leb_le in E1. apply Z.ltb_lt in E2.
    rewrite (sum_seq_pick _ 0 (fun i => f (a + Z.of_nat i)%Z) (Z.to_nat (k - a))).
    + replace (a + Z.of_nat (Z.to_nat (k - a)))%Z with k by lia. reflexivity.
    + lia.
    + intros i N. apply Z. lia.
  - apply sum_zero. intros x I. apply in_map_iff in I. destruct I as (i & <- & I). apply in_seq in I. apply Z.
    intros C. apply andb_false_iff in E. destruct E as [E|E]; [apply Z.leb_gt in E | apply Z.ltb_ge in E]; lia.
Qed.

(** * Centres *)
Lemma clip_center_spec : forall n r p, clip_center n r p == center n r p.
Proof.
  intros n r p. unfold clip_center, clipQ, center, first_center, last_center.
  set (lo := inject_Z r). set (hi := inject_Z n - lo - (1 # 1000000)). clearbody lo hi.
  pose proof (Q.max_spec lo p) as M. pose proof (Q.min_spec hi (Qmax lo p)) as N.
  destruct (Qle_bool lo p) eqn:E; [apply Qle_bool_iff in E | apply Qle_bool_false in E].
  - destruct (Qle_bool p hi) eqn:F; [apply Qle_bool_iff in F | apply Qle_bool_false in F]; lra.
  - destruct (Qle_bool lo hi) eqn:F; [apply Qle_bool_iff in F | apply Qle_bool_false in F]; lra.
Qed.

Lemma center_range : forall n r p, (2 * r + 1 <= n)%Z -> first_center r <= center n r p <= last_center n r.
Proof.
  intros n r p H. assert (L : first_center r <= last_center n r).
  { unfold first_center, last_center. assert (E : inject_Z (2 * r + 1) <= inject_Z n) by (apply inj_le; lia).
    rewrite inject_Z_plus, inject_Z_mult in E. change (inject_Z 1) with 1 in E. change (inject_Z 2) with 2 in E. lra. }
  unfold center. split.
  - apply Q.min_glb; [assumption | apply Q.le_max_l].
  - apply Q.le_min_l.
Qed.

Lemma top_left_floor : forall n r p, top_left n r p = (Qfloor (center n r p) - r)%Z.
Proof.
  intros n r p. unfold top_left. pose proof (clip_center_spec n r p) as E. set (c := clip_center n r p) in *. clearbody c.
  destruct (floor_spec (center n r p)) as [A B]. apply floor_unique.
  - unfold Zminus. rewrite inject_Z_plus, inject_Z_opp. lra.
  - unfold Zminus. rewrite inject_Z_plus, inject_Z_opp. lra.
Qed.

Lemma top_left_in : forall n r p, (0 <= r)%Z -> (2 * r + 1 <= n)%Z -> (0 <= top_left n r p /\ top_left n r p + 2 * r < n)%Z.
Proof.
  intros n r p R H. destruct (center_range n r p H) as [A B]. rewrite top_left_floor. unfold first_center, last_center in *.
  split.
  - pose proof (floor_le_mono (center n r p) r A). lia.
  - assert (center n r p < inject_Z (n - r)).
    { unfold Zminus. rewrite inject_Z_plus, inject_Z_opp. lra. }
    pose proof (floor_lt _ _ H0). lia.
Qed.

(** On a smaller axis every patch starts before the first pixel. *)
Lemma top_left_negative : forall n r p, (n <= 2 * r)%Z -> (top_left n r p < 0)%Z.
Proof.
  intros n r p H. rewrite top_left_floor.
  assert (center n r p < inject_Z (n - r)).
  { unfold center. eapply Qle_lt_trans; [apply Q.le_min_l|]. unfold last_center, Zminus. rewrite inject_Z_plus, inject_Z_opp. lra. }
  pose proof (floor_lt _ _ H0). lia.
Qed.

Lemma in_patch_iff : forall r c k, in_patch r c k <-> (Qfloor c - r <= k <= Qfloor c + r)%Z.
Proof.
  intros r c k. unfold in_patch. destruct (floor_spec c) as [A B]. split.
  - intros [C D]. pose proof (floor_le_mono c _ C).
    assert (c < inject_Z (k + r + 1)) by (rewrite inj_add1; exact D). pose proof (floor_lt _ _ H0). lia.
  - intros [C D]. split.
    + assert (inject_Z (k - r) <= inject_Z (Qfloor c)) by (apply inj_le; lia). lra.
    + assert (inject_Z (Qfloor c) <= inject_Z (k + r)) by (apply inj_le; lia). lra.
Qed.

(** * Scatter *)
Definition lands (H W : Z) (u : upd) : Prop := let '(r, c, _) := u in (0 <= r < H)%Z /\ (0 <= c < W)%Z.

Definition hit (row col : Z) (u : upd) : Q :=
  let '(r, c, v) := u in if ((row =? r) && (col =? c))%Z then v else 0.

Lemma scatter_index_in : forall n i, (0 <= i < n)%Z -> scatter_index n i = Some i.
Proof.
  intros n i H. unfold scatter_index, wrap. rewrite (proj2 (Z.ltb_ge i 0)) by lia.
  rewrite (proj2 (Z.leb_le 0 i)) by lia. rewrite (proj2 (Z.ltb_lt i n)) by lia. reflexivity.
Qed.

Lemma apply_upd_size : forall im u, rows (apply_upd im u) = rows im /\ cols (apply_upd im u) = cols im.
Proof.
  intros im [[r c] v]. unfold apply_upd. destruct (scatter_index (rows im) r), (scatter_index (cols im) c); split; reflexivity.
Qed.

Lemma apply_upd_at : forall im u row col, lands (rows im) (cols im) u ->
  at_ (apply_upd im u) row col == at_ im row col + hit row col u.
Proof.
  intros im [[r c] v] row col [L1 L2]. unfold apply_upd. rewrite (scatter_index_in _ _ L1), (scatter_index_in _ _ L2).
  cbn [at_ hit]. destruct ((row =? r) && (col =? c))%Z; lra.
Qed.

Lemma fold_upd : forall us im row col, Forall (lands (rows im) (cols im)) us ->
  let out := fold_left apply_upd us im in
  rows out = rows im /\ cols out = cols im /\ at_ out row col == at_ im row col + sum (map (hit row col) us).
Proof.
  induction us as [|u us IH]; intros im row col F; cbn [fold_left map].
  - repeat split. rewrite sum_nil. lra.
  - inversion F as [|? ? F1 F2]; subst. destruct (apply_upd_size im u) as [S1 S2].
    destruct (IH (apply_upd im u) row col) as (I1 & I2 & I3); [rewrite S1, S2; exact F2|].
    split; [congruence|]. split; [congruence|]. rewrite I3. rewrite apply_upd_at by assumption.
    rewrite sum_cons. lra.
Qed.

Lemma scatter_one_lands : forall ex H W r p, (0 <= r)%Z -> (2 * r + 1 <= H)%Z -> (2 * r + 1 <= W)%Z ->
  Forall (lands H W) (scatter_one ex H W r p).
Proof.
  intros ex H W r p R A B. apply Forall_forall. intros u I. unfold scatter_one in I.
  apply in_flat_map in I. destruct I as (i & I1 & I2). apply in_map_iff in I2. destruct I2 as (j & <- & I2).
  apply in_zrange in I1, I2. destruct (top_left_in H r (p_y p) R A). destruct (top_left_in W r (p_x p) R B).
  unfold lands. lia.
Qed.

(** * The kernel *)
Lemma gaussian_bump : forall ex p X Y dy dx, respects ex -> proper_particle p -> X == dx -> Y == dy ->
  gaussian (ratK ex) X Y 0 0 (p_dx p / 2) (p_dy p / 2) (p_rho p) (p_amp p) == bump ex p dy dx.
Proof.
  intros ex p X Y dy dx RE (D1 & D2 & D3) EX EY. unfold gaussian, bump. cbn [kT ratK k_ofZ k_add k_sub k_mul k_div k_neg k_exp].
  apply Qmult_comp; [reflexivity|]. apply RE. unfold mahalanobis. rewrite EX, EY.
  set (a := p_dx p) in *. set (b := p_dy p) in *. set (rho := p_rho p) in *. clearbody a b rho.
  change (inject_Z 1) with 1. change (inject_Z 2) with 2.
  assert (N : ~ 1 - rho * rho == 0) by nra.
  field. repeat split; try lra; try nra.
Qed.

Lemma hit_scatter_one : forall ex H W r p row col, (0 <= r)%Z ->
  let ty := top_left H r (p_y p) in let tx := top_left W r (p_x p) in
  sum (map (hit row col) (scatter_one ex H W r p)) ==
  if ((ty <=? row) && (row <? ty + (2 * r + 1)) && ((tx <=? col) && (col <? tx + (2 * r + 1))))%Z then
    gaussian (ratK ex) (inject_Z (col - tx - r) - (clip_center W r (p_x p) - inject_Z (tx + r)))
                       (inject_Z (row - ty - r) - (clip_center H r (p_y p) - inject_Z (ty + r)))
                       0 0 (p_dx p / 2) (p_dy p / 2) (p_rho p) (p_amp p)
  else 0.
Proof.
  intros ex H W r p row col R ty tx. unfold scatter_one. fold ty tx. rewrite sum_map_flat.
  set (G := fun i j => gaussian (ratK ex) (inject_Z (j - r) - (clip_center W r (p_x p) - inject_Z (tx + r)))
                       (inject_Z (i - r) - (clip_center H r (p_y p) - inject_Z (ty + r)))
                       0 0 (p_dx p / 2) (p_dy p / 2) (p_rho p) (p_amp p)).
  transitivity (sum (map (fun i => if (row =? i + ty)%Z then
       (if ((0 <=? col - tx) && (col - tx <? 2 * r + 1))%Z then G i (col - tx)%Z else 0) else 0) (zrange 0 (2 * r + 1)))).
  - apply sum_map_ext. intros i _. rewrite map_map. cbn [hit].
    destruct (row =? i + ty)%Z eqn:E.
    + etransitivity; [apply (sum_zrange_pick 0 (2 * r + 1) (fun j => if (true && (col =? j + tx))%Z then G i j else 0) (col - tx)%Z)|].
      * intros j N. rewrite (proj2 (Z.eqb_neq col (j + tx))) by lia. reflexivity.
      * rewrite (proj2 (Z.eqb_eq col (col - tx + tx))) by lia. reflexivity.
    + apply sum_zero. intros x I. apply in_map_iff in I. destruct I as (j & <- & _). reflexivity.
  - rewrite (sum_zrange_pick 0 (2 * r + 1) _ (row - ty)%Z).
    + rewrite (proj2 (Z.eqb_eq row (row - ty + ty))) by lia.
      replace (0 <=? row - ty)%Z with (ty <=? row)%Z by (apply eq_true_iff_eq; rewrite !Z.leb_le; lia).
      replace (row - ty <? 2 * r + 1)%Z with (row <? ty + (2 * r + 1))%Z by (apply eq_true_iff_eq; rewrite !Z.ltb_lt; lia).
      replace (0 <=? col - tx)%Z with (tx <=? col)%Z by (apply eq_true_iff_eq; rewrite !Z.leb_le; lia).
      replace (col - tx <? 2 * r + 1)%Z with (col <? tx + (2 * r + 1))%Z by (apply eq_true_iff_eq; rewrite !Z.ltb_lt; lia).
      destruct ((ty <=? row) && (row <? ty + (2 * r + 1)))%Z; reflexivity.
    + intros i N. rewrite (proj2 (Z.eqb_neq row (i + ty))) by lia. reflexivity.
Qed.

Lemma patch_bool : forall n r p k, 
  ((top_left n r p <=? k) && (k <? top_left n r p + (2 * r + 1)))%Z = true <-> in_patch r (center n r p) k.
Proof.
  intros n r p k. rewrite in_patch_iff, andb_true_iff, Z.leb_le, Z.ltb_lt, top_left_floor. lia.
Qed.

Lemma hit_contributes : forall ex H W r p row col, respects ex -> proper_particle p -> (0 <= r)%Z ->
  contributes ex H W r p row col (sum (map (hit row col) (scatter_one ex H W r p))).
Proof.
  intros ex H W r p row col RE PP R. unfold contributes.
  assert (E := hit_scatter_one ex H W r p row col R). cbv zeta in E. split.
  - intros A B. apply patch_bool in A, B. rewrite E. rewrite A, B. cbn [andb].
    apply gaussian_bump; try assumption.
    + rewrite clip_center_spec. unfold Zminus. rewrite !inject_Z_plus, !inject_Z_opp. lra.
    + rewrite clip_center_spec. unfold Zminus. rewrite !inject_Z_plus, !inject_Z_opp. lra.
  - intros N. rewrite E.
    destruct (((top_left H r (p_y p) <=? row) && (row <? top_left H r (p_y p) + (2 * r + 1)))%Z) eqn:A; [|reflexivity].
    destruct (((top_left W r (p_x p) <=? col) && (col <? top_left W r (p_x p) + (2 * r + 1)))%Z) eqn:B; [|reflexivity].
    apply patch_bool in A, B. tauto.
Qed.

Lemma radius_spec : forall maxd r, 0 <= maxd -> (radius_of maxd r <-> r = patch_radius maxd).
Proof.
  intros maxd r H. unfold radius_of, patch_radius, Qtrunc.
  assert (E : 3 * maxd / 2 == (3 # 2) * maxd) by field.
  assert (P : 0 <= 3 * maxd / 2) by lra. apply Qle_bool_iff in P. rewrite P. split.
  - intros [A B]. symmetry. apply floor_unique; lra.
  - intros ->. destruct (floor_spec (3 * maxd / 2)). lra.
Qed.

Lemma radius_pos : forall maxd r, 0 <= maxd -> radius_of maxd r -> (0 <= r)%Z.
Proof.
  intros maxd r H [A B]. assert (inject_Z (-1) < inject_Z r) by (change (inject_Z (-1)) with (-(1)); lra).
  rewrite <- Zlt_Qlt in H0. lia.
Qed.

(** The image is the sum of the contributions. *)
Lemma img_gen_sum : forall ex ps H W maxd r row col, respects ex -> Forall proper_particle ps ->
  0 <= maxd -> radius_of maxd r -> (2 * r + 1 <= H)%Z -> (2 * r + 1 <= W)%Z ->
  exists vs, Forall2 (fun p v => contributes ex H W r p row col v) ps vs /\
    at_ (img_gen ex ps H W maxd false) row col == sum vs.
Proof.
  intros ex ps H W maxd r row col RE FP M RO A B. assert (R := radius_pos _ _ M RO).
  apply (radius_spec maxd r M) in RO. unfold img_gen. rewrite <- RO.
  exists (map (fun p => sum (map (hit row col) (scatter_one ex H W r p))) ps). split.
  - clear -FP RE R. induction FP; cbn [map]; constructor; [apply hit_contributes; assumption | assumption].
  - destruct (fold_upd (flat_map (scatter_one ex H W r) ps) (mkImage H W (fun _ _ => 0)) row col) as (_ & _ & E).
    + cbn [rows cols]. apply Forall_flat_map. apply Forall_forall. intros p _. apply scatter_one_lands; assumption.
    + rewrite E. cbn [at_]. rewrite sum_map_flat. lra.
Qed.

Lemma img_gen_size : forall ex ps H W maxd b, rows (img_gen ex ps H W maxd b) = H /\ cols (img_gen ex ps H W maxd b) = W.
Proof.
  intros ex ps H W maxd b. unfold img_gen.
  assert (S : forall us im, rows (fold_left apply_upd us im) = rows im /\ cols (fold_left apply_upd us im) = cols im).
  { induction us as [|u us IH]; intros im; cbn [fold_left]; [split; reflexivity|].
    destruct (IH (apply_upd im u)), (apply_upd_size im u). split; congruence. }
  destruct b; cbn [map_image rows cols]; apply S.
Qed.
