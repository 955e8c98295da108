(** Warping: splatting is a tent-kernel sum, gather warping, particles. *)
From Coq Require Import List Arith ZArith QArith Qround Qabs Qminmax Bool Lia Lqa.
From Verif Require Import Prelude Model.Interp Model.Apply Spec.InterpSpec Spec.WarpSpec Proofs.InterpProofs.
Import ListNotations.
Local Open Scope Q_scope.

(** * Sums *)
Lemma sumn_ext : forall n f g, (forall i, (0 <= i < Z.of_nat n)%Z -> f i == g i) -> sumn n f == sumn n g.
Proof.
  induction n as [|n IH]; intros f g H; cbn [sumn]; [reflexivity|].
  rewrite (IH f g) by (intros; apply H; lia). rewrite H by lia. reflexivity.
Qed.
Lemma sumn_plus : forall n f g, sumn n (fun i => f i + g i) == sumn n f + sumn n g.
Proof. induction n as [|n IH]; intros; cbn [sumn]; [ring|]. rewrite IH. ring. Qed.
Lemma sumn_scale : forall n a f, sumn n (fun i => a * f i) == a * sumn n f.
Proof. induction n as [|n IH]; intros; cbn [sumn]; [ring|]. rewrite IH. ring. Qed.
Lemma sumn_0 : forall n, sumn n (fun _ => 0) == 0.
Proof. induction n as [|n IH]; cbn [sumn]; [reflexivity|]. rewrite IH. ring. Qed.
Lemma sumn_swap : forall n m f, sumn n (fun i => sumn m (fun j => f i j)) == sumn m (fun j => sumn n (fun i => f i j)).
Proof.
  induction n as [|n IH]; intros m f; cbn [sumn].
  - symmetry. apply sumn_0.
  - rewrite IH. rewrite <- sumn_plus. apply sumn_ext. intros. cbn [sumn]. reflexivity.
Qed.
Lemma sumn_le : forall n f g, (forall i, (0 <= i < Z.of_nat n)%Z -> f i <= g i) -> sumn n f <= sumn n g.
Proof.
  induction n as [|n IH]; intros f g H; cbn [sumn]; [lra|].
  assert (A : sumn n f <= sumn n g) by (apply IH; intros; apply H; lia).
  assert (B : f (Z.of_nat n) <= g (Z.of_nat n)) by (apply H; lia). lra.
Qed.
Lemma sumn_nonneg : forall n f, (forall i, (0 <= i < Z.of_nat n)%Z -> 0 <= f i) -> 0 <= sumn n f.
Proof. intros n f H. rewrite <- (sumn_0 n). apply sumn_le. assumption. Qed.
Lemma sumn_one : forall n f k, (0 <= k < Z.of_nat n)%Z ->
  (forall i, (0 <= i < Z.of_nat n)%Z -> i <> k -> f i == 0) -> sumn n f == f k.
Proof.
  induction n as [|n IH]; intros f k Hk H; [lia|]. cbn [sumn].
  destruct (Z.eq_dec k (Z.of_nat n)) as [->|N].
  - rewrite (sumn_ext n f (fun _ => 0)) by (intros; apply H; lia). rewrite sumn_0. ring.
  - rewrite (IH f k) by (try lia; intros; apply H; lia). rewrite (H (Z.of_nat n)) by lia. ring.
Qed.
Lemma sumn_add : forall n m f, sumn (n + m) f == sumn n f + sumn m (fun i => f (Z.of_nat n + i)%Z).
Proof.
  intros n m f. induction m as [|m IH]; [rewrite Nat.add_0_r; cbn [sumn]; ring|].
  rewrite Nat.add_succ_r. cbn [sumn]. rewrite IH. rewrite Nat2Z.inj_add. ring.
Qed.
Lemma sumn_mul : forall h w f, sumn (h * w) f == sumn h (fun r => sumn w (fun c => f (r * Z.of_nat w + c)%Z)).
Proof.
  induction h as [|h IH]; intros w f; cbn [sumn]; [reflexivity|].
  replace (S h * w)%nat with (h * w + w)%nat by lia. rewrite sumn_add, IH.
  rewrite Nat2Z.inj_mul. reflexivity.
Qed.

(** A fold that adds up contributions. *)
Lemma fold_sum : forall n (step : image -> nat -> image) (contrib : nat -> Q) im0 r c,
  (forall im i, rows (step im i) = rows im /\ cols (step im i) = cols im) ->
  (forall im i, rows im = rows im0 -> cols im = cols im0 -> (i < n)%nat -> at_ (step im i) r c == at_ im r c + contrib i) ->
  let im := fold_left step (seq 0 n) im0 in
  rows im = rows im0 /\ cols im = cols im0 /\
  at_ im r c == at_ im0 r c + sumn n (fun z => contrib (Z.to_nat z)).
Proof.
  induction n as [|n IH]; intros step contrib im0 r c HS HC; cbn zeta.
  - cbn. split; [reflexivity|]. split; [reflexivity|]. ring.
  - rewrite seq_S, fold_left_app. cbn [fold_left].
    destruct (IH step contrib im0 r c HS) as (R & C & E); [intros; apply HC; auto|].
    cbn zeta in R, C, E. set (im := fold_left step (seq 0 n) im0) in *.
    destruct (HS im (0 + n)%nat) as [R2 C2]. split; [congruence|]. split; [congruence|].
    rewrite HC by auto. rewrite E. cbn [sumn]. rewrite Nat2Z.id, Nat.add_0_l. ring.
Qed.

(** * The tent *)
Lemma tent_pos : forall t, 0 <= tent t.
Proof. intros. apply Q.le_max_l. Qed.

Lemma tent_cases : forall t, (-(1) <= t <= 0 /\ tent t == 1 + t) \/ (0 <= t <= 1 /\ tent t == 1 - t) \/
  ((t <= -(1) \/ 1 <= t) /\ tent t == 0).
Proof.
  intros t. unfold tent.
  destruct (Qlt_le_dec t 0) as [A|A].
  - rewrite Qabs_neg by lra. destruct (Qlt_le_dec t (-(1))).
    + right; right. split; [lra|]. apply Q.max_l. lra.
    + left. split; [lra|]. rewrite Q.max_r by lra. ring.
  - rewrite Qabs_pos by lra. destruct (Qlt_le_dec 1 t).
    + right; right. split; [lra|]. apply Q.max_l. lra.
    + right; left. split; [lra|]. apply Q.max_r. lra.
Qed.

Lemma tent_proper : forall a b, a == b -> tent a == tent b.
Proof. intros a b E. unfold tent. rewrite E. reflexivity. Qed.

Lemma inj_minus : forall a b, inject_Z (a - b) == inject_Z a - inject_Z b.
Proof. intros. unfold Zminus. rewrite inject_Z_plus, inject_Z_opp. reflexivity. Qed.

(** The weight given to a pixel by floor and fraction is the tent. *)
Lemma tent_weight : forall x k,
  (k = Qfloor x -> tent (x - inject_Z k) == 1 - (x - inject_Z (Qfloor x))) /\
  (k = (Qfloor x + 1)%Z -> tent (x - inject_Z k) == x - inject_Z (Qfloor x)) /\
  (k <> Qfloor x -> k <> (Qfloor x + 1)%Z -> tent (x - inject_Z k) == 0).
Proof.
  intros x k. destruct (floor_spec x) as [F1 F2]. split; [|split].
  - intros ->. destruct (tent_cases (x - inject_Z (Qfloor x))) as [[A ->]|[[A ->]|[A ->]]]; lra.
  - intros ->. rewrite (tent_proper _ (x - (inject_Z (Qfloor x) + 1))) by (rewrite inj_add1; reflexivity).
    destruct (tent_cases (x - (inject_Z (Qfloor x) + 1))) as [[A ->]|[[A ->]|[A ->]]]; lra.
  - intros N1 N2. destruct (tent_cases (x - inject_Z k)) as [[A ->]|[[A ->]|[A ->]]]; try lra.
    + assert (K : (k < Qfloor x \/ Qfloor x + 2 <= k)%Z) by lia. destruct K as [K|K].
      * assert (inject_Z k <= inject_Z (Qfloor x - 1)) by (apply inj_le; lia). rewrite inj_sub1 in *. lra.
      * assert (inject_Z (Qfloor x + 2) <= inject_Z k) by (apply inj_le; lia).
        rewrite inject_Z_plus in *. change (inject_Z 2) with 2 in *. lra.
    + assert (K : (k < Qfloor x \/ Qfloor x + 2 <= k)%Z) by lia. destruct K as [K|K].
      * assert (inject_Z k <= inject_Z (Qfloor x - 1)) by (apply inj_le; lia). rewrite inj_sub1 in *. lra.
      * assert (inject_Z (Qfloor x + 2) <= inject_Z k) by (apply inj_le; lia).
        rewrite inject_Z_plus in *. change (inject_Z 2) with 2 in *. lra.
Qed.

(** * Depositing *)
Lemma add_at_size : forall im r c v, rows (add_at im r c v) = rows im /\ cols (add_at im r c v) = cols im.
Proof. intros; split; reflexivity. Qed.

Definition dep1 (bnd : bool) (im : image) (yi xi : Z) (v : Q) : image := if bnd then add_at im yi xi v else im.

Lemma dep1_size : forall b im y x v, rows (dep1 b im y x v) = rows im /\ cols (dep1 b im y x v) = cols im.
Proof. intros [] im y x v; split; reflexivity. Qed.

Lemma dep1_at : forall im H W yi xi v r c, pixel im r c -> rows im = H -> cols im = W ->
  at_ (dep1 ((0 <=? xi) && (xi <? W) && (0 <=? yi) && (yi <? H)) im yi xi v)%Z r c ==
  at_ im r c + (if (r =? yi)%Z then if (c =? xi)%Z then v else 0 else 0).
Proof.
  intros im H W yi xi v r c [Pr Pc] <- <-. unfold dep1.
  destruct ((0 <=? xi) && (xi <? cols im) && (0 <=? yi) && (yi <? rows im))%Z eqn:B.
  - cbn [add_at at_]. destruct (r =? yi)%Z, (c =? xi)%Z; cbn [andb]; ring.
  - destruct (Z.eqb_spec r yi) as [->|]; [|ring]. destruct (Z.eqb_spec c xi) as [->|]; [|ring].
    exfalso. rewrite !andb_false_iff in B.
    rewrite Z.leb_gt, Z.ltb_ge, Z.leb_gt, Z.ltb_ge in B. lia.
Qed.

Lemma deposit_unfold : forall im xs ys val,
  let x0 := Qfloor xs in let y0 := Qfloor ys in
  let wx := xs - inject_Z x0 in let wy := ys - inject_Z y0 in
  let b x y := ((0 <=? x) && (x <? cols im) && (0 <=? y) && (y <? rows im))%Z in
  deposit_pixel im xs ys val =
  dep1 (b (x0 + 1) (y0 + 1))%Z
   (dep1 (b (x0 + 0) (y0 + 1))%Z
     (dep1 (b (x0 + 1) (y0 + 0))%Z
       (dep1 (b (x0 + 0) (y0 + 0))%Z im (y0 + 0) (x0 + 0) (val * ((1 - wx) * (1 - wy))))
       (y0 + 0) (x0 + 1) (val * (wx * (1 - wy))))
     (y0 + 1) (x0 + 0) (val * ((1 - wx) * wy)))
   (y0 + 1) (x0 + 1) (val * (wx * wy)).
Proof. reflexivity. Qed.

Lemma deposit_size : forall im xs ys val,
  rows (deposit_pixel im xs ys val) = rows im /\ cols (deposit_pixel im xs ys val) = cols im.
Proof.
  intros. rewrite deposit_unfold. cbv zeta.
  split; rewrite ?(proj1 (dep1_size _ _ _ _ _)), ?(proj2 (dep1_size _ _ _ _ _)); reflexivity.
Qed.

Lemma dep1_pixel : forall b im y x v r c, pixel im r c -> pixel (dep1 b im y x v) r c.
Proof. intros [] im y x v r c H; exact H. Qed.

Lemma deposit_at : forall im xs ys val r c, pixel im r c ->
  at_ (deposit_pixel im xs ys val) r c ==
  at_ im r c + val * (tent (xs - inject_Z c) * tent (ys - inject_Z r)).
Proof.
  intros im xs ys val r c P. rewrite deposit_unfold. cbv zeta.
  set (x0 := Qfloor xs). set (y0 := Qfloor ys). set (wx := xs - inject_Z x0). set (wy := ys - inject_Z y0).
  assert (S1 : forall b1 y1 x1 v1, rows (dep1 b1 im y1 x1 v1) = rows im /\ cols (dep1 b1 im y1 x1 v1) = cols im)
    by (intros; apply dep1_size).
  rewrite !dep1_at;
    try (repeat apply dep1_pixel; assumption);
    try (rewrite ?(proj1 (dep1_size _ _ _ _ _)); reflexivity);
    try (rewrite ?(proj2 (dep1_size _ _ _ _ _)); reflexivity).
  rewrite !Z.add_0_r.
  destruct (tent_weight xs c) as (X1 & X2 & X3). destruct (tent_weight ys r) as (Y1 & Y2 & Y3).
  fold x0 wx in X1, X2, X3. fold y0 wy in Y1, Y2, Y3.
  destruct (Z.eqb_spec r y0) as [Er|Nr]; destruct (Z.eqb_spec c x0) as [Ec|Nc];
  destruct (Z.eqb_spec r (y0 + 1)) as [Er1|Nr1]; destruct (Z.eqb_spec c (x0 + 1)) as [Ec1|Nc1]; try lia;
  rewrite ?(X1 Ec), ?(X2 Ec1), ?(Y1 Er), ?(Y2 Er1), ?(X3 Nc Nc1), ?(Y3 Nr Nr1); ring.
Qed.

(** * Forward warping *)
Lemma forward_at : forall im f dt r c, nonempty im -> pixel im r c ->
  rows (forward im f dt) = rows im /\ cols (forward im f dt) = cols im /\
  at_ (forward im f dt) r c ==
  sumZ (rows im) (fun y => sumZ (cols im) (fun x =>
    at_ im y x * (tent (moved_x f dt y x - inject_Z c) * tent (moved_y f dt y x - inject_Z r)))).
Proof.
  intros im f dt r c [Hr Hc] P. unfold forward.
  set (W := cols im) in *. set (H := rows im) in *.
  set (contrib := fun z : Z => at_ im (z / W) (z mod W) *
    (tent (moved_x f dt (z / W) (z mod W) - inject_Z c) * tent (moved_y f dt (z / W) (z mod W) - inject_Z r))).
  destruct (fold_sum (Z.to_nat (H * W))
    (fun acc i => deposit_pixel acc (inject_Z (Z.of_nat i mod W) + fu f (Z.of_nat i / W) (Z.of_nat i mod W) * dt)
                    (inject_Z (Z.of_nat i / W) + fv f (Z.of_nat i / W) (Z.of_nat i mod W) * dt)
                    (at_ im (Z.of_nat i / W) (Z.of_nat i mod W)))
    (fun i => contrib (Z.of_nat i)) (mkImage H W (fun _ _ => 0)) r c) as (R & C & E).
  - intros. apply deposit_size.
  - intros acc i Er Ec _. rewrite deposit_at by (split; [rewrite Er | rewrite Ec]; apply P). unfold contrib.
    apply Qplus_comp; [reflexivity|]. apply Qmult_comp; [reflexivity|].
    apply Qmult_comp; apply tent_proper; unfold moved_x, moved_y; ring.
  - cbn zeta in R, C, E. split; [exact R|]. split; [exact C|]. rewrite E. cbn [at_].
    rewrite Qplus_0_l. rewrite (sumn_ext _ _ contrib) by (intros; rewrite Z2Nat.id by lia; reflexivity).
    rewrite Z2Nat.inj_mul by lia. rewrite sumn_mul. unfold sumZ.
    apply sumn_ext. intros y Hy. apply sumn_ext. intros x Hx. unfold contrib.
    rewrite Z2Nat.id in * by lia.
    assert (E1 : ((y * W + x) / W = y)%Z) by (rewrite Z.div_add_l by lia; rewrite Z.div_small by lia; lia).
    assert (E2 : ((y * W + x) mod W = x)%Z) by (rewrite Z.add_comm, Z.mod_add by lia; apply Z.mod_small; lia).
    rewrite E1, E2. reflexivity.
Qed.

(** Sum of tents over a range: telescopes. *)
Definition ramp (t : Q) : Q := Qmin 1 (Qmax 0 t).

Lemma ramp_cases : forall t, (t <= 0 /\ ramp t == 0) \/ (0 <= t <= 1 /\ ramp t == t) \/ (1 <= t /\ ramp t == 1).
Proof.
  intros t. unfold ramp. destruct (Qlt_le_dec t 0).
  - left. split; [lra|]. rewrite (Q.max_l 0 t) by lra. apply Q.min_r. lra.
  - rewrite (Q.max_r 0 t) by lra. destruct (Qlt_le_dec t 1).
    + right; left. split; [lra|]. apply Q.min_r. lra.
    + right; right. split; [lra|]. apply Q.min_l. lra.
Qed.

Lemma ramp_proper : forall a b, a == b -> ramp a == ramp b.
Proof. intros a b E. unfold ramp. rewrite E. reflexivity. Qed.

Lemma tent_ramp : forall t, tent t == ramp (t + 1) - ramp t.
Proof.
  intros t. destruct (tent_cases t) as [[A ->]|[[A ->]|[A ->]]];
  destruct (ramp_cases t) as [[B ->]|[[B ->]|[B ->]]];
  destruct (ramp_cases (t + 1)) as [[C ->]|[[C ->]|[C ->]]]; lra.
Qed.

Lemma tent_sum : forall n x, sumn n (fun c => tent (x - inject_Z c)) == ramp (x + 1) - ramp (x + 1 - inject_Z (Z.of_nat n)).
Proof.
  induction n as [|n IH]; intros x; cbn [sumn].
  - rewrite (ramp_proper (x + 1 - inject_Z (Z.of_nat 0)) (x + 1)) by (change (inject_Z (Z.of_nat 0)) with 0; ring). ring.
  - rewrite IH, tent_ramp. rewrite (ramp_proper (x - inject_Z (Z.of_nat n) + 1) (x + 1 - inject_Z (Z.of_nat n))) by ring.
    rewrite Nat2Z.inj_succ. unfold Z.succ.
    rewrite (ramp_proper (x + 1 - inject_Z (Z.of_nat n + 1)) (x - inject_Z (Z.of_nat n))) by (rewrite inj_add1; ring).
    ring.
Qed.

(** The share of a unit deposit at [x] that falls on an axis of [n] pixels. *)
Definition share (n : Z) (x : Q) : Q := sumZ n (fun c => tent (x - inject_Z c)).

Lemma share_ramp : forall n x, (0 <= n)%Z -> share n x == ramp (x + 1) - ramp (x + 1 - inject_Z n).
Proof. intros n x H. unfold share, sumZ. rewrite tent_sum, Z2Nat.id by lia. reflexivity. Qed.

Lemma share_range : forall n x, (0 <= n)%Z -> 0 <= share n x <= 1.
Proof.
  intros n x H. rewrite share_ramp by assumption.
  assert (0 <= inject_Z n) by (change 0 with (inject_Z 0); apply inj_le; lia).
  destruct (ramp_cases (x + 1)) as [[B ->]|[[B ->]|[B ->]]];
  destruct (ramp_cases (x + 1 - inject_Z n)) as [[C ->]|[[C ->]|[C ->]]]; lra.
Qed.

Lemma share_full : forall n x, (1 <= n)%Z -> on_axis n x -> share n x == 1.
Proof.
  intros n x H [A B]. rewrite share_ramp by lia.
  destruct (ramp_cases (x + 1)) as [[C ->]|[[C ->]|[C ->]]];
  destruct (ramp_cases (x + 1 - inject_Z n)) as [[D ->]|[[D ->]|[D ->]]]; lra.
Qed.

Lemma sumZ_ext : forall n f g, (forall i, (0 <= i < n)%Z -> f i == g i) -> sumZ n f == sumZ n g.
Proof. intros n f g H. apply sumn_ext. intros. apply H. lia. Qed.

(** Total deposited = sum of pixel times the shares. *)
Lemma forward_total : forall im f dt, nonempty im ->
  total (forward im f dt) ==
  sumZ (rows im) (fun y => sumZ (cols im) (fun x =>
    at_ im y x * (share (cols im) (moved_x f dt y x) * share (rows im) (moved_y f dt y x)))).
Proof.
  intros im f dt NE. unfold total.
  assert (P0 : pixel im 0 0) by (destruct NE; split; lia).
  destruct (forward_at im f dt 0 0 NE P0) as (R & C & _). rewrite R, C.
  transitivity (sumZ (rows im) (fun r => sumZ (cols im) (fun c =>
    sumZ (rows im) (fun y => sumZ (cols im) (fun x =>
      at_ im y x * (tent (moved_x f dt y x - inject_Z c) * tent (moved_y f dt y x - inject_Z r))))))).
  { apply sumZ_ext. intros r Hr. apply sumZ_ext. intros c Hc.
    apply (forward_at im f dt r c NE). split; assumption. }
  unfold sumZ. set (h := Z.to_nat (rows im)). set (w := Z.to_nat (cols im)).
  (* move the target sums inside *)
  transitivity (sumn h (fun r => sumn h (fun y => sumn w (fun x => sumn w (fun c =>
     at_ im y x * (tent (moved_x f dt y x - inject_Z c) * tent (moved_y f dt y x - inject_Z r))))))).
  { apply sumn_ext. intros r _. rewrite sumn_swap. apply sumn_ext. intros y _. apply sumn_swap. }
  rewrite sumn_swap. apply sumn_ext. intros y _. rewrite sumn_swap. apply sumn_ext. intros x _.
  transitivity (sumn h (fun r => (at_ im y x * share (cols im) (moved_x f dt y x)) * tent (moved_y f dt y x - inject_Z r))).
  { apply sumn_ext. intros r _. unfold share, sumZ. fold w.
    rewrite <- (Qmult_assoc (at_ im y x)). rewrite (Qmult_comm (sumn w _) (tent (moved_y f dt y x - inject_Z r))).
    rewrite <- !sumn_scale. apply sumn_ext. intros c _. ring. }
  rewrite sumn_scale. unfold share, sumZ. fold h w. ring.
Qed.

Lemma forward_conserves : forall im f dt, nonempty im ->
  (forall r c, pixel im r c -> on_axis (cols im) (moved_x f dt r c) /\ on_axis (rows im) (moved_y f dt r c)) ->
  total (forward im f dt) == total im.
Proof.
  intros im f dt NE IN. rewrite forward_total by assumption. unfold total.
  apply sumZ_ext. intros y Hy. apply sumZ_ext. intros x Hx.
  destruct (IN y x) as [A B]; [split; assumption|]. destruct NE as [Hr Hc].
  rewrite !share_full by assumption. ring.
Qed.

Lemma forward_nonincreasing : forall im f dt, nonempty im ->
  (forall r c, pixel im r c -> 0 <= at_ im r c) ->
  0 <= total (forward im f dt) <= total im.
Proof.
  intros im f dt NE POS. rewrite forward_total by assumption. unfold total, sumZ. destruct NE as [Hr Hc]. split.
  - apply sumn_nonneg. intros y Hy. apply sumn_nonneg. intros x Hx.
    assert (P : 0 <= at_ im y x) by (apply POS; split; lia).
    destruct (share_range (cols im) (moved_x f dt y x)) as [A _]; [lia|].
    destruct (share_range (rows im) (moved_y f dt y x)) as [B _]; [lia|].
    repeat apply Qmult_le_0_compat; assumption.
  - apply sumn_le. intros y Hy. apply sumn_le. intros x Hx.
    assert (P : 0 <= at_ im y x) by (apply POS; split; lia).
    destruct (share_range (cols im) (moved_x f dt y x)) as [A A']; [lia|].
    destruct (share_range (rows im) (moved_y f dt y x)) as [B B']; [lia|].
    set (a := share _ _) in *. set (b := share _ (moved_y f dt y x)) in *.
    assert (a * b <= 1) by nra. nra.
Qed.

Lemma tent_0 : tent 0 == 1.
Proof. reflexivity. Qed.
Lemma tent_int : forall a b, a <> b -> tent (inject_Z a - inject_Z b) == 0.
Proof.
  intros a b N. destruct (tent_weight (inject_Z a) b) as (_ & K & L). rewrite floor_inj in *.
  destruct (Z.eq_dec b (a + 1)) as [->|M]; [rewrite K by reflexivity; ring | apply L; auto].
Qed.

(** Integer displacements: a pixel receives exactly what moves onto it. *)
Lemma forward_integer : forall im f dt dx dy r c, nonempty im -> pixel im r c ->
  (forall y x, pixel im y x -> moved_x f dt y x == inject_Z (x + dx) /\ moved_y f dt y x == inject_Z (y + dy)) ->
  (pixel im (r - dy) (c - dx) -> at_ (forward im f dt) r c == at_ im (r - dy) (c - dx)) /\
  (~ pixel im (r - dy) (c - dx) -> at_ (forward im f dt) r c == 0).
Proof.
  intros im f dt dx dy r c NE P M. destruct (forward_at im f dt r c NE P) as (_ & _ & E).
  assert (T : forall y x, pixel im y x ->
     at_ im y x * (tent (moved_x f dt y x - inject_Z c) * tent (moved_y f dt y x - inject_Z r)) ==
     (if (y =? r - dy)%Z then if (x =? c - dx)%Z then at_ im y x else 0 else 0)).
  { intros y x Px. destruct (M y x Px) as [Mx My].
    rewrite (tent_proper _ (inject_Z (x + dx) - inject_Z c)) by (rewrite Mx; reflexivity).
    rewrite (tent_proper (moved_y f dt y x - inject_Z r) (inject_Z (y + dy) - inject_Z r)) by (rewrite My; reflexivity).
    destruct (Z.eqb_spec y (r - dy)) as [->|N].
    - rewrite (tent_proper (inject_Z (r - dy + dy) - inject_Z r) 0)
        by (replace (r - dy + dy)%Z with r by lia; ring).
      destruct (Z.eqb_spec x (c - dx)) as [->|N].
      + rewrite (tent_proper (inject_Z (c - dx + dx) - inject_Z c) 0)
          by (replace (c - dx + dx)%Z with c by lia; ring). rewrite tent_0. ring.
      + rewrite (tent_int (x + dx) c) by lia. ring.
    - rewrite (tent_int (y + dy) r) by lia. ring. }
  assert (E2 : at_ (forward im f dt) r c == sumZ (rows im) (fun y => sumZ (cols im) (fun x =>
     (if (y =? r - dy)%Z then if (x =? c - dx)%Z then at_ im y x else 0 else 0)))).
  { rewrite E. apply sumZ_ext. intros y Hy. apply sumZ_ext. intros x Hx. apply T. split; assumption. }
  clear E T. split.
  - intros [Q1 Q2]. rewrite E2. unfold sumZ.
    rewrite (sumn_one _ _ (r - dy)%Z); [|lia|].
    + rewrite (sumn_one _ _ (c - dx)%Z); [|lia|].
      * rewrite !Z.eqb_refl. reflexivity.
      * intros x Hx N. rewrite Z.eqb_refl. destruct (Z.eqb_spec x (c - dx)); [contradiction | reflexivity].
    + intros y Hy N. rewrite <- (sumn_0 (Z.to_nat (cols im))). apply sumn_ext. intros x Hx.
      destruct (Z.eqb_spec y (r - dy)); [contradiction | reflexivity].
  - intros NP. rewrite E2. unfold sumZ. rewrite <- (sumn_0 (Z.to_nat (rows im))). apply sumn_ext. intros y Hy.
    rewrite <- (sumn_0 (Z.to_nat (cols im))). apply sumn_ext. intros x Hx.
    destruct (Z.eqb_spec y (r - dy)) as [Ey|]; [|reflexivity].
    destruct (Z.eqb_spec x (c - dx)) as [Ex|]; [|reflexivity].
    exfalso. apply NP. split; lia.
Qed.

(** * Backward warping *)
Lemma backward_between : forall im f dt lo hi r c, nonempty im -> bounded lo hi im -> lo <= at_ (backward im f dt) r c <= hi.
Proof. intros im f dt lo hi r c NE B. unfold backward. cbn [at_]. exact (bilinear_between im _ _ lo hi NE B). Qed.

Lemma backward_integer : forall im f dt dx dy r c, nonempty im ->
  fu f r c * dt == inject_Z dx -> fv f r c * dt == inject_Z dy -> pixel im (r - dy) (c - dx) ->
  at_ (backward im f dt) r c == at_ im (r - dy) (c - dx).
Proof.
  intros im f dt dx dy r c NE Ex Ey P. unfold backward. cbn [at_].
  rewrite (bilinear_proper im _ (inject_Z (c - dx)) _ (inject_Z (r - dy)) NE).
  - apply bilinear_grid; assumption.
  - rewrite inj_minus, Ex. reflexivity.
  - rewrite inj_minus, Ey. reflexivity.
Qed.

(** * Particles *)
Lemma move_bound : forall y q r dt lo hi, 0 <= r -> 0 <= dt -> lo <= q <= hi ->
  r * dt * lo <= (y + q * r * dt) - y <= r * dt * hi.
Proof.
  intros y q r dt lo hi Hr Hd [A B]. setoid_replace (y + q * r * dt - y) with (r * dt * q) by ring.
  assert (0 <= r * dt) by (apply Qmult_le_0_compat; assumption). split; nra.
Qed.

Lemma particle_bound : forall f dt rx ry y x lo0 hi0 lo1 hi1,
  (1 <= fH f)%Z -> (1 <= fW f)%Z -> 0 <= dt -> 0 <= rx -> 0 <= ry -> flow_bounded lo0 hi0 lo1 hi1 f ->
  let (y', x') := update_2d f dt rx ry (y, x) in
  rx * dt * lo0 <= x' - x <= rx * dt * hi0 /\ ry * dt * lo1 <= y' - y <= ry * dt * hi1.
Proof.
  intros f dt rx ry y x lo0 hi0 lo1 hi1 H1 W1 Hd Hx Hy B. unfold update_2d.
  assert (N0 : nonempty (chan0 f)) by (split; assumption). assert (N1 : nonempty (chan1 f)) by (split; assumption).
  split; apply move_bound; try assumption; apply bilinear_between; try assumption;
    intros r c [P1 P2]; apply B; assumption.
Qed.

Lemma particle_uniform : forall f dt rx ry y x u v, (1 <= fH f)%Z -> (1 <= fW f)%Z -> uniform u v f ->
  let (y', x') := update_2d f dt rx ry (y, x) in x' == x + u * rx * dt /\ y' == y + v * ry * dt.
Proof.
  intros f dt rx ry y x u v H1 W1 U. unfold update_2d.
  assert (N0 : nonempty (chan0 f)) by (split; assumption). assert (N1 : nonempty (chan1 f)) by (split; assumption).
  rewrite (bilinear_affine (chan0 f) x y u 0 0) by (try assumption; intros; cbn [chan0 at_]; rewrite (proj1 (U _ _)); ring).
  rewrite (bilinear_affine (chan1 f) x y v 0 0) by (try assumption; intros; cbn [chan1 at_]; rewrite (proj2 (U _ _)); ring).
  split; ring.
Qed.

Lemma particle_bound3 : forall f dt rx ry rz z y x lo0 hi0 lo1 hi1 lo2 hi2,
  vnonempty (g0 f) -> vnonempty (g1 f) -> vnonempty (g2 f) ->
  0 <= dt -> 0 <= rx -> 0 <= ry -> 0 <= rz ->
  vbounded lo0 hi0 (g0 f) -> vbounded lo1 hi1 (g1 f) -> vbounded lo2 hi2 (g2 f) ->
  let '(z', y', x') := update_3d f dt rx ry rz (z, y, x) in
  rx * dt * lo0 <= x' - x <= rx * dt * hi0 /\ ry * dt * lo1 <= y' - y <= ry * dt * hi1 /\
  rz * dt * lo2 <= z' - z <= rz * dt * hi2.
Proof.
  intros f dt rx ry rz z y x lo0 hi0 lo1 hi1 lo2 hi2 N0 N1 N2 Hd Hx Hy Hz B0 B1 B2. unfold update_3d.
  split; [|split]; apply move_bound; try assumption; apply trilinear_between; assumption.
Qed.

(** * Shapes *)
Lemma shapes_checked : forall n k f, check_shapes k f = Ok tt ->
  (k = 2%nat /\ exists h w, f = [h; w; 2%nat]) \/ (k = 3%nat /\ exists h w, f = [h; w; 3%nat]) /\ apply_shape n k f = Err ValueError.
Proof.
  intros n k f H. unfold check_shapes in H.
  assert (K : k = 2%nat \/ k = 3%nat).
  { destruct (Nat.eqb_spec k 2); [auto|]. destruct (Nat.eqb_spec k 3); [auto | discriminate]. }
  destruct f as [|h [|w [|d [|e f]]]];
    [destruct K as [-> | ->]; discriminate | destruct K as [-> | ->]; discriminate
    | destruct K as [-> | ->]; discriminate | | destruct K as [-> | ->]; discriminate].
  destruct K as [-> | ->].
  - left. split; [reflexivity|]. exists h, w. destruct d as [|[|[|[|k]]]]; try discriminate. reflexivity.
  - right. destruct d as [|[|[|[|k]]]]; try discriminate. split; [eauto | reflexivity].
Qed.
