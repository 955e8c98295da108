(** Images warped in binary32. *)
From Coq Require Import List Arith ZArith QArith Qround Qreals Qabs Qminmax Bool Reals Lia Lqa Lra Psatz.
From Flocq Require Import Core Relative IEEE754.BinarySingleNaN.
From Verif Require Import Prelude Model.Interp Model.Geometry Model.Render Model.InterpFloat Model.HistFloat Model.DrawFloat Model.MoveFloat Model.SampleFloat Model.Apply Model.WarpFloat.
From Verif Require Import Spec.InterpSpec Spec.WarpSpec Spec.InterpFloatSpec Spec.MoveFloatSpec Spec.WarpFloatSpec.
From Verif Require Import Proofs.InterpProofs Proofs.WarpProofs Proofs.FloatProofs Proofs.RoundProofs Proofs.InterpFloatProofs Proofs.InterpBinary.
From Verif Require Import Proofs.DrawFloatProofs Proofs.PlaceFloatProofs Proofs.KernelError Proofs.KernelFloatProofs Proofs.MoveFloatProofs Proofs.SampleFloatProofs.
Import ListNotations.
Local Open Scope R_scope.
Local Existing Instance p32.

(** * Rounding *)
Lemma e32_pos : 0 < e32.
Proof. apply bpow_gt_0. Qed.
Lemma e32_tiny : e32 <= / 1048576.
Proof. unfold e32. change (/ 1048576) with (bpow radix2 (-20)). apply bpow_le. lia. Qed.
Lemma e148 : bpow radix2 (-148) = 4 * e32.
Proof. unfold e32. change 4 with (bpow radix2 2). rewrite <- bpow_plus. reflexivity. Qed.
Lemma u_u32 : u32 = u.
Proof. reflexivity. Qed.

Lemma rn_opp : forall t, rn32 (- t) = - rn32 t.
Proof. intros t. unfold rn32. exact (round_NE_opp radix2 (SpecFloat.fexp 24 128) t). Qed.

Lemma int_small : forall z, (Z.abs z < 2 ^ 24)%Z -> rn32 (IZR z) = IZR z.
Proof. intros z H. apply rn32_exact, float32_Z, H. Qed.

Lemma moved_by_err : forall fused a b, Rabs (moved_by fused a b - a * b) <= u * Rabs (a * b) + e32.
Proof.
  intros [|] a b; unfold moved_by.
  - replace (a * b - a * b) with 0 by ring. rewrite Rabs_R0. pose proof (Rabs_pos (a * b)). pose proof u_pos. pose proof e32_pos. nra.
  - apply rn32_err.
Qed.

(** * Positions *)
Lemma place_error : forall n m d D, 0 <= n -> Rabs d <= D -> Rabs (m - d) <= u * Rabs d + e32 ->
  Rabs (rn32 (m + n) - (n + d)) <= / 16777216 * (n + 3 * D) + bpow radix2 (-148).
Proof.
  intros n m d D N HD HM. rewrite e148. pose proof (rn32_err (m + n)) as R. pose proof u_pos as U. pose proof e32_pos as E.
  assert (A : Rabs (m + n) <= Rabs (m - d) + (Rabs d + n)).
  { replace (m + n) with ((m - d) + (d + n)) by ring. eapply Rle_trans; [apply Rabs_triang|].
    apply Rplus_le_compat_l. eapply Rle_trans; [apply Rabs_triang|]. rewrite (Rabs_pos_eq n) by exact N. lra. }
  assert (B : Rabs (rn32 (m + n) - (n + d)) <= Rabs (rn32 (m + n) - (m + n)) + Rabs (m - d)).
  { replace (rn32 (m + n) - (n + d)) with ((rn32 (m + n) - (m + n)) + (m - d)) by ring. apply Rabs_triang. }
  pose proof (Rabs_pos d) as P. fold u.
  assert (C : u * Rabs (m + n) <= u * (D + n + (u * D + e32))).
  { apply Rmult_le_compat_l; [lra|]. assert (u * Rabs d <= u * D) by (apply Rmult_le_compat_l; lra). lra. }
  assert (G : u * Rabs d <= u * D) by (apply Rmult_le_compat_l; lra).
  assert (K : u * (u * D) <= u * D / 2 ) by (unfold u in *; lra).
  assert (L : u * e32 <= e32) by (unfold u; lra).
  replace (u * (D + n + (u * D + e32))) with (u * D + u * n + (u * (u * D) + u * e32)) in C by ring.
  replace (u * (n + 3 * D)) with (u * n + 3 * (u * D)) by ring.
  assert (0 <= u * D) by (apply Rmult_le_pos; lra). lra.
Qed.

Lemma moderate_fits : forall t B k, Rabs t <= B -> B <= bpow radix2 k -> (-149 <= k <= 127)%Z -> fits (rn32 t).
Proof. intros t B k H HB K. apply (rn_bound t k K). lra. Qed.

Lemma way_small : forall n d m D, (0 <= n < 2 ^ 24)%Z -> Rabs d <= D -> D <= bpow radix2 100 -> Rabs (m - d) <= u * Rabs d + e32 ->
  fits (rn32 d) /\ fits (rn32 (m + IZR n)) /\ fits (rn32 (m - IZR n)).
Proof.
  intros n d m D N HD B HM.
  assert (B' : bpow radix2 102 = 4 * bpow radix2 100) by (change 4 with (bpow radix2 2); rewrite <- bpow_plus; reflexivity).
  assert (N' : 0 <= IZR n <= bpow radix2 24) by (split; [apply IZR_le | change (bpow radix2 24) with (IZR (2 ^ 24)); apply IZR_le]; lia).
  assert (BB : bpow radix2 24 <= bpow radix2 100) by (apply bpow_le; lia).
  assert (B1 : 1 <= bpow radix2 100) by (change 1 with (bpow radix2 0); apply bpow_le; lia).
  pose proof e32_tiny as E. pose proof (Rabs_pos d) as P.
  assert (Mb : Rabs m <= 11 / 10 * D + / 1048576).
  { replace m with ((m - d) + d) by ring. eapply Rle_trans; [apply Rabs_triang|]. unfold u in HM. lra. }
  split; [|split].
  - apply (moderate_fits d D 100); [exact HD | exact B | lia].
  - apply (moderate_fits _ (bpow radix2 102) 102); [|lra | lia]. eapply Rle_trans; [apply Rabs_triang|]. rewrite (Rabs_pos_eq (IZR n)) by lra. lra.
  - apply (moderate_fits _ (bpow radix2 102) 102); [|lra | lia]. unfold Rminus. eapply Rle_trans; [apply Rabs_triang|].
    rewrite Rabs_Ropp, (Rabs_pos_eq (IZR n)) by lra. lra.
Qed.

Lemma goes_to_ok : forall fused n d dt D, (0 <= n < 2 ^ 24)%Z -> finite d -> finite dt -> Rabs (real d * real dt) <= D -> D <= bpow radix2 100 ->
  finite (goes_to32 fused n d dt) /\
  Rabs (real (goes_to32 fused n d dt) - (IZR n + real d * real dt)) <= / 16777216 * (IZR n + 3 * D) + bpow radix2 (-148).
Proof.
  intros fused n d dt D N FD FT HD B.
  pose proof (moved_by_err fused (real d) (real dt)) as ME.
  destruct (way_small n _ _ D N HD B ME) as (F1 & F2 & _).
  destruct (rep_real _ _ (rep_madd fused d dt (f32_ofZ n) _ _ _ (real_rep d FD) (real_rep dt FT) (rep_ofZ n ltac:(lia)) F1 F2)) as [F V].
  split; [exact F|]. unfold goes_to32. rewrite V. apply place_error; [apply IZR_le; lia | exact HD | exact ME].
Qed.

Lemma goes_to_int : forall fused n d dt k, (0 <= n < 2 ^ 24)%Z -> finite d -> finite dt -> real d * real dt = IZR k ->
  (Z.abs k < 2 ^ 24)%Z -> (Z.abs (n + k) < 2 ^ 24)%Z -> rep (goes_to32 fused n d dt) (IZR (n + k)).
Proof.
  intros fused n d dt k N FD FT E K S.
  assert (ME : moved_by fused (real d) (real dt) = IZR k) by (unfold moved_by; rewrite E; destruct fused; [reflexivity | apply int_small, K]).
  assert (V : rn32 (moved_by fused (real d) (real dt) + IZR n) = IZR (n + k)).
  { rewrite ME, <- plus_IZR, (Z.add_comm k n). apply int_small, S. }
  rewrite <- V. apply rep_madd; [exact (real_rep d FD) | exact (real_rep dt FT) | apply rep_ofZ; lia | |].
  - rewrite E, (int_small k K). apply fits_small. rewrite <- abs_IZR. apply IZR_le. lia.
  - rewrite V. apply fits_small. rewrite <- abs_IZR. apply IZR_le. lia.
Qed.

Lemma comes_from_rep : forall fused n d dt D, (0 <= n < 2 ^ 24)%Z -> finite d -> finite dt -> Rabs (real d * real dt) <= D -> D <= bpow radix2 100 ->
  rep (comes_from32 fused n d dt) (rn32 (- moved_by fused (real d) (real dt) + IZR n)).
Proof.
  intros fused n d dt D N FD FT HD B.
  pose proof (moved_by_err fused (real d) (real dt)) as ME.
  destruct (way_small n _ _ D N HD B ME) as (F1 & _ & F3).
  assert (F3' : fits (rn32 (- moved_by fused (real d) (real dt) + IZR n))).
  { replace (- moved_by fused (real d) (real dt) + IZR n) with (- (moved_by fused (real d) (real dt) - IZR n)) by ring.
    unfold fits in *. rewrite rn_opp, Rabs_Ropp. exact F3. }
  destruct fused; unfold comes_from32, moved_by in *.
  - replace (- (real d * real dt) + IZR n) with (- real d * real dt + IZR n) in * by ring.
    refine (rep_madd true (@Bopp 24 128 d) dt (f32_ofZ n) _ _ _ (rep_opp _ _ (real_rep d FD)) (real_rep dt FT) (rep_ofZ n ltac:(lia)) _ _).
    + replace (- real d * real dt) with (- (real d * real dt)) by ring. unfold fits in *. rewrite rn_opp, Rabs_Ropp. exact F1.
    + exact F3'.
  - replace (- rn32 (real d * real dt) + IZR n) with (IZR n - rn32 (real d * real dt)) in * by ring.
    apply rep_sub; [apply rep_ofZ; lia | apply rep_mul; [exact (real_rep d FD) | exact (real_rep dt FT) | exact F1] | exact F3'].
Qed.

Lemma comes_from_ok : forall fused n d dt D, (0 <= n < 2 ^ 24)%Z -> finite d -> finite dt -> Rabs (real d * real dt) <= D -> D <= bpow radix2 100 ->
  finite (comes_from32 fused n d dt) /\
  Rabs (real (comes_from32 fused n d dt) - (IZR n - real d * real dt)) <= / 16777216 * (IZR n + 3 * D) + bpow radix2 (-148).
Proof.
  intros fused n d dt D N FD FT HD B.
  destruct (rep_real _ _ (comes_from_rep fused n d dt D N FD FT HD B)) as [F V]. split; [exact F|]. rewrite V.
  pose proof (moved_by_err fused (real d) (real dt)) as ME.
  unfold Rminus at 2. apply (place_error (IZR n) _ (- (real d * real dt)) D); [apply IZR_le; lia | rewrite Rabs_Ropp; exact HD|].
  rewrite Rabs_Ropp. replace (- moved_by fused (real d) (real dt) - - (real d * real dt)) with (- (moved_by fused (real d) (real dt) - real d * real dt)) by ring.
  rewrite Rabs_Ropp. exact ME.
Qed.

Lemma comes_from_int : forall fused n d dt k, (0 <= n < 2 ^ 24)%Z -> finite d -> finite dt -> real d * real dt = IZR k ->
  (Z.abs k < 2 ^ 24)%Z -> (Z.abs (n - k) < 2 ^ 24)%Z -> rep (comes_from32 fused n d dt) (IZR (n - k)).
Proof.
  intros fused n d dt k N FD FT E K S.
  assert (ME : moved_by fused (real d) (real dt) = IZR k) by (unfold moved_by; rewrite E; destruct fused; [reflexivity | apply int_small, K]).
  assert (V : rn32 (- moved_by fused (real d) (real dt) + IZR n) = IZR (n - k)).
  { rewrite ME. replace (- IZR k + IZR n) with (IZR (n - k)) by (rewrite minus_IZR; ring). apply int_small, S. }
  rewrite <- V. apply (comes_from_rep fused n d dt (bpow radix2 24)); try assumption; [|apply bpow_le; lia].
  rewrite E, <- abs_IZR. change (bpow radix2 24) with (IZR (2 ^ 24)). apply IZR_le. lia.
Qed.

(** * The tent *)
Definition tentR (t : R) : R := Rmax 0 (1 - Rabs t).

Lemma tentR_range : forall t, 0 <= tentR t <= 1.
Proof. intros t. unfold tentR. pose proof (Rabs_pos t). split; [apply Rmax_l | apply Rmax_lub; lra]. Qed.

Lemma tentR_lip : forall a b, Rabs (tentR a - tentR b) <= Rabs (a - b).
Proof.
  intros a b. pose proof (Rabs_triang_inv2 a b) as T. apply Rabs_le_inv in T. unfold tentR, Rmax.
  repeat destruct Rle_dec; apply Rabs_le; lra.
Qed.

Lemma tentR_far : forall t, 1 <= Rabs t -> tentR t = 0.
Proof. intros t H. unfold tentR. apply Rmax_left. lra. Qed.

Lemma tent_R : forall q, Q2R (tent q) = tentR (Q2R q).
Proof.
  intros q. unfold tentR. destruct (tent_cases q) as [[[A B] E]|[[[A B] E]|[A E]]]; rewrite (Qeq_eqR _ _ E).
  - apply Qle_Rle in A, B. rewrite Q2R_opp, Q2R_1 in A. rewrite Q2R_0 in B. rewrite Q2R_plus, Q2R_1, Rabs_left1 by lra. rewrite Rmax_right; lra.
  - apply Qle_Rle in A, B. rewrite Q2R_1 in B. rewrite Q2R_0 in A. rewrite Q2R_minus, Q2R_1, Rabs_pos_eq by lra. rewrite Rmax_right; lra.
  - rewrite Q2R_0. symmetry. apply Rmax_left. destruct A as [A|A]; apply Qle_Rle in A; rewrite ?Q2R_opp, Q2R_1 in A.
    + rewrite Rabs_left1 by lra. lra.
    + rewrite Rabs_pos_eq by lra. lra.
Qed.

(** * The weights *)
Lemma floor_of : forall x X, rep x X -> Rabs X <= IZR (2 ^ 30) -> f32_floor x = Zfloor X.
Proof.
  intros x X [F <-] B. rewrite <- (value_R x F), floor_Q2R. rewrite <- (value_R x F) in B.
  assert (Y : f32_floor x = int32 (Qfloor (value x))).
  { unfold value. destruct x as [s|s| |s m e H]; try discriminate F; unfold f32_floor; cbn [f_val]; reflexivity. }
  rewrite Y. rewrite <- floor_Q2R. set (t := Q2R (value x)) in *. apply Rabs_le_inv in B. destruct B as [B1 B2].
  assert (L : (- 2 ^ 30 <= Zfloor t)%Z) by (apply Zfloor_lub; rewrite opp_IZR; exact B1).
  assert (G : (Zfloor t <= 2 ^ 30)%Z) by (apply le_IZR; apply Rle_trans with t; [apply Zfloor_lb | exact B2]).
  unfold int32, clipZ. lia.
Qed.

Section Factor.
Variables (x : f32) (X : R) (k : Z).
Hypothesis RX : rep x X.
Hypothesis BX : Rabs X <= IZR (2 ^ 23).
Hypothesis K0 : (0 <= k)%Z.
Let x0 := Zfloor X.

Lemma x0_range : IZR x0 <= X < IZR x0 + 1 /\ (- 2 ^ 23 <= x0 <= 2 ^ 23)%Z.
Proof.
  apply Rabs_le_inv in BX. destruct BX as [B1 B2]. pose proof (Zfloor_lb X) as L. pose proof (Zfloor_ub X) as G. fold x0 in L, G.
  split; [split; lra|]. split.
  - apply Zfloor_lub. rewrite opp_IZR. exact B1.
  - apply le_IZR. apply Rle_trans with X; [exact L | exact B2].
Qed.

Lemma wx_rep : rep (minus32 x (f32_ofZ x0)) (rn32 (X - IZR x0)).
Proof.
  destruct x0_range as [R Z]. apply rep_sub; [exact RX | apply rep_ofZ; lia|].
  apply (moderate_fits _ 1 0); [rewrite Rabs_pos_eq; lra | cbn; lra | lia].
Qed.

Lemma factor_low : k = x0 -> rep (minus32 (f32_ofZ 1) (minus32 x (f32_ofZ x0))) (rn32 (tentR (X - IZR k))) /\
  Rabs (rn32 (tentR (X - IZR k)) - tentR (X - IZR k)) <= u * tentR (X - IZR k).
Proof.
  intros E. destruct x0_range as [R Z].
  assert (FX : float32 (X - IZR x0)).
  { apply minus_int; [destruct RX as [_ <-]; exact (generic_format_B2R 24 128 x) | split; [apply IZR_le; lia | lra]|].
    apply Rle_lt_trans with (IZR (2 ^ 23)); [apply Rabs_le_inv in BX; lra | apply IZR_lt; lia]. }
  assert (T : tentR (X - IZR k) = 1 + - (X - IZR x0)).
  { rewrite E. unfold tentR. rewrite Rabs_pos_eq by lra. rewrite Rmax_right; lra. }
  assert (T0 : 0 <= 1 + - (X - IZR x0)) by lra. split.
  - rewrite T. pose proof wx_rep as WR. rewrite (rn32_exact _ FX) in WR.
    change (1 + - (X - IZR x0)) with (1 - (X - IZR x0)). apply rep_sub; [apply (rep_ofZ 1); lia | exact WR|].
    apply (moderate_fits _ 1 0); [rewrite Rabs_pos_eq; lra | cbn; lra | lia].
  - rewrite T. rewrite <- (Rabs_pos_eq (1 + - (X - IZR x0))) at 3 by exact T0. rewrite <- u_u32. apply add_error.
    + exact float32_1.
    + apply generic_format_opp. exact FX.
Qed.

Lemma factor_high : k = (x0 + 1)%Z -> rep (minus32 x (f32_ofZ x0)) (rn32 (tentR (X - IZR k))) /\
  Rabs (rn32 (tentR (X - IZR k)) - tentR (X - IZR k)) <= u * tentR (X - IZR k).
Proof.
  intros E. destruct x0_range as [R Z].
  assert (T : tentR (X - IZR k) = X + - IZR x0).
  { rewrite E, plus_IZR. unfold tentR. rewrite Rabs_left1 by lra. rewrite Rmax_right; lra. }
  rewrite T. split; [exact wx_rep|].
  rewrite <- (Rabs_pos_eq (X + - IZR x0)) at 3 by lra. rewrite <- u_u32. apply add_error.
  - destruct RX as [_ <-]; exact (generic_format_B2R 24 128 x).
  - apply generic_format_opp. apply float32_Z. lia.
Qed.

Lemma factor_none : k <> x0 -> k <> (x0 + 1)%Z -> tentR (X - IZR k) = 0.
Proof.
  intros N1 N2. destruct x0_range as [R _]. apply tentR_far. assert (C : (k <= x0 - 1 \/ x0 + 2 <= k)%Z) by lia. destruct C as [C|C].
  - assert (IZR k <= IZR x0 - 1) by (rewrite <- minus_IZR; apply IZR_le; lia). rewrite Rabs_pos_eq; lra.
  - assert (IZR x0 + 2 <= IZR k) by (rewrite <- plus_IZR; apply IZR_le; lia). rewrite Rabs_left1; lra.
Qed.

Lemma factor_close : k = x0 \/ k = (x0 + 1)%Z -> Rabs (X - IZR k) <= 1.
Proof. destruct x0_range as [R _]. intros [E|E]; rewrite E, ?plus_IZR; apply Rabs_le; lra. Qed.
End Factor.

(** * One deposit, seen from one pixel *)
Definition side (d : Z) (w : f32) : f32 := if (d =? 0)%Z then minus32 (f32_ofZ 1) w else w.
Definition hit (x0 y0 r c : Z) : bool :=
  (((c - x0 =? 0) || (c - x0 =? 1)) && ((r - y0 =? 0) || (r - y0 =? 1)))%Z.

Lemma deposit_pixel_at : forall fz acc x y val r c, fpixel acc r c ->
  let x0 := f32_floor x in let y0 := f32_floor y in
  let wx := minus32 x (f32_ofZ x0) in let wy := minus32 y (f32_ofZ y0) in
  g_at (deposit_pixel32 fz acc x y val) r c =
  if hit x0 y0 r c then madd32 (fuse_add fz (c - x0) (r - y0)) val (mult32 (side (c - x0) wx) (side (r - y0) wy)) (g_at acc r c)
  else g_at acc r c.
Proof.
  intros fz acc x y val r c [R C]. cbv zeta. unfold deposit_pixel32, hit. cbv zeta. cbn [fold_left].
  set (x0 := f32_floor x). set (y0 := f32_floor y). set (wx := minus32 x (f32_ofZ x0)). set (wy := minus32 y (f32_ofZ y0)).
  assert (A : forall (im : fimage) (b : bool) fu yi xi v w,
    g_at (if b then add_at32 fu im yi xi v w else im) r c =
    if b && ((r =? yi) && (c =? xi))%Z then madd32 fu v w (g_at im r c) else g_at im r c).
  { intros im [|] fu yi xi v w; cbn [andb]; [reflexivity | reflexivity]. }
  rewrite !A.
  assert (B : forall xi yi, (((0 <=? xi) && (xi <? g_cols acc) && (0 <=? yi) && (yi <? g_rows acc)) && ((r =? yi) && (c =? xi)) = (r =? yi) && (c =? xi))%Z).
  { intros xi yi. destruct (Z.eqb_spec r yi) as [<-|]; [|rewrite andb_false_r; reflexivity].
    destruct (Z.eqb_spec c xi) as [<-|]; [|rewrite andb_false_r; reflexivity].
    rewrite (proj2 (Z.leb_le 0 c)), (proj2 (Z.leb_le 0 r)), (proj2 (Z.ltb_lt c _)), (proj2 (Z.ltb_lt r _)) by lia. reflexivity. }
  rewrite !B.
  destruct (Z.eq_dec (c - x0) 0) as [E1|N1]; destruct (Z.eq_dec (r - y0) 0) as [E2|N2];
  destruct (Z.eq_dec (c - x0) 1) as [E3|N3]; destruct (Z.eq_dec (r - y0) 1) as [E4|N4]; try lia;
  rewrite ?E1, ?E2, ?E3, ?E4;
  repeat match goal with |- context [(?a =? ?b)%Z] =>
    first [ replace (a =? b)%Z with true by (symmetry; apply Z.eqb_eq; lia) | replace (a =? b)%Z with false by (symmetry; apply Z.eqb_neq; lia) ] end;
  cbn [andb orb]; try reflexivity; unfold side; cbn [Z.eqb]; reflexivity.
Qed.

Lemma deposit_pixel_size : forall fz acc x y val, g_rows (deposit_pixel32 fz acc x y val) = g_rows acc /\ g_cols (deposit_pixel32 fz acc x y val) = g_cols acc.
Proof.
  intros fz acc x y val. unfold deposit_pixel32. cbv zeta. cbn [fold_left].
  assert (A : forall (im : fimage) (b : bool) fu yi xi v w, g_rows (if b then add_at32 fu im yi xi v w else im) = g_rows im /\ g_cols (if b then add_at32 fu im yi xi v w else im) = g_cols im).
  { intros im [|] fu yi xi v w; split; reflexivity. }
  split; rewrite ?(proj1 (A _ _ _ _ _ _ _)), ?(proj2 (A _ _ _ _ _ _ _)); reflexivity.
Qed.

(** * The error of one deposit *)
Lemma product_error : forall a b A B k l, 0 <= A -> 0 <= B -> 0 <= k -> 0 <= l -> Rabs (a - A) <= k * A -> Rabs (b - B) <= l * B ->
  Rabs (a * b - A * B) <= ((1 + k) * (1 + l) - 1) * (A * B).
Proof.
  intros a b A B k l PA PB K L HA HB. replace (a * b - A * B) with ((a - A) * (b - B) + (a - A) * B + A * (b - B)) by ring.
  eapply Rle_trans; [apply Rabs_triang|]. eapply Rle_trans; [apply Rplus_le_compat_r, Rabs_triang|]. rewrite !Rabs_mult.
  rewrite (Rabs_pos_eq A PA), (Rabs_pos_eq B PB).
  assert (Rabs (a - A) * Rabs (b - B) <= (k * A) * (l * B)) by (apply Rmult_le_compat; try apply Rabs_pos; assumption).
  assert (Rabs (a - A) * B <= (k * A) * B) by (apply Rmult_le_compat_r; assumption).
  assert (A * Rabs (b - B) <= A * (l * B)) by (apply Rmult_le_compat_l; assumption).
  replace (((1 + k) * (1 + l) - 1) * (A * B)) with (k * A * (l * B) + k * A * B + A * (l * B)) by ring. lra.
Qed.

Lemma round_step : forall a A r k e g, 0 <= k -> 0 <= e -> Rabs (a - A) <= k * Rabs A + e -> Rabs (r - a) <= u * Rabs a + g ->
  Rabs (r - A) <= ((1 + k) * (1 + u) - 1) * Rabs A + ((1 + u) * e + g).
Proof.
  intros a A r k e g K E H1 H2. pose proof u_pos as U.
  assert (S : Rabs a <= Rabs A + Rabs (a - A)).
  { replace a with (A + (a - A)) at 1 by ring. apply Rabs_triang. }
  assert (T : Rabs (r - A) <= Rabs (r - a) + Rabs (a - A)) by (replace (r - A) with ((r - a) + (a - A)) by ring; apply Rabs_triang).
  assert (V : u * Rabs a <= u * (Rabs A + (k * Rabs A + e))) by (apply Rmult_le_compat_l; lra).
  replace (((1 + k) * (1 + u) - 1) * Rabs A + ((1 + u) * e + g)) with (u * (Rabs A + (k * Rabs A + e)) + g + (k * Rabs A + e)) by ring. lra.
Qed.

Lemma term_error : forall fused v tx ty wx wy, 0 <= tx -> 0 <= ty -> Rabs (wx - tx) <= u * tx -> Rabs (wy - ty) <= u * ty ->
  Rabs (moved_by fused v (rn32 (wx * wy)) - v * (tx * ty)) <= ((1 + u) ^ 4 - 1) * (Rabs v * (tx * ty)) + 2 * e32 * (Rabs v + 1).
Proof.
  intros fused v tx ty wx wy PX PY HX HY. pose proof u_pos as U. pose proof e32_pos as E.
  assert (PP : 0 <= tx * ty) by (apply Rmult_le_pos; assumption).
  pose proof (product_error _ _ _ _ u u PX PY ltac:(lra) ltac:(lra) HX HY) as P.
  pose proof (rn32_err (wx * wy)) as R1.
  assert (K : 0 <= (1 + u) * (1 + u) - 1) by (replace ((1 + u) * (1 + u) - 1) with (2 * u + u * u) by ring; nra).
  assert (P' : Rabs (wx * wy - tx * ty) <= ((1 + u) * (1 + u) - 1) * Rabs (tx * ty) + 0) by (rewrite (Rabs_pos_eq _ PP); lra).
  pose proof (round_step _ _ _ _ _ _ K (Rle_refl 0) P' R1) as W. rewrite (Rabs_pos_eq _ PP) in W.
  set (w := rn32 (wx * wy)) in *.
  set (k3 := (1 + ((1 + u) * (1 + u) - 1)) * (1 + u) - 1) in *.
  assert (K3 : 0 <= k3) by (unfold k3; replace ((1 + ((1 + u) * (1 + u) - 1)) * (1 + u) - 1) with (3 * u + 3 * (u * u) + u * (u * u)) by ring; nra).
  assert (M : Rabs (v * w - v * (tx * ty)) <= k3 * Rabs (v * (tx * ty)) + Rabs v * e32).
  { replace (v * w - v * (tx * ty)) with (v * (w - tx * ty)) by ring. rewrite !Rabs_mult, (Rabs_pos_eq _ PX), (Rabs_pos_eq _ PY).
    pose proof (Rmult_le_compat_l (Rabs v) _ _ (Rabs_pos v) W) as W'.
    replace (k3 * (Rabs v * (tx * ty)) + Rabs v * e32) with (Rabs v * (k3 * (tx * ty) + ((1 + u) * 0 + e32))) by ring. exact W'. }
  pose proof (moved_by_err fused v w) as R2.
  assert (VE : 0 <= Rabs v * e32) by (apply Rmult_le_pos; [apply Rabs_pos | lra]).
  pose proof (round_step _ _ _ _ _ _ K3 VE M R2) as F.
  rewrite (Rabs_mult v), (Rabs_pos_eq _ PP) in F.
  replace ((1 + k3) * (1 + u) - 1) with ((1 + u) ^ 4 - 1) in F by (unfold k3; ring).
  eapply Rle_trans; [exact F|]. apply Rplus_le_compat_l.
  assert ((1 + u) * (Rabs v * e32) <= 2 * (Rabs v * e32)) by (apply Rmult_le_compat_r; [exact VE | unfold u; lra]). lra.
Qed.

Definition grown (n : nat) : R := (1 + u) ^ n.
Lemma grown_1 : forall n, 1 <= grown n.
Proof. intros n. apply pow_R1_Rle. pose proof u_pos. lra. Qed.
Lemma grown_S : forall n, grown (S n) = (1 + u) * grown n.
Proof. reflexivity. Qed.
Lemma grown_le : forall m n, (m <= n)%nat -> grown m <= grown n.
Proof. intros m n H. apply Rle_pow; [pose proof u_pos; lra | exact H]. Qed.
Lemma grown_inv : forall n, grown n * (1 - INR n * u) <= 1.
Proof.
  induction n as [|n IH]; [cbn [grown pow INR]; unfold grown; cbn; lra|].
  rewrite grown_S, S_INR. pose proof (grown_1 n) as G. pose proof u_pos as U. pose proof (pos_INR n) as N.
  assert (H : (1 + u) * (1 - (INR n + 1) * u) <= 1 - INR n * u).
  { replace ((1 + u) * (1 - (INR n + 1) * u)) with (1 - INR n * u - (INR n * (u * u) + u * u)) by ring.
    assert (0 <= INR n * (u * u)) by (apply Rmult_le_pos; [exact N | nra]). nra. }
  replace ((1 + u) * grown n * (1 - (INR n + 1) * u)) with (grown n * ((1 + u) * (1 - (INR n + 1) * u))) by ring.
  eapply Rle_trans; [apply Rmult_le_compat_l; [lra | exact H] | exact IH].
Qed.
Lemma grown_small : forall n, (Z.of_nat n <= 2 ^ 23)%Z -> grown (n + 4) <= 21 / 10.
Proof.
  intros n N. pose proof (grown_inv (n + 4)) as G. pose proof (grown_1 (n + 4)) as G1.
  assert (I : INR (n + 4) <= 8388612) by (rewrite INR_IZR_INZ; apply IZR_le; lia).
  assert (U : INR (n + 4) * u <= 52 / 100) by (unfold u; lra).
  assert (H : grown (n + 4) * (48 / 100) <= 1).
  { eapply Rle_trans; [|exact G]. apply Rmult_le_compat_l; lra. }
  lra.
Qed.

(** One more addition. *)
Lemma add_step : forall h a T A t Tn An d d0, 0 <= A -> Rabs T <= A -> 0 <= An -> Rabs Tn <= An -> 0 <= d0 -> d0 + e32 <= d ->
  Rabs (a - T) <= (grown (h + 4) - 1) * A + grown h * INR h * d -> Rabs (t - Tn) <= ((1 + u) ^ 4 - 1) * An + d0 ->
  Rabs (rn32 (t + a) - (T + Tn)) <= (grown (S h + 4) - 1) * (A + An) + grown (S h) * INR (S h) * d.
Proof.
  intros h a T A t Tn An d d0 PA HT PN HN P0 HD H1 H2. pose proof u_pos as U. pose proof e32_pos as E.
  pose proof (rn32_err (t + a)) as R.
  change ((1 + u) ^ 4) with (grown 4) in H2.
  pose proof (grown_1 (h + 4)) as G1. pose proof (grown_1 h) as G2. pose proof (grown_1 4) as G4.
  assert (G5 : grown 4 <= grown (h + 4)) by (apply grown_le; lia).
  assert (S1 : Rabs (t + a - (T + Tn)) <= (grown (h + 4) - 1) * (A + An) + (grown h * INR h * d + d0)).
  { replace (t + a - (T + Tn)) with ((a - T) + (t - Tn)) by ring. eapply Rle_trans; [apply Rabs_triang|].
    assert ((grown 4 - 1) * An <= (grown (h + 4) - 1) * An) by (apply Rmult_le_compat_r; lra). lra. }
  assert (S2 : Rabs (t + a) <= (A + An) + Rabs (t + a - (T + Tn))).
  { replace (t + a) with ((T + Tn) + (t + a - (T + Tn))) at 1 by ring. eapply Rle_trans; [apply Rabs_triang|].
    pose proof (Rabs_triang T Tn). lra. }
  assert (S3 : Rabs (rn32 (t + a) - (T + Tn)) <= Rabs (rn32 (t + a) - (t + a)) + Rabs (t + a - (T + Tn))).
  { replace (rn32 (t + a) - (T + Tn)) with ((rn32 (t + a) - (t + a)) + (t + a - (T + Tn))) by ring. apply Rabs_triang. }
  set (X := Rabs (t + a - (T + Tn))) in *. set (B := A + An) in *.
  assert (S4 : u * Rabs (t + a) <= u * (B + X)) by (apply Rmult_le_compat_l; lra).
  assert (S5 : (1 + u) * X <= (1 + u) * ((grown (h + 4) - 1) * B + (grown h * INR h * d + d0))) by (apply Rmult_le_compat_l; lra).
  change (S h + 4)%nat with (S (h + 4)). rewrite !grown_S, S_INR.
  assert (S6 : e32 <= (1 + u) * grown h * e32).
  { assert (1 <= (1 + u) * grown h) by nra. replace e32 with (1 * e32) at 1 by ring. apply Rmult_le_compat_r; lra. }
  assert (S7 : (1 + u) * d0 <= (1 + u) * grown h * d0).
  { replace ((1 + u) * grown h * d0) with ((1 + u) * (grown h * d0)) by ring. apply Rmult_le_compat_l; [lra|].
    replace d0 with (1 * d0) at 1 by ring. apply Rmult_le_compat_r; lra. }
  assert (S8 : (1 + u) * grown h * (d0 + e32) <= (1 + u) * grown h * d) by (apply Rmult_le_compat_l; [nra | exact HD]).
  replace (((1 + u) * grown (h + 4) - 1) * B + (1 + u) * grown h * (INR h + 1) * d)
    with (u * B + (1 + u) * ((grown (h + 4) - 1) * B + grown h * INR h * d) + (1 + u) * grown h * d) by ring.
  replace ((1 + u) * ((grown (h + 4) - 1) * B + (grown h * INR h * d + d0))) with ((1 + u) * ((grown (h + 4) - 1) * B + grown h * INR h * d) + (1 + u) * d0) in S5 by ring.
  replace ((1 + u) * grown h * (d0 + e32)) with ((1 + u) * grown h * d0 + (1 + u) * grown h * e32) in S8 by ring.
  replace (u * (B + X)) with (u * B + u * X) in S4 by ring. lra.
Qed.

(** * Sums over lists of pixels *)
Definition sumL (g : Z * Z -> R) (P : list (Z * Z)) : R := fold_right (fun p s => g p + s) 0 P.
Lemma zz_dec : forall p q : Z * Z, {p = q} + {p <> q}.
Proof. decide equality; apply Z.eq_dec. Qed.
Definition inl (l : list (Z * Z)) (p : Z * Z) : bool := if in_dec zz_dec p l then true else false.
Lemma inl_in : forall l p, inl l p = true <-> In p l.
Proof. intros l p. unfold inl. destruct in_dec; split; intros; try assumption; try reflexivity; [discriminate | contradiction]. Qed.

Lemma sumL_le : forall g h P, (forall p, In p P -> g p <= h p) -> sumL g P <= sumL h P.
Proof.
  intros g h P. induction P as [|p P IH]; intros H; cbn [sumL fold_right]; [lra|].
  pose proof (H p (or_introl eq_refl)). pose proof (IH (fun q I => H q (or_intror I))). unfold sumL in *. lra.
Qed.
Lemma sumL_nonneg : forall g P, (forall p, In p P -> 0 <= g p) -> 0 <= sumL g P.
Proof.
  intros g P. induction P as [|p P IH]; intros H; cbn [sumL fold_right]; [lra|].
  pose proof (H p (or_introl eq_refl)). pose proof (IH (fun q I => H q (or_intror I))). unfold sumL in *. lra.
Qed.
Lemma sumL_scale : forall k g P, sumL (fun p => k * g p) P = k * sumL g P.
Proof. intros k g P. induction P as [|p P IH]; cbn [sumL fold_right]; [ring|]. unfold sumL in *. rewrite IH. ring. Qed.
Lemma sumL_dist : forall g h P, Rabs (sumL g P - sumL h P) <= sumL (fun p => Rabs (g p - h p)) P.
Proof.
  intros g h P. induction P as [|p P IH]; cbn [sumL fold_right].
  - rewrite Rminus_0_r, Rabs_R0. lra.
  - fold (sumL g P) (sumL h P) (sumL (fun p => Rabs (g p - h p)) P).
    replace (g p + sumL g P - (h p + sumL h P)) with ((g p - h p) + (sumL g P - sumL h P)) by ring.
    eapply Rle_trans; [apply Rabs_triang|]. lra.
Qed.
Lemma sumL_one : forall g q P, NoDup P -> (forall p, 0 <= g p) -> sumL (fun p => if zz_dec p q then g p else 0) P <= g q.
Proof.
  intros g q P ND G. induction ND as [|p P N ND IH]; cbn [sumL fold_right]; [apply G|].
  fold (sumL (fun p => if zz_dec p q then g p else 0) P). destruct (zz_dec p q) as [->|NE].
  - assert (Z : sumL (fun p => if zz_dec p q then g p else 0) P <= sumL (fun _ => 0) P).
    { apply sumL_le. intros p I. destruct (zz_dec p q) as [->|]; [contradiction | lra]. }
    assert (Z0 : sumL (fun _ => 0) P = 0) by (clear; induction P as [|p P IH]; cbn [sumL fold_right]; [reflexivity|]; unfold sumL in *; rewrite IH; ring).
    lra.
  - lra.
Qed.
Lemma sumL_plus : forall g h P, sumL (fun p => g p + h p) P = sumL g P + sumL h P.
Proof. intros g h P. induction P as [|p P IH]; cbn [sumL fold_right]; [ring|]. unfold sumL in *. rewrite IH. ring. Qed.
Lemma sumL_in : forall l g P, NoDup P -> (forall p, 0 <= g p) -> sumL (fun p => if inl l p then g p else 0) P <= sumL g l.
Proof.
  intros l g P ND G. induction l as [|q l IH].
  - cbn [sumL fold_right]. clear. induction P as [|p P IH]; cbn [sumL fold_right]; [lra|]. unfold sumL in *. cbn [inl] in *. destruct (inl [] p) eqn:E; [apply inl_in in E; contradiction|]. lra.
  - cbn [sumL fold_right]. fold (sumL g l).
    eapply Rle_trans; [|apply Rplus_le_compat; [exact (sumL_one g q P ND G) | exact IH]]. rewrite <- sumL_plus. apply sumL_le. intros p _.
    destruct (inl (q :: l) p) eqn:E.
    + apply inl_in in E. pose proof (G p). destruct (zz_dec p q) as [E2|E2]; [destruct (inl l p); lra|].
      destruct E as [E|E]; [congruence|]. rewrite (proj2 (inl_in l p) E). lra.
    + pose proof (G p). destruct (zz_dec p q), (inl l p); lra.
Qed.

Lemma fold_map : forall {A B C} (s : A -> B -> A) (g : C -> B) l a, fold_left s (map g l) a = fold_left (fun a x => s a (g x)) l a.
Proof. intros A B C s g l. induction l as [|x l IH]; intros a; [reflexivity|]. cbn [map fold_left]. apply IH. Qed.

(** The pixels in the order of the loop. *)
Definition at_index (W : Z) (i : nat) : Z * Z := (Z.of_nat i / W, Z.of_nat i mod W)%Z.
Definition all_pixels (H W : Z) : list (Z * Z) := map (at_index W) (seq 0 (Z.to_nat (H * W))).

Lemma all_nodup : forall H W, (1 <= W)%Z -> NoDup (all_pixels H W).
Proof.
  intros H W P. unfold all_pixels. apply FinFun.Injective_map_NoDup; [|apply seq_NoDup].
  intros i j E. injection E as E1 E2. pose proof (Z.div_mod (Z.of_nat i) W ltac:(lia)) as A. pose proof (Z.div_mod (Z.of_nat j) W ltac:(lia)) as B.
  rewrite E1, E2 in A. lia.
Qed.
Lemma all_in : forall H W y x, (1 <= W)%Z -> In (y, x) (all_pixels H W) <-> ((0 <= y < H) /\ (0 <= x < W))%Z.
Proof.
  intros H W y x P. unfold all_pixels. rewrite in_map_iff. split.
  - intros (i & E & I). apply in_seq in I. injection E as <- <-. pose proof (Z.mod_pos_bound (Z.of_nat i) W ltac:(lia)) as M. split; [|exact M].
    split; [apply Z.div_pos; lia|]. apply Z.div_lt_upper_bound; nia.
  - intros [Y X]. exists (Z.to_nat (y * W + x)). unfold at_index. rewrite Z2Nat.id by nia. split.
    + f_equal; [rewrite Z.div_add_l by lia; rewrite Z.div_small by lia; lia | rewrite Z.add_comm, Z.mod_add by lia; apply Z.mod_small; lia].
    + apply in_seq. split; [lia|]. rewrite Nat.add_0_l. apply Z2Nat.inj_lt; nia.
Qed.

Definition deposit_of (fz : fusing) (im : fimage) (f : flow32) (dt : f32) (acc : fimage) (p : Z * Z) : fimage :=
  deposit_pixel32 fz acc (goes_to32 (fuse_x fz) (snd p) (h_u f (fst p) (snd p)) dt) (goes_to32 (fuse_y fz) (fst p) (h_v f (fst p) (snd p)) dt) (g_at im (fst p) (snd p)).
Definition blank (im : fimage) : fimage := @mkGimage binary32 (g_rows im) (g_cols im) (fun _ _ => f32_ofZ 0).

Lemma forward_fold : forall fz im f dt, forward32 fz im f dt = fold_left (deposit_of fz im f dt) (all_pixels (g_rows im) (g_cols im)) (blank im).
Proof. intros fz im f dt. unfold all_pixels. rewrite fold_map. reflexivity. Qed.

Lemma fold_size : forall fz im f dt P acc, let out := fold_left (deposit_of fz im f dt) P acc in g_rows out = g_rows acc /\ g_cols out = g_cols acc.
Proof.
  intros fz im f dt P. induction P as [|p P IH]; intros acc; [split; reflexivity|]. cbn [fold_left]. cbv zeta in *.
  destruct (IH (deposit_of fz im f dt acc p)) as [A B]. rewrite A, B.
  unfold deposit_of. apply deposit_pixel_size.
Qed.

Section Forward.
Variables (fz : fusing) (im : fimage) (f : flow32) (dt : f32) (D : R) (r c : Z) (l : list (Z * Z)).
Hypothesis SR : (1 <= g_rows im)%Z.
Hypothesis SC : (1 <= g_cols im)%Z.
Hypothesis DR : IZR (g_rows im) + 3 * D <= IZR (2 ^ 23).
Hypothesis DC : IZR (g_cols im) + 3 * D <= IZR (2 ^ 23).
Hypothesis TR : travels D im f dt.
Hypothesis PX : fpixel im r c.
Hypothesis CA : catches im f dt r c l.
Hypothesis FL : forall y x, fpixel im y x -> In (y, x) l -> finite (g_at im y x).
Hypothesis LL : (Z.of_nat (List.length l) <= 2 ^ 23)%Z.
Hypothesis LB : light im l <= bpow radix2 125.

Let fx (p : Z * Z) : f32 := goes_to32 (fuse_x fz) (snd p) (h_u f (fst p) (snd p)) dt.
Let fy (p : Z * Z) : f32 := goes_to32 (fuse_y fz) (fst p) (h_v f (fst p) (snd p)) dt.
Let ex (p : Z * Z) : R := IZR (snd p) + real (h_u f (fst p) (snd p)) * real dt.
Let ey (p : Z * Z) : R := IZR (fst p) + real (h_v f (fst p) (snd p)) * real dt.
Let vf (p : Z * Z) : f32 := g_at im (fst p) (snd p).
Let ok (p : Z * Z) : Prop := fpixel im (fst p) (snd p).

Lemma D_pos : 0 <= D.
Proof. destruct TR as [_ T]. destruct (T r c PX) as (_ & A & _). pose proof (Rabs_pos (real (h_u f r c) * real dt)). lra. Qed.

Lemma slip_small : slip (g_rows im) D <= 51 / 100 /\ slip (g_cols im) D <= 51 / 100 /\ 0 <= slip (g_rows im) D /\ 0 <= slip (g_cols im) D.
Proof.
  unfold slip. rewrite e148. pose proof e32_tiny as E. pose proof e32_pos as E0. pose proof D_pos as D0.
  assert (IZR (2 ^ 23) = 8388608) by reflexivity.
  assert (0 <= IZR (g_rows im)) by (apply IZR_le; lia). assert (0 <= IZR (g_cols im)) by (apply IZR_le; lia). repeat split; lra.
Qed.

Lemma axis_ok32 : forall fused n i d, (1 <= n)%Z -> IZR n + 3 * D <= IZR (2 ^ 23) -> slip n D <= 51 / 100 -> (0 <= i < n)%Z -> finite d -> Rabs (real d * real dt) <= D ->
  let x := goes_to32 fused i d dt in
  finite x /\ Rabs (real x - (IZR i + real d * real dt)) <= slip n D /\ Rabs (real x) <= IZR (2 ^ 23).
Proof.
  intros fused n i d N BN SL I Fd Hd x. destruct TR as [FT _]. pose proof D_pos as D0.
  assert (I0 : 0 <= IZR i) by (apply IZR_le; lia). assert (I1 : IZR i <= IZR n - 1) by (rewrite <- minus_IZR; apply IZR_le; lia).
  assert (B23 : IZR (2 ^ 23) = bpow radix2 23) by reflexivity. assert (B100 : bpow radix2 23 <= bpow radix2 100) by (apply bpow_le; lia).
  assert (IB : (0 <= i < 2 ^ 24)%Z).
  { split; [lia|]. assert (n <= 2 ^ 23)%Z by (apply le_IZR; lra). lia. }
  destruct (goes_to_ok fused i d dt D IB Fd FT Hd ltac:(lra)) as [F E]. split; [exact F|]. fold x in F, E.
  assert (S : Rabs (real x - (IZR i + real d * real dt)) <= slip n D).
  { eapply Rle_trans; [exact E|]. unfold slip. apply Rplus_le_compat_r. apply Rmult_le_compat_l; lra. }
  split; [exact S|]. apply Rabs_le_inv in S. apply Rabs_le_inv in Hd. apply Rabs_le. lra.
Qed.

Lemma pos_x : forall p, ok p -> finite (fx p) /\ Rabs (real (fx p) - ex p) <= slip (g_cols im) D /\ Rabs (real (fx p)) <= IZR (2 ^ 23).
Proof.
  intros p O. destruct TR as [_ T]. destruct (T _ _ O) as (A & B & _). destruct O as [_ O]. apply axis_ok32; try assumption. apply slip_small.
Qed.
Lemma pos_y : forall p, ok p -> finite (fy p) /\ Rabs (real (fy p) - ey p) <= slip (g_rows im) D /\ Rabs (real (fy p)) <= IZR (2 ^ 23).
Proof.
  intros p O. destruct TR as [_ T]. destruct (T _ _ O) as (_ & _ & A & B). destruct O as [O _]. apply axis_ok32; try assumption. apply slip_small.
Qed.

Definition tx (p : Z * Z) : R := tentR (real (fx p) - IZR c).
Definition ty (p : Z * Z) : R := tentR (real (fy p) - IZR r).
Definition hits (p : Z * Z) : bool := hit (Zfloor (real (fx p))) (Zfloor (real (fy p))) r c.
Definition term (p : Z * Z) : R := real (vf p) * (tx p * ty p).
Definition aterm (p : Z * Z) : R := Rabs (real (vf p)) * (tx p * ty p).
Definition termq (p : Z * Z) : R := real (vf p) * (tentR (ex p - IZR c) * tentR (ey p - IZR r)).

Lemma hit_sides : forall p, hits p = true ->
  (c = Zfloor (real (fx p)) \/ c = Zfloor (real (fx p)) + 1)%Z /\ (r = Zfloor (real (fy p)) \/ r = Zfloor (real (fy p)) + 1)%Z.
Proof.
  intros p E. unfold hits, hit in E. apply andb_true_iff in E. destruct E as [E1 E2]. apply orb_true_iff in E1, E2. rewrite !Z.eqb_eq in E1, E2. lia.
Qed.
Lemma hit_not : forall p, hits p = false ->
  (c <> Zfloor (real (fx p)) /\ c <> Zfloor (real (fx p)) + 1)%Z \/ (r <> Zfloor (real (fy p)) /\ r <> Zfloor (real (fy p)) + 1)%Z.
Proof.
  intros p E. unfold hits, hit in E. apply andb_false_iff in E. destruct E as [E|E]; apply orb_false_iff in E; rewrite !Z.eqb_neq in E; lia.
Qed.

Lemma hit_in : forall p, ok p -> hits p = true -> In p l.
Proof.
  intros p O Hh. destruct (pos_x p O) as (FX & SX & BX). destruct (pos_y p O) as (FY & SY & BY).
  destruct (hit_sides p Hh) as [A B]. destruct slip_small as (S1 & S2 & _ & _).
  pose proof (factor_close _ _ BX A) as CX. pose proof (factor_close _ _ BY B) as CY.
  destruct p as [y x]. apply CA; [exact O|]. unfold lands_near. cbn [fst snd] in *. unfold ex, ey in *. cbn [fst snd] in *.
  apply Rabs_le_inv in SX, SY, CX, CY. split; apply Rabs_le; lra.
Qed.

Lemma no_hit : forall p, ok p -> hits p = false -> term p = 0 /\ aterm p = 0.
Proof.
  intros p O Hh. destruct (pos_x p O) as (FX & SX & BX). destruct (pos_y p O) as (FY & SY & BY).
  assert (Z : tx p * ty p = 0).
  { destruct (hit_not p Hh) as [[A B]|[A B]].
    - unfold tx. rewrite (factor_none _ c BX A B). ring.
    - unfold ty. rewrite (factor_none _ r BY A B). ring. }
  unfold term, aterm. rewrite Z. split; ring.
Qed.

Lemma t_range : forall p, 0 <= tx p <= 1 /\ 0 <= ty p <= 1 /\ 0 <= tx p * ty p <= 1.
Proof.
  intros p. pose proof (tentR_range (real (fx p) - IZR c)) as A. pose proof (tentR_range (real (fy p) - IZR r)) as B. fold (tx p) in A. fold (ty p) in B.
  split; [exact A|]. split; [exact B|]. split; [apply Rmult_le_pos; lra|]. replace 1 with (1 * 1) by ring. apply Rmult_le_compat; lra.
Qed.
Lemma aterm_range : forall p, Rabs (term p) = aterm p /\ 0 <= aterm p <= Rabs (real (vf p)).
Proof.
  intros p. destruct (t_range p) as (_ & _ & A & B). unfold term, aterm. rewrite Rabs_mult, (Rabs_pos_eq _ A).
  pose proof (Rabs_pos (real (vf p))) as V. split; [reflexivity|]. split; [apply Rmult_le_pos; assumption|].
  replace (Rabs (real (vf p))) with (Rabs (real (vf p)) * 1) at 2 by ring. apply Rmult_le_compat_l; assumption.
Qed.

Definition delta : R := 2 * e32 * (light im l + 1) + e32.
Definition bright : Prop := forall y x, fpixel im y x -> In (y, x) l -> 0 <= real (g_at im y x).
Definition Inv (acc : fimage) (T A : R) (h : nat) : Prop :=
  exists a, rep (g_at acc r c) a /\ Rabs (a - T) <= (grown (h + 4) - 1) * A + grown h * INR h * delta /\ Rabs T <= A /\ (bright -> 0 <= a).

Lemma light_is : light im l = sumL (fun p => Rabs (real (vf p))) l.
Proof. reflexivity. Qed.

Lemma in_light : forall p, In p l -> Rabs (real (vf p)) <= light im l.
Proof.
  intros p I. rewrite light_is. apply in_split in I. destruct I as (l1 & l2 & ->). unfold sumL. rewrite fold_right_app. cbn [fold_right].
  assert (G : forall k t, t <= fold_right (fun p s => Rabs (real (vf p)) + s) t k).
  { induction k as [|q k IH]; intros t; cbn [fold_right]; [lra|]. pose proof (IH t). pose proof (Rabs_pos (real (vf q))). lra. }
  eapply Rle_trans; [|apply G]. pose proof (sumL_nonneg (fun p => Rabs (real (vf p))) l2 (fun q _ => Rabs_pos _)). unfold sumL in *. lra.
Qed.

Lemma light_pos : 0 <= light im l.
Proof. rewrite light_is. apply sumL_nonneg. intros. apply Rabs_pos. Qed.

Lemma delta_small : 0 <= delta <= 3 * u + e32.
Proof.
  unfold delta. pose proof light_pos as L. pose proof e32_pos as E.
  assert (B : bpow radix2 126 = 2 * bpow radix2 125) by (change 2 with (bpow radix2 1); rewrite <- bpow_plus; reflexivity).
  assert (B1 : 1 <= bpow radix2 125) by (change 1 with (bpow radix2 0); apply bpow_le; lia).
  assert (M : e32 * (light im l + 1) <= e32 * bpow radix2 126) by (apply Rmult_le_compat_l; lra).
  assert (P : e32 * bpow radix2 126 = u) by (unfold e32; rewrite <- bpow_plus; reflexivity).
  assert (0 <= e32 * (light im l + 1)) by (apply Rmult_le_pos; lra). pose proof u_pos. lra.
Qed.

Lemma sums_stay : forall h A, (Z.of_nat h <= 2 ^ 23)%Z -> 0 <= A <= light im l ->
  A + ((grown (h + 4) - 1) * A + grown h * INR h * delta) < bpow radix2 128.
Proof.
  intros h A Hh HA. pose proof (grown_small h Hh) as G. pose proof (grown_1 (h + 4)) as G1. pose proof (grown_1 h) as G2.
  assert (G3 : grown h <= grown (h + 4)) by (apply grown_le; lia). pose proof delta_small as DS.
  assert (I : 0 <= INR h <= 8388608) by (split; [apply pos_INR | rewrite INR_IZR_INZ; apply IZR_le; lia]).
  assert (X1 : (grown (h + 4) - 1) * A <= 11 / 10 * A) by (apply Rmult_le_compat_r; lra).
  assert (X2 : grown h * INR h <= 21 / 10 * 8388608) by (apply Rmult_le_compat; lra).
  assert (X3 : grown h * INR h * delta <= 21 / 10 * 8388608 * (4 * u)).
  { apply Rmult_le_compat; [apply Rmult_le_pos; lra | lra | exact X2|]. pose proof e32_tiny. 
    assert (e32 <= u) by (unfold e32, u; change (/ 16777216) with (bpow radix2 (-24)); apply bpow_le; lia). lra. }
  assert (X4 : 21 / 10 * 8388608 * (4 * u) <= 8) by (unfold u; lra).
  assert (B : bpow radix2 128 = 8 * bpow radix2 125) by (change 8 with (bpow radix2 3); rewrite <- bpow_plus; reflexivity).
  assert (B1 : 8 <= bpow radix2 125) by (change 8 with (bpow radix2 3); apply bpow_le; lia). lra.
Qed.

Lemma step_inv : forall acc p T A h, Inv acc T A h -> g_rows acc = g_rows im -> g_cols acc = g_cols im -> ok p -> 0 <= A ->
  A + aterm p <= light im l -> (Z.of_nat (if hits p then S h else h) <= 2 ^ 23)%Z ->
  Inv (deposit_of fz im f dt acc p) (T + term p) (A + aterm p) (if hits p then S h else h).
Proof.
  intros acc p T A h (a & RA & EA & TA & PA) GR GC O A0 BA BH.
  destruct (pos_x p O) as (FX & SX & BX). destruct (pos_y p O) as (FY & SY & BY).
  pose proof (real_rep _ FX) as RX. pose proof (real_rep _ FY) as RY.
  assert (PA' : fpixel acc r c) by (unfold fpixel; rewrite GR, GC; exact PX).
  assert (B30 : IZR (2 ^ 23) <= IZR (2 ^ 30)) by (apply IZR_le; lia).
  pose proof (deposit_pixel_at fz acc (fx p) (fy p) (vf p) r c PA') as E. cbv zeta in E.
  rewrite (floor_of _ _ RX ltac:(lra)), (floor_of _ _ RY ltac:(lra)) in E. fold (hits p) in E.
  unfold Inv. unfold deposit_of. fold (fx p) (fy p) (vf p). rewrite E. clear E.
  destruct (hits p) eqn:Hh.
  2: { destruct (no_hit p O Hh) as [Z1 Z2]. rewrite Z1, Z2, !Rplus_0_r. exists a. repeat split; assumption || apply RA. }
  pose proof (hit_in p O Hh) as IN. destruct p as [y x] eqn:Ep. pose proof (FL y x O IN) as FV. rewrite <- Ep in *. change (finite (vf p)) with (finite (g_at im (fst p) (snd p))).
  assert (FV' : finite (vf p)) by (unfold vf; rewrite Ep; exact FV).
  destruct (hit_sides p Hh) as [HX HY]. destruct PX as [R0 C0].
  assert (WX : exists sx, rep (side (c - Zfloor (real (fx p))) (minus32 (fx p) (f32_ofZ (Zfloor (real (fx p)))))) sx /\ Rabs (sx - tx p) <= u * tx p /\ 0 <= sx <= 1).
  { exists (rn32 (tx p)). assert (R1 : 0 <= rn32 (tx p) <= 1) by (destruct (t_range p) as [[Z1 Z2] _]; split; [apply rn32_pos, Z1 | apply rn_le; [exact float32_1 | exact Z2]]).
    unfold side. destruct HX as [HX|HX].
    - replace (c - Zfloor (real (fx p)))%Z with 0%Z by lia. cbn [Z.eqb]. destruct (factor_low _ _ c RX BX (proj1 C0) HX) as [U1 U2]. split; [exact U1 | split; [exact U2 | exact R1]].
    - replace (c - Zfloor (real (fx p)))%Z with 1%Z by lia. cbn [Z.eqb]. destruct (factor_high _ _ c RX BX (proj1 C0) HX) as [U1 U2]. split; [exact U1 | split; [exact U2 | exact R1]]. }
  assert (WY : exists sy, rep (side (r - Zfloor (real (fy p))) (minus32 (fy p) (f32_ofZ (Zfloor (real (fy p)))))) sy /\ Rabs (sy - ty p) <= u * ty p /\ 0 <= sy <= 1).
  { exists (rn32 (ty p)). assert (R1 : 0 <= rn32 (ty p) <= 1) by (destruct (t_range p) as [_ [[Z1 Z2] _]]; split; [apply rn32_pos, Z1 | apply rn_le; [exact float32_1 | exact Z2]]).
    unfold side. destruct HY as [HY|HY].
    - replace (r - Zfloor (real (fy p)))%Z with 0%Z by lia. cbn [Z.eqb]. destruct (factor_low _ _ r RY BY (proj1 R0) HY) as [U1 U2]. split; [exact U1 | split; [exact U2 | exact R1]].
    - replace (r - Zfloor (real (fy p)))%Z with 1%Z by lia. cbn [Z.eqb]. destruct (factor_high _ _ r RY BY (proj1 R0) HY) as [U1 U2]. split; [exact U1 | split; [exact U2 | exact R1]]. }
  destruct WX as (sx & RSX & ESX & BSX). destruct WY as (sy & RSY & ESY & BSY).
  assert (SP : 0 <= sx * sy <= 1) by (split; [apply Rmult_le_pos; lra | replace 1 with (1 * 1) by ring; apply Rmult_le_compat; lra]).
  assert (WP : 0 <= rn32 (sx * sy) <= 1) by (split; [apply rn32_pos, SP | apply rn_le; [exact float32_1 | apply SP]]).
  assert (RW : rep (mult32 (side (c - Zfloor (real (fx p))) (minus32 (fx p) (f32_ofZ (Zfloor (real (fx p)))))) (side (r - Zfloor (real (fy p))) (minus32 (fy p) (f32_ofZ (Zfloor (real (fy p))))))) (rn32 (sx * sy))).
  { apply rep_mul; [exact RSX | exact RSY|]. apply (moderate_fits _ 1 0); [rewrite Rabs_pos_eq; lra | cbn; lra | lia]. }
  set (fu := fuse_add fz (c - Zfloor (real (fx p))) (r - Zfloor (real (fy p)))).
  destruct (t_range p) as ([TX0 _] & [TY0 _] & TT).
  pose proof (term_error fu (real (vf p)) _ _ _ _ TX0 TY0 ESX ESY) as TE. fold (term p) (aterm p) in TE.
  destruct (aterm_range p) as [AT AR].
  pose proof (in_light p IN) as VL. pose proof e32_pos as E0. pose proof light_pos as L0.
  assert (D0 : 2 * e32 * (Rabs (real (vf p)) + 1) + e32 <= delta).
  { unfold delta. apply Rplus_le_compat_r. apply Rmult_le_compat_l; lra. }
  assert (D00 : 0 <= 2 * e32 * (Rabs (real (vf p)) + 1)) by (pose proof (Rabs_pos (real (vf p))); apply Rmult_le_pos; lra).
  assert (AE := add_step h a T A (moved_by fu (real (vf p)) (rn32 (sx * sy))) (term p) (aterm p) delta _ A0 TA (proj1 AR) ltac:(lra) D00 D0 EA TE).
  pose proof (sums_stay (S h) (A + aterm p) BH ltac:(lra)) as SS.
  assert (TT2 : Rabs (T + term p) <= A + aterm p) by (eapply Rle_trans; [apply Rabs_triang | lra]).
  assert (FIT : fits (rn32 (moved_by fu (real (vf p)) (rn32 (sx * sy)) + a))).
  { unfold fits. eapply Rle_lt_trans; [|exact SS].
    set (z := rn32 (moved_by fu (real (vf p)) (rn32 (sx * sy)) + a)) in *. replace z with ((T + term p) + (z - (T + term p))) by ring. eapply Rle_trans; [apply Rabs_triang|]. lra. }
  exists (rn32 (moved_by fu (real (vf p)) (rn32 (sx * sy)) + a)). split; [|split; [exact AE | split; [exact TT2|]]].
  - apply rep_madd; [exact (real_rep _ FV') | exact RW | exact RA | | exact FIT].
    apply (moderate_fits _ (bpow radix2 125) 125); [|lra | lia]. rewrite Rabs_mult, (Rabs_pos_eq (rn32 (sx * sy))) by lra.
    apply Rle_trans with (Rabs (real (vf p)) * 1); [apply Rmult_le_compat_l; [apply Rabs_pos | lra] | lra].
  - intros BR. specialize (PA BR). pose proof (BR y x) as V0. rewrite Ep in O, IN. specialize (V0 O IN).
    assert (V1 : 0 <= real (vf p)) by (unfold vf; rewrite Ep; exact V0).
    apply rn32_pos. assert (0 <= moved_by fu (real (vf p)) (rn32 (sx * sy))); [|lra].
    assert (0 <= real (vf p) * rn32 (sx * sy)) by (apply Rmult_le_pos; lra). destruct fu; cbn [moved_by]; [assumption | apply rn32_pos; assumption].
Qed.

Lemma run_inv : forall P acc T A h, Inv acc T A h -> g_rows acc = g_rows im -> g_cols acc = g_cols im -> Forall ok P -> 0 <= A ->
  A + sumL aterm P <= light im l -> (Z.of_nat (h + List.length (filter hits P)) <= 2 ^ 23)%Z ->
  Inv (fold_left (deposit_of fz im f dt) P acc) (T + sumL term P) (A + sumL aterm P) (h + List.length (filter hits P)).
Proof.
  induction P as [|p P IH]; intros acc T A h I GR GC O A0 BA BH.
  - cbn [fold_left sumL fold_right filter List.length] in *. rewrite !Rplus_0_r, Nat.add_0_r. exact I.
  - inversion O as [|? ? Op OP]; subst. cbn [sumL fold_right] in *. fold (sumL term P) (sumL aterm P) in *. cbn [fold_left].
    destruct (aterm_range p) as [_ [A1 _]].
    assert (AP : 0 <= sumL aterm P) by (apply sumL_nonneg; intros q _; apply aterm_range).
    assert (E : (h + List.length (filter hits (p :: P)) = (if hits p then S h else h) + List.length (filter hits P))%nat).
    { cbn [filter]. destruct (hits p); cbn [List.length]; lia. }
    rewrite E in BH |- *. rewrite <- !Rplus_assoc.
    apply IH; [apply step_inv; try assumption; [lra | lia] | | | exact OP | lra | lra | exact BH].
    + unfold deposit_of. rewrite (proj1 (deposit_pixel_size _ _ _ _ _)). exact GR.
    + unfold deposit_of. rewrite (proj2 (deposit_pixel_size _ _ _ _ _)). exact GC.
Qed.

Let P0 := all_pixels (g_rows im) (g_cols im).

Lemma P0_ok : Forall ok P0.
Proof. apply Forall_forall. intros [y x] I. apply (all_in _ _ _ _ SC) in I. exact I. Qed.

Lemma aterm_sum : sumL aterm P0 <= light im l.
Proof.
  eapply Rle_trans; [|rewrite light_is; exact (sumL_in l (fun p => Rabs (real (vf p))) P0 (all_nodup _ _ SC) (fun p => Rabs_pos _))].
  apply sumL_le. intros p I. pose proof (proj1 (Forall_forall _ _) P0_ok p I) as O. destruct (inl l p) eqn:E; [apply aterm_range|].
  destruct (hits p) eqn:Hh; [pose proof (proj2 (inl_in l p) (hit_in p O Hh)); congruence|]. rewrite (proj2 (no_hit p O Hh)). lra.
Qed.

Lemma hits_number : (List.length (filter hits P0) <= List.length l)%nat.
Proof.
  apply NoDup_incl_length; [apply NoDup_filter, all_nodup, SC|]. intros p I. apply filter_In in I. destruct I as [I Hh].
  apply hit_in; [exact (proj1 (Forall_forall _ _) P0_ok p I) | exact Hh].
Qed.

Lemma near_exact : Rabs (sumL term P0 - sumL termq P0) <= (slip (g_cols im) D + slip (g_rows im) D) * light im l.
Proof.
  eapply Rle_trans; [apply sumL_dist|]. destruct slip_small as (S1 & S2 & S3 & S4).
  set (b := slip (g_cols im) D + slip (g_rows im) D). assert (B0 : 0 <= b) by (unfold b; lra).
  eapply Rle_trans; [|rewrite light_is, <- sumL_scale; refine (sumL_in l (fun p => b * Rabs (real (vf p))) P0 (all_nodup _ _ SC) _); intros p; apply Rmult_le_pos; [exact B0 | apply Rabs_pos]].
  apply sumL_le. intros p I. pose proof (proj1 (Forall_forall _ _) P0_ok p I) as O.
  destruct (pos_x p O) as (FX & SX & BX). destruct (pos_y p O) as (FY & SY & BY).
  destruct (inl l p) eqn:E.
  - unfold term, termq. rewrite <- Rmult_minus_distr_l, Rabs_mult, Rmult_comm. apply Rmult_le_compat_r; [apply Rabs_pos|].
    unfold tx, ty. set (a := tentR (real (fx p) - IZR c)). set (a' := tentR (ex p - IZR c)). set (d := tentR (real (fy p) - IZR r)). set (d' := tentR (ey p - IZR r)).
    assert (A1 : Rabs (a - a') <= slip (g_cols im) D).
    { eapply Rle_trans; [apply tentR_lip|]. replace (real (fx p) - IZR c - (ex p - IZR c)) with (real (fx p) - ex p) by ring. exact SX. }
    assert (A2 : Rabs (d - d') <= slip (g_rows im) D).
    { eapply Rle_trans; [apply tentR_lip|]. replace (real (fy p) - IZR r - (ey p - IZR r)) with (real (fy p) - ey p) by ring. exact SY. }
    replace (a * d - a' * d') with ((a - a') * d + a' * (d - d')) by ring. eapply Rle_trans; [apply Rabs_triang|]. rewrite !Rabs_mult.
    pose proof (tentR_range (real (fy p) - IZR r)) as R1. fold d in R1. pose proof (tentR_range (ex p - IZR c)) as R2. fold a' in R2.
    rewrite (Rabs_pos_eq d), (Rabs_pos_eq a') by lra. unfold b. apply Rplus_le_compat.
    + replace (slip (g_cols im) D) with (slip (g_cols im) D * 1) by ring. apply Rmult_le_compat; try lra. apply Rabs_pos.
    + replace (slip (g_rows im) D) with (1 * slip (g_rows im) D) by ring. apply Rmult_le_compat; try lra. apply Rabs_pos.
  - assert (NI : ~ In p l) by (intros J; apply inl_in in J; congruence).
    destruct (hits p) eqn:Hh; [contradiction (NI (hit_in p O Hh))|]. rewrite (proj1 (no_hit p O Hh)).
    assert (Z : termq p = 0); [|rewrite Z, Rminus_0_r, Rabs_R0; lra]. unfold termq.
    destruct (Rle_dec (Rabs (ex p - IZR c)) 2) as [L1|L1]; [|rewrite (tentR_far (ex p - IZR c)) by lra; ring].
    destruct (Rle_dec (Rabs (ey p - IZR r)) 2) as [L2|L2]; [|rewrite (tentR_far (ey p - IZR r)) by lra; ring].
    contradiction NI. destruct p as [y x]. apply CA; [exact O | split; assumption].
Qed.

Lemma exact_fold : forall P (acc : image), pixel acc r c ->
  let out := fold_left (fun acc p => deposit_pixel acc (inject_Z (snd p) + fu (flow_of f) (fst p) (snd p) * value dt)
      (inject_Z (fst p) + fv (flow_of f) (fst p) (snd p) * value dt) (at_ (values im) (fst p) (snd p))) P acc in
  Q2R (at_ out r c) = Q2R (at_ acc r c) + sumL termq P.
Proof.
  induction P as [|p P IH]; intros acc PA; cbv zeta.
  - cbn [fold_left sumL fold_right]. ring.
  - cbn [fold_left sumL fold_right]. fold (sumL termq P). cbv zeta in IH. rewrite IH.
    + rewrite (Qeq_eqR _ _ (deposit_at _ _ _ _ r c PA)). rewrite Q2R_plus, !Q2R_mult, !tent_R, !Q2R_minus, !Q2R_plus, !Q2R_mult, !Q2R_Z.
      unfold termq, ex, ey, vf, real. cbn [flow_of fu fv values at_]. ring.
    + unfold pixel. rewrite (proj1 (deposit_size _ _ _ _)), (proj2 (deposit_size _ _ _ _)). exact PA.
Qed.

Lemma exact_is : Q2R (at_ (forward (values im) (flow_of f) (value dt)) r c) = sumL termq P0.
Proof.
  pose proof (exact_fold P0 (mkImage (g_rows im) (g_cols im) (fun _ _ => 0%Q)) PX) as E. cbv zeta in E. cbn [at_] in E.
  rewrite Q2R_0, Rplus_0_l in E. rewrite <- E. unfold P0, all_pixels. rewrite fold_map. reflexivity.
Qed.

Theorem forward_pixel :
  finite (g_at (forward32 fz im f dt) r c) /\
  Rabs (real (g_at (forward32 fz im f dt) r c) - Q2R (at_ (forward (values im) (flow_of f) (value dt)) r c)) <=
    ((1 + / 16777216) ^ (List.length l + 4) - 1 + slip (g_cols im) D + slip (g_rows im) D) * light im l
    + INR (List.length l) * (light im l + 1) * bpow radix2 (-147) /\
  (bright -> 0 <= real (g_at (forward32 fz im f dt) r c)).
Proof.
  pose proof hits_number as HN. pose proof aterm_sum as AS. pose proof near_exact as NE. pose proof light_pos as L0.
  assert (I0 : Inv (blank im) 0 0 0).
  { exists 0. split; [exact (rep_ofZ 0 ltac:(lia))|]. rewrite Rminus_0_r, Rabs_R0. cbn [INR]. split; [|split; [lra | intros _; lra]].
    rewrite !Rmult_0_r, Rmult_0_l. lra. }
  destruct (run_inv P0 (blank im) 0 0 0 I0 eq_refl eq_refl P0_ok (Rle_refl 0) ltac:(lra) ltac:(lia)) as (a & RA & EA & _ & PA).
  rewrite forward_fold. fold P0. destruct (rep_real _ _ RA) as [F V]. split; [exact F|]. rewrite V. split; [|exact PA].
  rewrite exact_is. rewrite !Rplus_0_l in EA. rewrite Nat.add_0_l in EA. set (h := List.length (filter hits P0)) in *. set (n := List.length l) in *.
  set (S := light im l) in *. set (L := slip (g_cols im) D) in *. set (K := slip (g_rows im) D) in *.
  assert (T : Rabs (a - sumL termq P0) <= Rabs (a - sumL term P0) + Rabs (sumL term P0 - sumL termq P0)).
  { replace (a - sumL termq P0) with ((a - sumL term P0) + (sumL term P0 - sumL termq P0)) by ring. apply Rabs_triang. }
  change ((1 + / 16777216) ^ (n + 4)) with (grown (n + 4)).
  assert (G : grown (h + 4) <= grown (n + 4)) by (apply grown_le; lia). pose proof (grown_1 (h + 4)) as G1.
  assert (X1 : (grown (h + 4) - 1) * sumL aterm P0 <= (grown (n + 4) - 1) * S).
  { apply Rle_trans with ((grown (h + 4) - 1) * S); [apply Rmult_le_compat_l; lra | apply Rmult_le_compat_r; lra]. }
  pose proof (grown_small n LL) as GS. assert (G2 : grown h <= grown (n + 4)) by (apply grown_le; lia). pose proof (grown_1 h) as G3.
  assert (IN : 0 <= INR h <= INR n) by (split; [apply pos_INR | apply le_INR; exact HN]).
  assert (DE : 0 <= delta <= 3 * e32 * (S + 1)).
  { unfold delta. fold S. pose proof e32_pos as E0. assert (0 <= e32 * S) by (apply Rmult_le_pos; lra).
    replace (2 * e32 * (S + 1) + e32) with (2 * (e32 * S) + 3 * e32) by ring. replace (3 * e32 * (S + 1)) with (3 * (e32 * S) + 3 * e32) by ring. lra. }
  assert (X2 : grown h * INR h * delta <= INR n * (S + 1) * bpow radix2 (-147)).
  { assert (B : bpow radix2 (-147) = 8 * e32) by (unfold e32; change 8 with (bpow radix2 3); rewrite <- bpow_plus; reflexivity). rewrite B.
    assert (Y1 : grown h * INR h <= 21 / 10 * INR n) by (apply Rmult_le_compat; lra).
    assert (Y2 : grown h * INR h * delta <= 21 / 10 * INR n * (3 * e32 * (S + 1))) by (apply Rmult_le_compat; [apply Rmult_le_pos; lra | lra | exact Y1 | lra]).
    eapply Rle_trans; [exact Y2|]. replace (21 / 10 * INR n * (3 * e32 * (S + 1))) with (63 / 10 * (INR n * (S + 1) * e32)) by field.
    replace (INR n * (S + 1) * (8 * e32)) with (8 * (INR n * (S + 1) * e32)) by ring. apply Rmult_le_compat_r; [|lra].
    pose proof e32_pos. apply Rmult_le_pos; [apply Rmult_le_pos; lra | lra]. }
  replace ((grown (n + 4) - 1 + L + K) * S) with ((grown (n + 4) - 1) * S + (L + K) * S) by ring. lra.
Qed.
End Forward.

(** * Whole pixels *)
Section Shift.
Variables (fz : fusing) (im : fimage) (f : flow32) (dt : f32) (dx dy r c : Z).
Hypothesis SR : (1 <= g_rows im <= 2 ^ 22)%Z.
Hypothesis SC : (1 <= g_cols im <= 2 ^ 22)%Z.
Hypothesis BD : (Z.abs dx <= 2 ^ 22 /\ Z.abs dy <= 2 ^ 22)%Z.
Hypothesis SH : shifts im f dt dx dy.
Hypothesis PX : fpixel im r c.
Hypothesis FP : forall y x, fpixel im y x -> finite (g_at im y x).

Lemma side_int : forall x k (i : Z), rep x (IZR i) -> (Z.abs i <= 2 ^ 23)%Z -> (0 <= k)%Z -> (k = i \/ k = i + 1)%Z ->
  rep (side (k - i) (minus32 x (f32_ofZ i))) (if (k =? i)%Z then 1 else 0).
Proof.
  intros x k i RX BI K0 H.
  assert (BX : Rabs (IZR i) <= IZR (2 ^ 23)) by (rewrite <- abs_IZR; apply IZR_le; exact BI).
  assert (Fi : Zfloor (IZR i) = i) by apply Zfloor_IZR. unfold side. destruct H as [-> | ->].
  - rewrite Z.sub_diag, (Z.eqb_refl i). cbn [Z.eqb]. destruct (factor_low x (IZR i) i RX BX K0 (eq_sym Fi)) as [A _]. rewrite Fi in A.
    replace (tentR (IZR i - IZR i)) with 1 in A by (unfold tentR; replace (IZR i - IZR i) with 0 by ring; rewrite Rabs_R0, Rmax_right; lra).
    rewrite (rn32_exact 1 float32_1) in A. exact A.
  - replace (i + 1 - i)%Z with 1%Z by lia. replace (i + 1 =? i)%Z with false by (symmetry; apply Z.eqb_neq; lia). cbn [Z.eqb].
    destruct (factor_high x (IZR i) (i + 1) RX BX K0 ltac:(rewrite Fi; reflexivity)) as [A _]. rewrite Fi in A.
    rewrite tentR_far in A by (rewrite plus_IZR; rewrite Rabs_left1; lra). rewrite (rn32_exact 0 float32_0) in A. exact A.
Qed.

Lemma shift_step : forall acc a y x, fpixel acc r c -> fpixel im y x -> rep (g_at acc r c) a ->
  ((y, x) = (r - dy, c - dx)%Z -> a = 0) ->
  rep (g_at (deposit_of fz im f dt acc (y, x)) r c) (if (y =? r - dy)%Z && (x =? c - dx)%Z then real (g_at im y x) else a).
Proof.
  intros acc a y x PA O RA Z0. destruct SH as [FT SF]. destruct (SF y x O) as (FU & EU & FV & EV). pose proof (FP y x O) as FG.
  destruct O as [Oy Ox]. destruct PX as [[R0 _] [C0 _]].
  assert (RX := goes_to_int (fuse_x fz) x (h_u f y x) dt dx ltac:(lia) FU FT EU ltac:(lia) ltac:(lia)).
  assert (RY := goes_to_int (fuse_y fz) y (h_v f y x) dt dy ltac:(lia) FV FT EV ltac:(lia) ltac:(lia)).
  unfold deposit_of. cbn [fst snd]. rewrite deposit_pixel_at by exact PA. cbv zeta.
  assert (BX : Rabs (IZR (x + dx)) <= IZR (2 ^ 30)) by (rewrite <- abs_IZR; apply IZR_le; lia).
  assert (BY : Rabs (IZR (y + dy)) <= IZR (2 ^ 30)) by (rewrite <- abs_IZR; apply IZR_le; lia).
  rewrite (floor_of _ _ RX BX), (floor_of _ _ RY BY), !Zfloor_IZR.
  assert (FA : float32 a) by (exact (rep_float _ _ RA)).
  destruct (hit (x + dx) (y + dy) r c) eqn:Hh.
  - unfold hit in Hh. apply andb_true_iff in Hh. destruct Hh as [H1 H2]. apply orb_true_iff in H1, H2. rewrite !Z.eqb_eq in H1, H2.
    pose proof (side_int _ c (x + dx) RX ltac:(lia) C0 ltac:(lia)) as S1. pose proof (side_int _ r (y + dy) RY ltac:(lia) R0 ltac:(lia)) as S2.
    set (w := mult32 _ _). set (fu := fuse_add _ _ _).
    set (t := if (y =? r - dy)%Z && (x =? c - dx)%Z then 1 else 0).
    assert (T : (if (c =? x + dx)%Z then 1 else 0) * (if (r =? y + dy)%Z then 1 else 0) = t).
    { unfold t. destruct (Z.eqb_spec c (x + dx)) as [E1|N1]; destruct (Z.eqb_spec r (y + dy)) as [E2|N2];
      destruct (Z.eqb_spec y (r - dy)) as [E3|N3]; destruct (Z.eqb_spec x (c - dx)) as [E4|N4]; try lia; cbn [andb]; ring. }
    assert (FT1 : float32 t) by (unfold t; destruct (_ && _); [exact float32_1 | exact float32_0]).
    assert (BT : Rabs t <= 1) by (unfold t; destruct (_ && _); rewrite ?Rabs_R1, ?Rabs_R0; lra).
    assert (RW : rep w t).
    { rewrite <- (rn32_exact t FT1), <- T. apply rep_mul; [exact S1 | exact S2|]. rewrite T. apply (moderate_fits _ 1 0); [exact BT | cbn; lra | lia]. }
    assert (VT : rn32 (real (g_at im y x) * t) = real (g_at im y x) * t).
    { apply rn32_exact. unfold t. destruct (_ && _); [rewrite Rmult_1_r; apply real_float; exact FG | rewrite Rmult_0_r; exact float32_0]. }
    assert (MB : moved_by fu (real (g_at im y x)) t = real (g_at im y x) * t) by (unfold moved_by; destruct fu; [reflexivity | exact VT]).
    assert (ST : rn32 (moved_by fu (real (g_at im y x)) t + a) = (if (y =? r - dy)%Z && (x =? c - dx)%Z then real (g_at im y x) else a)).
    { rewrite MB. unfold t. destruct ((y =? r - dy)%Z && (x =? c - dx)%Z) eqn:E.
      - apply andb_true_iff in E. rewrite !Z.eqb_eq in E. rewrite Z0 by (f_equal; lia). rewrite Rmult_1_r, Rplus_0_r. apply rn32_exact, real_float, FG.
      - rewrite Rmult_0_r, Rplus_0_l. apply rn32_exact, FA. }
    assert (BIG : forall z b, rep z b -> fits b) by (intros z b [Fz <-]; unfold fits; apply abs_B2R_lt_emax).
    rewrite <- ST. apply rep_madd; [exact (real_rep _ FG) | exact RW | exact RA | |].
    + rewrite VT. unfold t. destruct (_ && _); [rewrite Rmult_1_r; exact (BIG _ _ (real_rep _ FG))|]. rewrite Rmult_0_r. unfold fits. rewrite Rabs_R0. apply bpow_gt_0.
    + rewrite ST. destruct (_ && _); [exact (BIG _ _ (real_rep _ FG)) | exact (BIG _ _ RA)].
  - replace ((y =? r - dy)%Z && (x =? c - dx)%Z) with false; [exact RA|]. symmetry. apply not_true_iff_false. intros E.
    apply andb_true_iff in E. rewrite !Z.eqb_eq in E. unfold hit in Hh.
    replace (c - (x + dx) =? 0)%Z with true in Hh by (symmetry; apply Z.eqb_eq; lia). replace (r - (y + dy) =? 0)%Z with true in Hh by (symmetry; apply Z.eqb_eq; lia).
    discriminate Hh.
Qed.

Lemma shift_run : forall P (acc : fimage) (a : R), g_rows acc = g_rows im -> g_cols acc = g_cols im -> NoDup P -> Forall (fun p => fpixel im (fst p) (snd p)) P ->
  rep (g_at acc r c) a -> (In (r - dy, c - dx)%Z P -> a = 0) ->
  rep (g_at (fold_left (deposit_of fz im f dt) P acc) r c) (if inl P (r - dy, c - dx)%Z then real (g_at im (r - dy) (c - dx)) else a).
Proof.
  induction P as [|[y x] P IH]; intros acc a GR GC ND OK RA Z0.
  - cbn [fold_left]. destruct (inl [] _) eqn:E; [apply inl_in in E; contradiction | exact RA].
  - inversion ND as [|? ? NI ND']; subst. inversion OK as [|? ? O OK']; subst. cbn [fst snd] in O. cbn [fold_left].
    assert (PA : fpixel acc r c) by (unfold fpixel; rewrite GR, GC; exact PX).
    pose proof (shift_step acc a y x PA O RA (fun E => Z0 (or_introl E))) as S.
    assert (G1 : g_rows (deposit_of fz im f dt acc (y, x)) = g_rows im) by (unfold deposit_of; rewrite (proj1 (deposit_pixel_size _ _ _ _ _)); exact GR).
    assert (G2 : g_cols (deposit_of fz im f dt acc (y, x)) = g_cols im) by (unfold deposit_of; rewrite (proj2 (deposit_pixel_size _ _ _ _ _)); exact GC).
    destruct ((y =? r - dy)%Z && (x =? c - dx)%Z) eqn:E.
    + apply andb_true_iff in E. rewrite !Z.eqb_eq in E. destruct E as [-> ->].
      specialize (IH _ _ G1 G2 ND' OK' S ltac:(intros I; contradiction)).
      rewrite (proj2 (inl_in (_ :: P) _) (in_eq _ _)). destruct (inl P _); exact IH.
    + specialize (IH _ _ G1 G2 ND' OK' S ltac:(intros I; exact (Z0 (or_intror I)))).
      assert (EQ : inl ((y, x) :: P) (r - dy, c - dx)%Z = inl P (r - dy, c - dx)%Z).
      { destruct (inl P (r - dy, c - dx)%Z) eqn:F.
        - apply inl_in. right. apply inl_in. exact F.
        - apply not_true_iff_false. intros G. apply inl_in in G. destruct G as [G|G].
          + injection G as -> ->. rewrite !Z.eqb_refl in E. discriminate E.
          + apply inl_in in G. congruence. }
      rewrite EQ. exact IH.
Qed.

Lemma shift_pixel : finite (g_at (forward32 fz im f dt) r c) /\
  (fpixel im (r - dy) (c - dx) -> real (g_at (forward32 fz im f dt) r c) = real (g_at im (r - dy) (c - dx))) /\
  (~ fpixel im (r - dy) (c - dx) -> real (g_at (forward32 fz im f dt) r c) = 0).
Proof.
  assert (OK : Forall (fun p => fpixel im (fst p) (snd p)) (all_pixels (g_rows im) (g_cols im))).
  { apply Forall_forall. intros [y x] I. apply (all_in _ _ _ _ (proj1 SC)) in I. exact I. }
  pose proof (shift_run (all_pixels (g_rows im) (g_cols im)) (blank im) 0 eq_refl eq_refl (all_nodup _ _ (proj1 SC)) OK (rep_ofZ 0 ltac:(lia)) (fun _ => eq_refl)) as S.
  rewrite forward_fold. destruct (rep_real _ _ S) as [F V]. split; [exact F|]. rewrite V. split; intros H.
  - rewrite (proj2 (inl_in _ _)); [reflexivity|]. apply all_in; [apply SC | exact H].
  - destruct (inl _ _) eqn:E; [|reflexivity]. apply inl_in in E. apply (all_in _ _ _ _ (proj1 SC)) in E. contradiction.
Qed.
End Shift.

(** * The whole image *)
Lemma total_list : forall im, (0 <= rows im)%Z -> (1 <= cols im)%Z ->
  Q2R (total im) = sumL (fun p => Q2R (at_ im (fst p) (snd p))) (all_pixels (rows im) (cols im)).
Proof.
  intros im HR HC. unfold total, sumZ.
  assert (S : (sumn (Z.to_nat (rows im)) (fun r => sumn (Z.to_nat (cols im)) (fun c => at_ im r c)) == sumn (Z.to_nat (rows im) * Z.to_nat (cols im)) (fun z => at_ im (z / cols im) (z mod cols im)))%Q).
  { rewrite sumn_mul. apply sumn_ext. intros r Hr. apply sumn_ext. intros c Hc. rewrite Z2Nat.id by lia.
    rewrite Z.div_add_l by lia. rewrite (Z.div_small c) by lia. rewrite Z.add_0_r. rewrite (Z.add_comm (r * cols im)), Z.mod_add by lia. rewrite Z.mod_small by lia. reflexivity. }
  rewrite (Qeq_eqR _ _ S). unfold all_pixels. rewrite Z2Nat.inj_mul by lia. generalize (Z.to_nat (rows im) * Z.to_nat (cols im))%nat as n.
  assert (A : forall g P Q, sumL g (P ++ Q) = sumL g P + sumL g Q).
  { intros g P Q. unfold sumL. induction P as [|p P IH]; cbn [app fold_right]; [ring|]. rewrite IH. ring. }
  induction n as [|n IH]; [cbn; apply Q2R_0|].
  rewrite seq_S, map_app, A. cbn [sumn]. rewrite Q2R_plus, IH. apply Rplus_eq_compat_l. rewrite Nat.add_0_l. cbn [map sumL fold_right]. rewrite Rplus_0_r. reflexivity.
Qed.

Lemma sumL_swap : forall (g : Z * Z -> Z * Z -> R) P Q, sumL (fun p => sumL (g p) Q) P = sumL (fun q => sumL (fun p => g p q) P) Q.
Proof.
  intros g P Q. induction P as [|p P IH]; cbn [sumL fold_right].
  - induction Q as [|q Q IH]; cbn [sumL fold_right]; [reflexivity|]. unfold sumL in *. rewrite <- IH. ring.
  - fold (sumL (fun p => sumL (g p) Q) P). rewrite IH. fold (sumL (g p) Q). rewrite <- sumL_plus. reflexivity.
Qed.

Lemma sumL_filter : forall g b P, sumL g (filter b P) = sumL (fun p => if b p then g p else 0) P.
Proof. intros g b P. induction P as [|p P IH]; [reflexivity|]. cbn [filter sumL fold_right]. destruct (b p); cbn [sumL fold_right]; unfold sumL in *; rewrite IH; ring. Qed.

Lemma sumL_count : forall P, sumL (fun _ => 1) P = INR (List.length P).
Proof. induction P as [|p P IH]; [reflexivity|]. cbn [sumL fold_right List.length]. rewrite S_INR. unfold sumL in *. rewrite IH. ring. Qed.

(** At most five integers within two of a number. *)
Definition five (t : R) : list Z := [Zceil (t - 2); Zceil (t - 2) + 1; Zceil (t - 2) + 2; Zceil (t - 2) + 3; Zceil (t - 2) + 4]%Z.
Lemma five_in : forall t k, Rabs (t - IZR k) <= 2 -> In k (five t).
Proof.
  intros t k H. apply Rabs_le_inv in H. assert (A : (Zceil (t - 2) <= k)%Z) by (apply Zceil_glb; lra).
  assert (B : (k < Zceil (t - 2) + 5)%Z).
  { apply lt_IZR. rewrite plus_IZR. pose proof (Zceil_ub (t - 2)). lra. }
  unfold five. cbn [In]. lia.
Qed.

Section Total.
Variables (fz : fusing) (im : fimage) (f : flow32) (dt : f32) (D : R) (n : nat).
Hypothesis SR : (1 <= g_rows im)%Z.
Hypothesis SC : (1 <= g_cols im)%Z.
Hypothesis DR : IZR (g_rows im) + 3 * D <= IZR (2 ^ 23).
Hypothesis DC : IZR (g_cols im) + 3 * D <= IZR (2 ^ 23).
Hypothesis TR : travels D im f dt.
Hypothesis FP : forall y x, fpixel im y x -> finite (g_at im y x) /\ 0 <= real (g_at im y x).
Hypothesis CN : forall r c, fpixel im r c -> exists l, catches im f dt r c l /\ (List.length l <= n)%nat.
Hypothesis NB : (Z.of_nat n <= 2 ^ 23)%Z.
Hypothesis TB : Q2R (total (values im)) <= bpow radix2 125.

Let P0 := all_pixels (g_rows im) (g_cols im).
Let ex (p : Z * Z) : R := IZR (snd p) + real (h_u f (fst p) (snd p)) * real dt.
Let ey (p : Z * Z) : R := IZR (fst p) + real (h_v f (fst p) (snd p)) * real dt.
Let v (p : Z * Z) : R := real (g_at im (fst p) (snd p)).
Definition nearb (t : Z * Z) (p : Z * Z) : bool :=
  (if Rle_dec (Rabs (ex p - IZR (snd t))) 2 then true else false) && (if Rle_dec (Rabs (ey p - IZR (fst t))) 2 then true else false).
Definition caught (t : Z * Z) : list (Z * Z) := filter (nearb t) P0.

Lemma nearb_iff : forall t y x, nearb t (y, x) = true <-> lands_near f dt (fst t) (snd t) y x.
Proof.
  intros t y x. unfold nearb, lands_near, ex, ey. cbn [fst snd].
  do 2 destruct Rle_dec; cbn [andb]; split; intros H; try reflexivity; try discriminate; try (split; assumption); destruct H; contradiction.
Qed.

Lemma P0_pixel : forall p, In p P0 -> fpixel im (fst p) (snd p).
Proof. intros [y x] I. apply (all_in _ _ _ _ SC) in I. exact I. Qed.

Lemma caught_ok : forall t, fpixel im (fst t) (snd t) -> catches im f dt (fst t) (snd t) (caught t) /\ (List.length (caught t) <= n)%nat.
Proof.
  intros t O. split.
  - intros y x Oy L. apply filter_In. split; [apply all_in; assumption | apply nearb_iff; exact L].
  - destruct (CN _ _ O) as (l & CA & LE). apply Nat.le_trans with (List.length l); [|exact LE].
    apply NoDup_incl_length; [apply NoDup_filter, all_nodup, SC|]. intros [y x] I. apply filter_In in I. destruct I as [I B].
    apply CA; [exact (P0_pixel _ I) | apply nearb_iff; exact B].
Qed.

Lemma v_pos : forall p, In p P0 -> 0 <= v p.
Proof. intros p I. apply FP, P0_pixel, I. Qed.

Lemma all_light : Q2R (total (values im)) = sumL v P0.
Proof. rewrite total_list by (cbn [values rows cols]; lia). reflexivity. Qed.

Lemma light_caught : forall t, light im (caught t) = sumL (fun p => if nearb t p then v p else 0) P0.
Proof.
  intros t. unfold light. change (sumL (fun p => Rabs (v p)) (caught t) = sumL (fun p => if nearb t p then v p else 0) P0).
  unfold caught. rewrite sumL_filter.
  assert (A : forall P, (forall p, In p P -> 0 <= v p) -> sumL (fun p => if nearb t p then Rabs (v p) else 0) P = sumL (fun p => if nearb t p then v p else 0) P).
  { induction P as [|p P IH]; intros H; [reflexivity|]. cbn [sumL fold_right]. pose proof (IH (fun q I => H q (or_intror I))) as E. unfold sumL in *. rewrite E.
    rewrite (Rabs_pos_eq (v p)) by (apply H; left; reflexivity). reflexivity. }
  apply A, v_pos.
Qed.

Lemma light_below : forall t, 0 <= light im (caught t) <= Q2R (total (values im)).
Proof.
  intros t. rewrite light_caught, all_light. split.
  - apply sumL_nonneg. intros p I. destruct (nearb t p); [apply v_pos, I | lra].
  - apply sumL_le. intros p I. pose proof (v_pos p I). destruct (nearb t p); lra.
Qed.

Lemma lights_sum : sumL (fun t => light im (caught t)) P0 <= 25 * Q2R (total (values im)).
Proof.
  assert (E : sumL (fun t => light im (caught t)) P0 = sumL (fun t => sumL (fun p => if nearb t p then v p else 0) P0) P0).
  { assert (A : forall P, sumL (fun t => light im (caught t)) P = sumL (fun t => sumL (fun p => if nearb t p then v p else 0) P0) P).
    { induction P as [|t P IH]; [reflexivity|]. cbn [sumL fold_right]. unfold sumL at 1 in IH. rewrite IH, light_caught. reflexivity. }
    apply A. }
  rewrite E, sumL_swap, all_light, <- sumL_scale. apply sumL_le. intros p I. pose proof (v_pos p I) as V.
  assert (C : sumL (fun t => if nearb t p then v p else 0) P0 = v p * sumL (fun t => if nearb t p then 1 else 0) P0).
  { rewrite <- sumL_scale. assert (A : forall P, sumL (fun t => if nearb t p then v p else 0) P = sumL (fun t => v p * (if nearb t p then 1 else 0)) P).
    { induction P as [|t P IH]; [reflexivity|]. cbn [sumL fold_right]. unfold sumL in *. rewrite IH. destruct (nearb t p); ring. } apply A. }
  rewrite C, <- (sumL_filter (fun _ => 1) (fun t => nearb t p)), sumL_count.
  rewrite Rmult_comm. apply Rmult_le_compat_r; [exact V|].
  assert (L : (List.length (filter (fun t => nearb t p) P0) <= List.length (list_prod (five (ey p)) (five (ex p))))%nat).
  { apply NoDup_incl_length; [apply NoDup_filter, all_nodup, SC|]. intros [r c] J. apply filter_In in J. destruct J as [_ B]. destruct p as [y x].
    apply nearb_iff in B. cbn [fst snd] in B. destruct B as [B1 B2]. apply in_prod; apply five_in; unfold ex, ey; cbn [fst snd]; assumption. }
  apply le_INR in L. eapply Rle_trans; [exact L|]. rewrite prod_length. cbn. lra.
Qed.

Theorem forward_total32 :
  Rabs (Q2R (total (values (forward32 fz im f dt))) - Q2R (total (forward (values im) (flow_of f) (value dt)))) <=
    25 * ((1 + / 16777216) ^ (n + 4) - 1 + slip (g_cols im) D + slip (g_rows im) D) * Q2R (total (values im))
    + INR n * (25 * Q2R (total (values im)) + IZR (g_rows im * g_cols im)) * bpow radix2 (-147).
Proof.
  set (B := Q2R (total (values im))). set (rho := (1 + / 16777216) ^ (n + 4) - 1 + slip (g_cols im) D + slip (g_rows im) D).
  assert (GS : g_rows (forward32 fz im f dt) = g_rows im /\ g_cols (forward32 fz im f dt) = g_cols im).
  { rewrite forward_fold. destruct (fold_size fz im f dt (all_pixels (g_rows im) (g_cols im)) (blank im)) as [A1 A2]. rewrite A1, A2. split; reflexivity. }
  assert (NE : nonempty (values im)) by (split; assumption).
  assert (PZ : pixel (values im) 0 0) by (split; cbn [values rows cols]; lia).
  destruct (forward_at (values im) (flow_of f) (value dt) 0 0 NE PZ) as (FR & FC & _). cbn [values rows cols] in FR, FC.
  rewrite !total_list; try (rewrite ?FR, ?FC; lia); try (cbn [values rows cols]; rewrite ?(proj1 GS), ?(proj2 GS); lia).
  rewrite FR, FC. cbn [values rows cols]. rewrite (proj1 GS), (proj2 GS). fold P0.
  eapply Rle_trans; [apply sumL_dist|].
  assert (O0 : fpixel im 0 0) by (split; lia).
  assert (D0 : 0 <= D). { destruct TR as [_ T]. destruct (T 0%Z 0%Z O0) as (_ & A & _). pose proof (Rabs_pos (real (h_u f 0 0) * real dt)). lra. }
  assert (SL : 0 <= slip (g_cols im) D /\ 0 <= slip (g_rows im) D).
  { unfold slip. rewrite e148. pose proof e32_pos. assert (0 <= IZR (g_rows im)) by (apply IZR_le; lia). assert (0 <= IZR (g_cols im)) by (apply IZR_le; lia). split; lra. }
  assert (R0 : 0 <= rho). { unfold rho. change ((1 + / 16777216) ^ (n + 4)) with (grown (n + 4)). pose proof (grown_1 (n + 4)). lra. }
  set (k := bpow radix2 (-147)). assert (K0 : 0 <= k) by apply bpow_ge_0.
  eapply Rle_trans.
  { apply (sumL_le _ (fun t => rho * light im (caught t) + (INR n * k) * (light im (caught t) + 1))). intros t I.
    pose proof (P0_pixel t I) as O. destruct (caught_ok t O) as [CA LE]. pose proof (light_below t) as LBt.
    destruct (forward_pixel fz im f dt D (fst t) (snd t) (caught t) SR SC DR DC TR O CA (fun y x Oy _ => proj1 (FP y x Oy)) ltac:(lia) ltac:(lra)) as (_ & E & _).
    cbn [values at_]. unfold real in E at 1. eapply Rle_trans; [exact E|]. set (L := light im (caught t)) in *. set (m := List.length (caught t)) in *.
    apply Rplus_le_compat.
    - apply Rmult_le_compat_r; [lra|]. unfold rho. change ((1 + / 16777216) ^ (n + 4)) with (grown (n + 4)). change ((1 + / 16777216) ^ (m + 4)) with (grown (m + 4)).
      assert (grown (m + 4) <= grown (n + 4)) by (apply grown_le; lia). lra.
    - fold k. replace (INR n * k * (L + 1)) with (INR n * (L + 1) * k) by ring. apply Rmult_le_compat_r; [exact K0|]. apply Rmult_le_compat_r; [lra | apply le_INR, LE]. }
  rewrite sumL_plus, !sumL_scale, sumL_plus, sumL_count. fold (sumL (fun t => light im (caught t)) P0). pose proof lights_sum as LS. fold B in LS.
  assert (LN : INR (List.length P0) = IZR (g_rows im * g_cols im)).
  { unfold P0, all_pixels. rewrite map_length, seq_length, INR_IZR_INZ, Z2Nat.id by nia. reflexivity. }
  rewrite LN. set (X := sumL (fun t => light im (caught t)) P0) in *.
  assert (Y1 : rho * X <= rho * (25 * B)) by (apply Rmult_le_compat_l; assumption).
  assert (Y2 : INR n * k * (X + IZR (g_rows im * g_cols im)) <= INR n * k * (25 * B + IZR (g_rows im * g_cols im))).
  { apply Rmult_le_compat_l; [apply Rmult_le_pos; [apply pos_INR | exact K0] | lra]. }
  replace (25 * rho * B) with (rho * (25 * B)) by ring. replace (INR n * (25 * B + IZR (g_rows im * g_cols im)) * k) with (INR n * k * (25 * B + IZR (g_rows im * g_cols im))) by ring. lra.
Qed.
End Total.
