(** Histogram matching in binary32. *)
From Coq Require Import List Arith ZArith QArith Qround Qreals Bool Reals Lia Lqa Lra Psatz.
From Flocq Require Import Core Relative IEEE754.BinarySingleNaN.
From Verif Require Import Prelude Model.Interp Model.Geometry Model.Render Model.InterpFloat Model.Hist Model.HistFloat.
From Verif Require Import Spec.InterpSpec Spec.RenderSpec Spec.HistSpec Spec.InterpFloatSpec Spec.HistFloatSpec.
From Verif Require Import Proofs.InterpProofs Proofs.FloatProofs Proofs.HistProofs Proofs.InterpFloatProofs Proofs.InterpBinary.
Import ListNotations.
Local Open Scope Z_scope.

Definition top : Z := 2 ^ 24.

(** * Whole numbers *)
Lemma float32_int : forall z, 0 <= z <= top -> float32 (IZR z).
Proof.
  intros z H. unfold top in H. destruct (Z.eq_dec z (2 ^ 24)) as [->|D].
  - apply (generic_format_FLT radix2 (-149) 24). exists (Float radix2 1 24); [|cbn; lia | cbn; lia].
    unfold F2R. cbn [Fnum Fexp]. rewrite Rmult_1_l. reflexivity.
  - apply float32_Z. lia.
Qed.

Definition repZ (x : f32) (z : Z) : Prop := rep x (IZR z).

Lemma fits_int : forall z, 0 <= z <= top -> fits (IZR z).
Proof.
  intros z H. unfold fits. rewrite Rabs_pos_eq by (apply (IZR_le 0); lia).
  apply Rle_lt_trans with (bpow radix2 24); [change (bpow radix2 24) with (IZR (2 ^ 24)); apply IZR_le; apply H | apply bpow_lt; lia].
Qed.

Lemma plus_int : forall x y a b, repZ x a -> repZ y b -> 0 <= a + b <= top -> repZ (plus32 x y) (a + b).
Proof.
  intros x y a b X Y H. pose proof (float32_int _ H) as F. pose proof (fits_int _ H) as T.
  unfold repZ, plus32. rewrite plus_IZR in *. rewrite <- (rn32_exact _ F). apply rep_add; try assumption.
  rewrite (rn32_exact _ F). exact T.
Qed.

Definition total (zs : list Z) : Z := fold_right Z.add 0 zs.

Lemma total_app : forall a b, total (a ++ b) = total a + total b.
Proof. unfold total. induction a as [|x a IH]; intros b; cbn [app fold_right]; [reflexivity|]. rewrite IH. lia. Qed.

Lemma total_pos : forall zs, Forall (fun z => 0 <= z) zs -> 0 <= total zs.
Proof. unfold total. induction 1 as [|z zs H _ IH]; cbn [fold_right]; lia. Qed.

Lemma total_firstn : forall zs j, Forall (fun z => 0 <= z) zs -> 0 <= total (firstn j zs) <= total zs.
Proof.
  intros zs j H. rewrite <- (firstn_skipn j zs) in H at 1. apply Forall_app in H. destruct H as [H1 H2].
  apply total_pos in H1, H2. rewrite <- (firstn_skipn j zs) at 3. rewrite total_app. lia.
Qed.

Lemma sum_int : forall l v, sum32 l v -> forall zs, Forall2 repZ l zs -> Forall (fun z => 0 <= z) zs -> total zs <= top ->
  repZ v (total zs).
Proof.
  induction 1 as [x|l l' a b H1 IH1 H2 IH2]; intros zs F P T.
  - inversion F as [|? z ? zs' X F']; subst. inversion F'; subst. cbn [total fold_right]. rewrite Z.add_0_r. exact X.
  - apply Forall2_app_inv_l in F. destruct F as (z1 & z2 & F1 & F2 & ->). apply Forall_app in P. destruct P as [P1 P2].
    rewrite total_app in *. pose proof (total_pos _ P1). pose proof (total_pos _ P2).
    apply plus_int; [apply IH1; [exact F1 | exact P1 | lia] | apply IH2; [exact F2 | exact P2 | lia] | lia].
Qed.

Lemma iter_int : forall k, Z.of_nat k <= top -> repZ (Nat.iter k (fun x => plus32 x (f32_ofZ 1)) (f32_ofZ 0)) (Z.of_nat k).
Proof.
  induction k as [|k IH]; intros H; [exact (rep_ofZ 0 ltac:(lia))|].
  change (Nat.iter (S k) (fun x => plus32 x (f32_ofZ 1)) (f32_ofZ 0))
    with (plus32 (Nat.iter k (fun x => plus32 x (f32_ofZ 1)) (f32_ofZ 0)) (f32_ofZ 1)).
  replace (Z.of_nat (S k)) with (Z.of_nat k + 1) by lia. apply plus_int; [apply IH; lia | exact (rep_ofZ 1 ltac:(lia)) | lia].
Qed.

Lemma Forall2_firstn : forall {A B} (P : A -> B -> Prop) j l m, Forall2 P l m -> Forall2 P (firstn j l) (firstn j m).
Proof. intros A B P. induction j as [|j IH]; intros l m H; [constructor|]. destruct H; constructor; [assumption | apply IH; assumption]. Qed.

Lemma Forall2_len : forall {A B} (P : A -> B -> Prop) l m, Forall2 P l m -> List.length l = List.length m.
Proof. intros A B P l m H. induction H; cbn [List.length]; congruence. Qed.

Lemma cumsum_int : forall l c zs, cumsum32 l c -> Forall2 repZ l zs -> Forall (fun z => 0 <= z) zs -> total zs <= top ->
  forall j, (j < List.length l)%nat -> repZ (nth j c (f32_ofZ 0)) (total (firstn (S j) zs)).
Proof.
  intros l c zs [_ C] F P T j J. apply (sum_int _ _ (C j J)); [apply Forall2_firstn; exact F | |].
  - rewrite <- (firstn_skipn (S j) zs) in P. apply Forall_app in P. apply P.
  - pose proof (total_firstn zs (S j) P). lia.
Qed.

Lemma last_is_nth : forall {A} (l : list A) d, last l d = nth (List.length l - 1) l d.
Proof.
  intros A l d. induction l as [|x l IH]; [reflexivity|]. destruct l as [|y l]; [reflexivity|].
  change (last (x :: y :: l) d) with (last (y :: l) d). rewrite IH. cbn [List.length]. replace (S (S (List.length l)) - 1)%nat with (S (S (List.length l) - 1)) by lia.
  reflexivity.
Qed.

Lemma cumsum_last_int : forall l c zs, cumsum32 l c -> Forall2 repZ l zs -> Forall (fun z => 0 <= z) zs -> total zs <= top ->
  l <> [] -> repZ (last c (f32_ofZ 0)) (total zs).
Proof.
  intros l c zs C F P T N. rewrite last_is_nth, (proj1 C).
  assert (L : (0 < List.length l)%nat) by (destruct l; [contradiction | cbn [List.length]; lia]).
  assert (J : (List.length l - 1 < List.length l)%nat) by lia.
  pose proof (cumsum_int l c zs C F P T (List.length l - 1) J) as H.
  pose proof (Forall2_len _ _ _ F) as LF. assert (LE : S (List.length l - 1) = List.length zs) by lia. rewrite LE in H.
  rewrite firstn_all in H. exact H.
Qed.

(** * Quotients *)
Definition quo (a n : Z) : R := rn32 (IZR a / IZR n).

Lemma rep_div : forall x y a b, rep x a -> rep y b -> b <> 0%R -> fits (rn32 (a / b)) -> rep (div32 x y) (rn32 (a / b)).
Proof.
  intros x y a b [Fx <-] [Fy <-] NZ B. pose proof (Bdiv_correct 24 128 p32 l32 mode_NE x y NZ) as C. fold (rn32 (B2R x / B2R y)) in C.
  rewrite Rlt_bool_true in C by exact B. destruct C as (C1 & C2 & _). rewrite Fx in C2. split; [exact C2 | exact C1].
Qed.

Lemma rn32_le : forall a b, (a <= b)%R -> (rn32 a <= rn32 b)%R.
Proof. intros a b H. unfold rn32. apply round_le; [apply fexp_correct; reflexivity | apply valid_rnd_round_mode | exact H]. Qed.

Lemma quo_range : forall a n, 0 <= a <= n -> 0 < n -> (0 <= IZR a / IZR n <= 1)%R.
Proof.
  intros a n A N. assert (P : (0 < IZR n)%R) by (apply IZR_lt; lia). assert (Q1 : (0 <= IZR a)%R) by (apply IZR_le; lia).
  assert (Q2 : (IZR a <= IZR n)%R) by (apply IZR_le; lia). split.
  - apply Rmult_le_pos; [exact Q1 | left; apply Rinv_0_lt_compat; exact P].
  - apply Rmult_le_reg_r with (IZR n); [exact P|]. field_simplify; lra.
Qed.

Lemma quo_fits : forall a n, 0 <= a <= n -> 0 < n -> fits (quo a n).
Proof.
  intros a n A N. pose proof (quo_range a n A N) as [Q1 Q2]. pose proof (rn32_pos _ Q1) as P. pose proof (rn32_le _ _ Q2) as L.
  rewrite (rn32_exact 1 float32_1) in L. unfold fits, quo. rewrite Rabs_pos_eq by exact P.
  apply Rle_lt_trans with 1%R; [exact L|]. change 1%R with (bpow radix2 0). apply bpow_lt. lia.
Qed.

Lemma quo_exact : forall a, 0 <= a <= top -> float32 (IZR a / IZR top).
Proof.
  intros a H. unfold top in *.
  assert (E : (IZR a / IZR (2 ^ 24) = F2R (Float radix2 a (-24)))%R).
  { unfold F2R. cbn [Fnum Fexp]. unfold Rdiv. f_equal. }
  rewrite E. destruct (Z.eq_dec a (2 ^ 24)) as [->|D].
  - apply (generic_format_FLT radix2 (-149) 24). exists (Float radix2 1 0); [|cbn; lia | cbn; lia].
    unfold F2R. cbn [Fnum Fexp]. cbn. lra.
  - apply (generic_format_FLT radix2 (-149) 24). exists (Float radix2 a (-24)); [reflexivity | cbn [Fnum]; change (Zpower radix2 24) with (2 ^ 24); lia | cbn; lia].
Qed.

(** Half a unit in the last place below 1. *)
Lemma half_ulp : forall t, (0 <= t <= 1)%R -> (Rabs (rn32 t - t) <= bpow radix2 (-25))%R.
Proof.
  intros t [T0 T1]. destruct (Req_dec t 1) as [->|D].
  { rewrite (rn32_exact 1 float32_1), Rminus_diag_eq, Rabs_R0 by reflexivity. apply bpow_ge_0. }
  destruct (Req_dec t 0) as [->|D0].
  { rewrite (rn32_exact 0 float32_0), Rminus_diag_eq, Rabs_R0 by reflexivity. apply bpow_ge_0. }
  pose proof (@error_le_half_ulp radix2 (SpecFloat.fexp 24 128) (fexp_correct 24 128 p32) (fun x => negb (Z.even x)) t) as H.
  change (round radix2 (SpecFloat.fexp 24 128) (Znearest (fun x => negb (Z.even x))) t) with (rn32 t) in H.
  eapply Rle_trans; [exact H|].
  replace (bpow radix2 (-25)) with (/ 2 * bpow radix2 (-24))%R by (change (/ 2)%R with (bpow radix2 (-1)); rewrite <- bpow_plus; reflexivity).
  apply Rmult_le_compat_l; [lra|]. rewrite ulp_neq_0 by exact D0. apply bpow_le. unfold cexp.
  assert (M : mag radix2 t <= 0).
  { apply mag_le_bpow; [exact D0|]. change (bpow radix2 0) with 1%R. rewrite Rabs_pos_eq; lra. }
  unfold SpecFloat.fexp. change (SpecFloat.emin 24 128) with (-149). lia.
Qed.

(** The order of two shares survives the rounding. *)
Lemma quo_strict : forall a b n, 0 <= a -> a < b -> b <= n -> n <= top -> (quo a n < quo b n)%R.
Proof.
  intros a b n A AB B N. assert (N0 : 0 < n) by lia.
  assert (NP : (0 < IZR n)%R) by (apply IZR_lt; lia).
  assert (G : (IZR a / IZR n + / IZR n <= IZR b / IZR n)%R).
  { assert (IZR a + 1 <= IZR b)%R by (rewrite <- plus_IZR; apply IZR_le; lia).
    replace (IZR a / IZR n + / IZR n)%R with ((IZR a + 1) * / IZR n)%R by (unfold Rdiv; ring).
    apply Rmult_le_compat_r; [left; apply Rinv_0_lt_compat; exact NP | assumption]. }
  destruct (Z.eq_dec n top) as [->|D].
  - unfold quo. rewrite (rn32_exact _ (quo_exact a ltac:(lia))), (rn32_exact _ (quo_exact b ltac:(lia))).
    pose proof (Rinv_0_lt_compat _ NP). lra.
  - assert (I : (bpow radix2 (-24) < / IZR n)%R).
    { change (bpow radix2 (-24)) with (/ IZR top)%R. apply Rinv_lt_contravar; [|apply IZR_lt; lia].
      apply Rmult_lt_0_compat; [exact NP | apply IZR_lt; unfold top; lia]. }
    pose proof (half_ulp _ (quo_range a n ltac:(lia) N0)) as HA. pose proof (half_ulp _ (quo_range b n ltac:(lia) N0)) as HB.
    fold (quo a n) in HA. fold (quo b n) in HB. apply Rabs_le_inv in HA, HB.
    replace (bpow radix2 (-24)) with (2 * bpow radix2 (-25))%R in I by (change 2%R with (bpow radix2 1); rewrite <- bpow_plus; reflexivity).
    lra.
Qed.

Lemma quo_le : forall a b n, 0 <= a <= n -> 0 <= b <= n -> 0 < n -> n <= top -> (quo a n <= quo b n)%R <-> a <= b.
Proof.
  intros a b n A B N T. split; intros H.
  - destruct (Z_le_gt_dec a b) as [L|G]; [exact L|]. pose proof (quo_strict b a n ltac:(lia) ltac:(lia) ltac:(lia) T). lra.
  - apply rn32_le. apply Rmult_le_compat_r; [left; apply Rinv_0_lt_compat, IZR_lt; exact N | apply IZR_le; exact H].
Qed.

Lemma cdf_int : forall l c zs, cumsum32 l c -> Forall2 repZ l zs -> Forall (fun z => 0 <= z) zs -> 0 < total zs <= top ->
  forall j, (j < List.length l)%nat -> rep (nth j (cdf32 c) (f32_ofZ 0)) (quo (total (firstn (S j) zs)) (total zs)).
Proof.
  intros l c zs C F P T j J. unfold cdf32.
  rewrite nth_indep with (d' := div32 (f32_ofZ 0) (last c (f32_ofZ 0))) by (rewrite map_length, (proj1 C); exact J).
  rewrite (map_nth (fun x => div32 x (last c (f32_ofZ 0)))).
  apply rep_div.
  - exact (cumsum_int l c zs C F P (proj2 T) j J).
  - apply (cumsum_last_int l c zs C F P (proj2 T)). destruct l; [cbn in J; lia | discriminate].
  - apply not_0_IZR. lia.
  - apply quo_fits; [apply total_firstn; exact P | lia].
Qed.

(** * Searching *)
Lemma search_same : forall (a : list f32) (b : list Q) q p, List.length a = List.length b ->
  (forall j, (j < List.length a)%nat -> f32_leb q (nth j a (f32_ofZ 0)) = Qle_bool p (nth j b 0%Q)) ->
  searchsorted32 a q = searchsorted b p.
Proof.
  induction a as [|x a IH]; intros [|y b] q p L H; try discriminate L; [reflexivity|].
  cbn [searchsorted32 searchsorted]. pose proof (H 0%nat ltac:(cbn; lia)) as H0. cbn [nth] in H0. rewrite H0. destruct (Qle_bool p y); [reflexivity|].
  f_equal. apply IH; [cbn in L; lia|]. intros j J. apply (H (S j)). cbn. lia.
Qed.

Lemma search_less : forall (a : list f32) (b : list Q) q p, List.length a = List.length b ->
  (forall j, (j < List.length a)%nat -> Qle_bool p (nth j b 0%Q) = true -> f32_leb q (nth j a (f32_ofZ 0)) = true) ->
  (searchsorted32 a q <= searchsorted b p)%nat.
Proof.
  induction a as [|x a IH]; intros [|y b] q p L H; try discriminate L; [cbn; lia|].
  cbn [searchsorted32 searchsorted]. pose proof (H 0%nat ltac:(cbn; lia)) as H0. cbn [nth] in H0.
  destruct (Qle_bool p y); [rewrite (H0 eq_refl); lia|]. destruct (f32_leb q x); [lia|].
  apply le_n_S. apply IH; [cbn in L; lia|]. intros j J. apply (H (S j)). cbn. lia.
Qed.

(** * The exact side *)
Lemma sum_total : forall zs, (sum (map inject_Z zs) == inject_Z (total zs))%Q.
Proof.
  induction zs as [|z zs IH]; [reflexivity|]. cbn [map total fold_right]. fold (total zs).
  change (sum (inject_Z z :: map inject_Z zs)) with (inject_Z z + sum (map inject_Z zs))%Q. rewrite IH, inject_Z_plus. reflexivity.
Qed.

Lemma sum_eq : forall l m, Forall2 Qeq l m -> (sum l == sum m)%Q.
Proof. induction 1 as [|x y l m H _ IH]; [reflexivity|]. change (x + sum l == y + sum m)%Q. rewrite H, IH. reflexivity. Qed.

Lemma cdf_total : forall l zs j, Forall2 (fun q z => (q == inject_Z z)%Q) l zs -> (j < List.length l)%nat ->
  (nth j (cdf l) 0 == inject_Z (total (firstn (S j) zs)) / inject_Z (total zs))%Q.
Proof.
  intros l zs j F J. rewrite (cdf_nth l j J). rewrite <- !sum_total, <- firstn_map.
  assert (E : Forall2 Qeq l (map inject_Z zs)) by (clear J; induction F; constructor; assumption).
  rewrite (sum_eq _ _ E), (sum_eq _ _ (Forall2_firstn Qeq (S j) _ _ E)). reflexivity.
Qed.

Lemma share_leb : forall a n b m, 0 < n -> 0 < m ->
  Qle_bool (inject_Z a / inject_Z n) (inject_Z b / inject_Z m) = true <-> (IZR a / IZR n <= IZR b / IZR m)%R.
Proof.
  intros a n b m N M. rewrite Qle_bool_iff.
  assert (Z : forall z, 0 < z -> ~ (inject_Z z == 0)%Q) by (intros z H; intros K; unfold Qeq in K; cbn in K; lia).
  rewrite Q2R_le. unfold Qdiv. rewrite !Q2R_mult, !Q2R_inv, !Q2R_Z by (apply Z; assumption). reflexivity.
Qed.

(** * The level of a pixel *)
Section Level.
Variables (im : fimage) (h : list f32) (n m : Z) (cs ct : list f32).
Hypothesis IM : intensities n im.
Hypothesis N : n <= top.
Hypothesis H : counts_of m h.
Hypothesis M : 0 < m <= top.
Hypothesis CS : cumsum32 (counts32 (fravel im)) cs.
Hypothesis CT : cumsum32 h ct.

Let V := values im.
Let flat := ravel V.

Lemma V_nonempty : nonempty V.
Proof. destruct IM as (A & B & _). split; assumption. Qed.

Lemma V_bounded : bounded 0 255 V.
Proof. intros r c P. destruct IM as (_ & _ & _ & D). exact (proj2 (D r c P)). Qed.

Lemma flat_length : Z.of_nat (List.length flat) = n.
Proof. unfold flat. rewrite (ravel_length V V_nonempty). apply IM. Qed.

Let zs : list Z := map (fun i => Z.of_nat (List.length (filter (in_bin i) flat))) (seq 0 256).

Lemma zs_counts : map inject_Z zs = s_counts flat.
Proof. unfold zs, s_counts. rewrite map_map. reflexivity. Qed.

Lemma zs_pos : Forall (fun z => 0 <= z) zs.
Proof. apply Forall_forall. intros z I. apply in_map_iff in I. destruct I as (i & <- & _). lia. Qed.

Lemma zs_total : total zs = n.
Proof.
  pose proof (s_counts_sum flat 256 (levels_image V V_bounded) (le_n _)) as S.
  rewrite firstn_all2 in S by (rewrite s_counts_length; apply le_n). rewrite <- zs_counts, sum_total in S.
  change (Z.of_nat 256 - 1) with 255 in S. rewrite (cnt_all flat (levels_image V V_bounded)), flat_length in S.
  apply inject_Z_injective. exact S.
Qed.

Lemma n_pos : 0 < n.
Proof. destruct IM as (A & B & C & _). nia. Qed.

Lemma zs_rep : Forall2 repZ (counts32 (fravel im)) zs.
Proof.
  change (fravel im) with flat. unfold counts32, zs.
  assert (G : forall l, Forall2 repZ (map (count32 flat) l) (map (fun i => Z.of_nat (List.length (filter (in_bin i) flat))) l)).
  { induction l as [|i l IH]; cbn [map]; constructor; [|exact IH]. apply iter_int.
    pose proof (filter_le (in_bin i) (fun _ => true) flat (fun _ _ _ => eq_refl)) as L.
    assert (E : filter (fun _ : Q => true) flat = flat) by (clear; induction flat; cbn; congruence). rewrite E in L.
    pose proof flat_length. lia. }
  apply G.
Qed.

Lemma h_facts : exists hs, List.length hs = 256%nat /\ Forall2 repZ h hs /\ Forall (fun z => 0 <= z) hs /\ total hs = m /\
  Forall2 (fun q z => (q == inject_Z z)%Q) (map value h) hs.
Proof.
  destruct H as (L & hs & F & T). exists hs. split; [rewrite <- (Forall2_len _ _ _ F); exact L|].
  split; [|split; [|split; [exact T|]]].
  - clear - F. induction F as [|x z l l' (A & B & C) _ IH]; constructor; [|exact IH].
    pose proof (finite_rep x A) as R. unfold repZ. rewrite <- Q2R_Z, <- (Qeq_eqR _ _ C). exact R.
  - clear - F. induction F as [|x z l l' (A & B & C) _ IH]; constructor; assumption.
  - clear - F. induction F as [|x z l l' (A & B & C) _ IH]; cbn [map]; constructor; assumption.
Qed.

Lemma digitize_range : forall x, 0 <= digitize x <= 255.
Proof. intros x. unfold digitize. apply clipZ_range. lia. Qed.

Lemma levels_compared : forall r c,
  level32 im cs ct r c <= out_level V (map value h) r c /\ (m = n -> level32 im cs ct r c = out_level V (map value h) r c).
Proof.
  intros r c. destruct h_facts as (hs & LH & RH & PH & TH & EH).
  unfold level32, out_level. change (fvalue (g_at im r c)) with (at_ V r c). cbv zeta.
  set (k := Z.to_nat (digitize (at_ V r c))).
  assert (K : (k < 256)%nat) by (unfold k; pose proof (digitize_range (at_ V r c)); lia).
  assert (LC : List.length (counts32 (fravel im)) = 256%nat) by (unfold counts32; rewrite map_length, seq_length; reflexivity).
  assert (Q1 : rep (nth k (cdf32 cs) (f32_ofZ 0)) (quo (total (firstn (S k) zs)) n)).
  { rewrite <- zs_total. apply (cdf_int _ _ _ CS zs_rep zs_pos); [rewrite zs_total; pose proof n_pos; lia | rewrite LC; exact K]. }
  assert (Q2 : (nth k (cdf (s_counts (ravel V))) 0 == inject_Z (total (firstn (S k) zs)) / inject_Z n)%Q).
  { rewrite <- zs_total. apply cdf_total; [|rewrite s_counts_length; exact K].
    fold flat. rewrite <- zs_counts. clear. induction zs; cbn [map]; constructor; [reflexivity | assumption]. }
  set (q := nth k (cdf32 cs) (f32_ofZ 0)) in *. set (p := nth k (cdf (s_counts (ravel V))) 0%Q) in *.
  set (a := total (firstn (S k) zs)) in *.
  assert (A : 0 <= a <= n) by (rewrite <- zs_total; apply total_firstn, zs_pos).
  assert (LT : List.length (cdf32 ct) = 256%nat) by (unfold cdf32; rewrite map_length, (proj1 CT); apply H).
  assert (LV : List.length (cdf (map value h)) = 256%nat) by (rewrite cdf_length, map_length; apply H).
  assert (T1 : forall j, (j < 256)%nat -> rep (nth j (cdf32 ct) (f32_ofZ 0)) (quo (total (firstn (S j) hs)) m)).
  { intros j J. rewrite <- TH. apply (cdf_int _ _ _ CT RH PH); [lia | rewrite (proj1 H); exact J]. }
  assert (T2 : forall j, (j < 256)%nat -> (nth j (cdf (map value h)) 0 == inject_Z (total (firstn (S j) hs)) / inject_Z m)%Q).
  { intros j J. rewrite <- TH. apply cdf_total; [exact EH | rewrite map_length, (proj1 H); exact J]. }
  assert (X : forall j, (j < 256)%nat -> Qle_bool p (nth j (cdf (map value h)) 0%Q) = true <->
    (IZR a / IZR n <= IZR (total (firstn (S j) hs)) / IZR m)%R).
  { intros j J. rewrite <- share_leb by (try apply n_pos; lia). rewrite !Qle_bool_iff, Q2, (T2 j J). reflexivity. }
  assert (Y : forall j, (j < 256)%nat -> f32_leb q (nth j (cdf32 ct) (f32_ofZ 0)) = true <->
    (quo a n <= quo (total (firstn (S j) hs)) m)%R).
  { intros j J. apply rep_leb; [exact Q1 | apply T1; exact J]. }
  split.
  - assert (L : (searchsorted32 (cdf32 ct) q <= searchsorted (cdf (map value h)) p)%nat).
    { apply search_less; [rewrite LT, LV; reflexivity|]. rewrite LT. intros j J E.
      apply (Y j J). apply (X j J) in E. apply rn32_le. exact E. }
    unfold clipZ. lia.
  - intros MN. do 2 f_equal. apply search_same; [rewrite LT, LV; reflexivity|]. rewrite LT. intros j J.
    pose proof (total_firstn hs (S j) PH) as B. rewrite TH in B.
    apply eq_true_iff_eq. rewrite (X j J), (Y j J), MN, quo_le by (try apply n_pos; lia).
    assert (NP : (0 < IZR n)%R) by (apply IZR_lt, n_pos). split; intros E.
    + apply Rmult_le_compat_r; [left; apply Rinv_0_lt_compat; exact NP | apply IZR_le; exact E].
    + apply le_IZR. apply Rmult_le_reg_r with (/ IZR n)%R; [apply Rinv_0_lt_compat; exact NP | exact E].
Qed.
End Level.

Lemma ofZ_value : forall z, 0 <= z <= 255 -> (value (f32_ofZ z) == inject_Z z)%Q.
Proof.
  intros z Z. destruct (rep_ofZ z ltac:(lia)) as [F E]. apply eqR_Qeq. rewrite (value_R _ F), E, Q2R_Z. reflexivity.
Qed.

Theorem hist_exact : forall n im h out, intensities n im -> n <= 2 ^ 24 -> counts_of n h -> matched32 im h out ->
  forall r c, (value (g_at out r c) == at_ (match_histogram (values im) (map value h)) r c)%Q.
Proof.
  intros n im h out I N H (cs & ct & C1 & C2 & _ & _ & O) r c. rewrite O, match_at.
  assert (NP : 0 < n) by (destruct I as (A & B & C & _); nia).
  destruct (levels_compared im h n n cs ct I N H (conj NP N) C1 C2 r c) as [_ E]. rewrite (E eq_refl).
  apply ofZ_value. apply out_level_range.
Qed.

Theorem hist_lower : forall n m im h out, intensities n im -> n <= 2 ^ 24 -> counts_of m h -> 0 < m <= 2 ^ 24 -> matched32 im h out ->
  forall r c, (value (g_at out r c) <= at_ (match_histogram (values im) (map value h)) r c)%Q.
Proof.
  intros n m im h out I N H M (cs & ct & C1 & C2 & _ & _ & O) r c. rewrite O, match_at.
  destruct (levels_compared im h n m cs ct I N H M C1 C2 r c) as [L _].
  rewrite ofZ_value by (unfold level32; cbv zeta; apply clipZ_range; lia). apply inj_le. exact L.
Qed.
