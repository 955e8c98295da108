(** The kernel in binary32. *)
From Coq Require Import List Arith ZArith QArith Qround Qreals Qabs Qminmax Bool Permutation Reals Lia Lqa Lra Psatz.
From Flocq Require Import Core Relative Plus_error Mult_error IEEE754.BinarySingleNaN.
From Verif Require Import Prelude Model.Interp Model.Geometry Model.Render Model.InterpFloat Model.HistFloat Model.DrawFloat.
From Verif Require Import Spec.InterpSpec Spec.RenderSpec Spec.InterpFloatSpec Spec.DrawFloatSpec Spec.KernelFloatSpec.
From Verif Require Import Proofs.InterpProofs Proofs.RenderProofs Proofs.FloatProofs Proofs.RoundProofs Proofs.InterpFloatProofs Proofs.InterpBinary.
From Verif Require Import Proofs.DrawFloatProofs Proofs.PlaceFloatProofs Proofs.KernelError.
Import ListNotations.
Local Open Scope R_scope.

Lemma u_u32 : u32 = u.
Proof. unfold u32, u. cbn [bpow]. change (Z.pow_pos radix2 24) with 16777216%Z. reflexivity. Qed.

(** * Sizes *)
Definition nzb (lo hi : Z) (t : R) : Prop := bpow radix2 lo <= Rabs t <= bpow radix2 hi.
Definition sz (lo hi : Z) (t : R) : Prop := t = 0 \/ nzb lo hi t.

Lemma nzb_mul : forall l h l' h' a b, nzb l h a -> nzb l' h' b -> nzb (l + l') (h + h') (a * b).
Proof.
  intros l h l' h' a b [A1 A2] [B1 B2]. unfold nzb. rewrite Rabs_mult, !bpow_plus.
  pose proof (bpow_ge_0 radix2 l). pose proof (bpow_ge_0 radix2 l'). split; apply Rmult_le_compat; lra || apply Rabs_pos || assumption.
Qed.

Lemma nzb_inv : forall l h a, nzb l h a -> nzb (- h) (- l) (/ a).
Proof.
  intros l h a [A1 A2]. unfold nzb. rewrite Rabs_inv, !bpow_opp. pose proof (bpow_gt_0 radix2 l) as P. split; apply Rinv_le_contravar; lra.
Qed.

Lemma nzb_nz : forall l h a, nzb l h a -> a <> 0.
Proof. intros l h a [A _] ->. rewrite Rabs_R0 in A. pose proof (bpow_gt_0 radix2 l). lra. Qed.

Lemma sz_mul : forall l h l' h' a b, sz l h a -> sz l' h' b -> sz (l + l') (h + h') (a * b).
Proof. intros l h l' h' a b [->|A] [->|B]; [left; ring | left; ring | left; ring | right; apply nzb_mul; assumption]. Qed.

Lemma sz_div : forall l h l' h' a b, sz l h a -> nzb l' h' b -> sz (l - h') (h - l') (a / b).
Proof.
  intros l h l' h' a b A B. unfold Rdiv. apply (sz_mul l h (- h') (- l') a (/ b)); [exact A | right; apply nzb_inv; exact B].
Qed.

Lemma bpow_float : forall k, (-149 <= k)%Z -> float32 (bpow radix2 k).
Proof. intros k K. apply generic_format_bpow. unfold FLT_exp. lia. Qed.

Lemma rn32_abs_ge : forall t k, (-149 <= k)%Z -> bpow radix2 k <= Rabs t -> bpow radix2 k <= Rabs (rn32 t).
Proof.
  intros t k K H. apply (@abs_round_ge_generic radix2 (FLT_exp (-149) 24) (@FLT_exp_valid (-149) 24 p32) ZnearestE (valid_rnd_N _)); [apply bpow_float; exact K | exact H].
Qed.

Lemma rn32_abs_le : forall t k, (-149 <= k)%Z -> Rabs t <= bpow radix2 k -> Rabs (rn32 t) <= bpow radix2 k.
Proof.
  intros t k K H. apply (@abs_round_le_generic radix2 (FLT_exp (-149) 24) (@FLT_exp_valid (-149) 24 p32) ZnearestE (valid_rnd_N _)); [apply bpow_float; exact K | exact H].
Qed.

Lemma rn32_0 : rn32 0 = 0. Proof. exact (rn32_exact 0 float32_0). Qed.

Lemma nzb_rn : forall l h t, (-126 <= l)%Z -> (-149 <= h)%Z -> nzb l h t -> nzb l h (rn32 t).
Proof. intros l h t L H [A B]. split; [apply rn32_abs_ge; [lia | exact A] | apply rn32_abs_le; [lia | exact B]]. Qed.

Lemma sz_rn : forall l h t, (-126 <= l)%Z -> (-149 <= h)%Z -> sz l h t -> sz l h (rn32 t).
Proof. intros l h t L H [->|N]; [left; exact rn32_0 | right; apply nzb_rn; assumption]. Qed.

Lemma sz_rnd : forall l h t, (-126 <= l)%Z -> sz l h t -> rnd (rn32 t) t.
Proof.
  intros l h t L [->|[A _]]; unfold rnd; [rewrite rn32_0, Rminus_diag_eq, Rabs_R0 by reflexivity; lra|].
  pose proof (relative_error_N_FLT radix2 (-149) 24 p32 (fun x => negb (Z.even x)) t) as R.
  change (round radix2 (FLT_exp (-149) 24) (Znearest (fun x => negb (Z.even x))) t) with (rn32 t) in R. rewrite <- u_u32.
  assert (E : / 2 * bpow radix2 (- (24) + 1) = u32) by (change (/ 2) with (bpow radix2 (-1)); rewrite <- bpow_plus; reflexivity).
  rewrite E in R. apply R. eapply Rle_trans; [|exact A]. apply bpow_le. lia.
Qed.

Lemma sz_fits : forall l h t, (h <= 127)%Z -> sz l h t -> fits t.
Proof.
  intros l h t H [->|[_ B]]; unfold fits; [rewrite Rabs_R0; apply bpow_gt_0|]. eapply Rle_lt_trans; [exact B|]. apply bpow_lt. lia.
Qed.

(** * Operations *)
Lemma rep_div : forall x y a b, rep x a -> rep y b -> b <> 0 -> fits (rn32 (a / b)) -> rep (div32 x y) (rn32 (a / b)).
Proof.
  intros x y a b [Fx <-] [Fy <-] NZ B. pose proof (Bdiv_correct 24 128 p32 l32 mode_NE x y NZ) as C. fold (rn32 (B2R x / B2R y)) in C.
  rewrite Rlt_bool_true in C by exact B. destruct C as (C1 & C2 & _). rewrite Fx in C2. split; [exact C2 | exact C1].
Qed.

Lemma fmul : forall l h x y a b, rep x a -> rep y b -> sz l h (a * b) -> (-126 <= l)%Z -> (-149 <= h <= 127)%Z ->
  rep (mult32 x y) (rn32 (a * b)) /\ rnd (rn32 (a * b)) (a * b) /\ sz l h (rn32 (a * b)).
Proof.
  intros l h x y a b X Y S L H. pose proof (sz_rn l h _ L ltac:(lia) S) as S'.
  split; [apply rep_mul; [exact X | exact Y | exact (sz_fits l h _ ltac:(lia) S')]|]. split; [exact (sz_rnd l h _ L S) | exact S'].
Qed.

Lemma fdiv : forall l h x y a b, rep x a -> rep y b -> b <> 0 -> sz l h (a / b) -> (-126 <= l)%Z -> (-149 <= h <= 127)%Z ->
  rep (div32 x y) (rn32 (a / b)) /\ rnd (rn32 (a / b)) (a / b) /\ sz l h (rn32 (a / b)).
Proof.
  intros l h x y a b X Y N S L H. pose proof (sz_rn l h _ L ltac:(lia) S) as S'.
  split; [apply rep_div; [exact X | exact Y | exact N | exact (sz_fits l h _ ltac:(lia) S')]|]. split; [exact (sz_rnd l h _ L S) | exact S'].
Qed.

Lemma rnd_add : forall a b, float32 a -> float32 b -> rnd (rn32 (a + b)) (a + b).
Proof. intros a b A B. unfold rnd. rewrite <- u_u32. apply add_error; assumption. Qed.

Lemma fadd : forall x y a b k, rep x a -> rep y b -> Rabs (a + b) <= bpow radix2 k -> (-149 <= k <= 127)%Z ->
  rep (plus32 x y) (rn32 (a + b)) /\ rnd (rn32 (a + b)) (a + b) /\ Rabs (rn32 (a + b)) <= bpow radix2 k.
Proof.
  intros x y a b k X Y B K. pose proof (rn32_abs_le _ k ltac:(lia) B) as S.
  split; [apply rep_add; [exact X | exact Y|]; unfold fits; eapply Rle_lt_trans; [exact S|]; apply bpow_lt; lia|].
  split; [apply rnd_add; [exact (rep_float _ _ X) | exact (rep_float _ _ Y)] | exact S].
Qed.

Lemma fsub : forall x y a b k, rep x a -> rep y b -> Rabs (a - b) <= bpow radix2 k -> (-149 <= k <= 127)%Z ->
  rep (minus32 x y) (rn32 (a - b)) /\ rnd (rn32 (a - b)) (a - b) /\ Rabs (rn32 (a - b)) <= bpow radix2 k.
Proof.
  intros x y a b k X Y B K. pose proof (rn32_abs_le _ k ltac:(lia) B) as S.
  split; [apply rep_sub; [exact X | exact Y|]; unfold fits; eapply Rle_lt_trans; [exact S|]; apply bpow_lt; lia|].
  split; [|exact S]. unfold Rminus. apply rnd_add; [exact (rep_float _ _ X) | apply generic_format_opp; exact (rep_float _ _ Y)].
Qed.

Lemma minus_0 : forall x a, rep x a -> fits a -> rep (minus32 x (f32_ofZ 0)) a.
Proof.
  intros x a X F. pose proof (rep_float _ _ X) as FA. rewrite <- (rn32_exact a FA), <- (Rminus_0_r a).
  apply rep_sub; [exact X | apply (rep_ofZ 0); lia|]. rewrite Rminus_0_r, (rn32_exact a FA). exact F.
Qed.

(** Multiplying by a power of two. *)
Lemma scale_exact : forall a k, float32 a -> sz (-100) 100 a -> (-1 <= k)%Z -> float32 (a * bpow radix2 k).
Proof.
  intros a k F S K. destruct S as [->|[S _]]; [rewrite Rmult_0_l; exact float32_0|].
  apply (mult_bpow_exact_FLT radix2 (-149) 24 a k F).
  assert (bpow radix2 (-100) < bpow radix2 (mag radix2 a)) by (eapply Rle_lt_trans; [exact S | apply bpow_mag_gt]).
  apply lt_bpow in H. lia.
Qed.

Lemma rep_double : forall x a, rep x a -> sz (-100) 100 a -> rep (mult32 (f32_ofZ 2) x) (2 * a).
Proof.
  intros x a X S. assert (F : float32 (2 * a)).
  { rewrite Rmult_comm. change 2 with (bpow radix2 1). apply scale_exact; [exact (rep_float _ _ X) | exact S | lia]. }
  rewrite <- (rn32_exact _ F). unfold mult32. apply rep_mul; [apply (rep_ofZ 2); lia | exact X|]. rewrite (rn32_exact _ F).
  apply (sz_fits (-99) 101); [lia|]. apply (sz_mul 1 1 (-100) 100); [right; unfold nzb; change (bpow radix2 1) with 2; rewrite Rabs_pos_eq by lra; lra | exact S].
Qed.

Lemma rep_half : forall x a, rep x a -> sz (-100) 100 a -> rep (div32 x (f32_ofZ 2)) (a / 2).
Proof.
  intros x a X S. assert (F : float32 (a / 2)).
  { change (a / 2) with (a * / 2). change (/ 2) with (bpow radix2 (-1)). apply scale_exact; [exact (rep_float _ _ X) | exact S | lia]. }
  rewrite <- (rn32_exact _ F). apply rep_div; [exact X | apply (rep_ofZ 2); lia | lra|]. rewrite (rn32_exact _ F).
  apply (sz_fits (-101) 99); [lia|]. apply (sz_div (-100) 100 1 1); [exact S | unfold nzb; change (bpow radix2 1) with 2; rewrite Rabs_pos_eq by lra; lra].
Qed.

Lemma rep_opp : forall x a, rep x a -> rep (@Bopp 24 128 x) (- a).
Proof. intros x a [F <-]. split; [rewrite is_finite_Bopp; exact F | apply B2R_Bopp]. Qed.

Lemma rep_twice : forall x a, rep x a -> Rabs a <= 1 -> rep (mult32 (f32_ofZ 2) x) (2 * a).
Proof.
  intros x a X S. assert (F : float32 (2 * a)).
  { rewrite Rmult_comm. change 2 with (bpow radix2 1). apply (mult_bpow_pos_exact_FLT radix2 (-149) 24 a 1); [exact (rep_float _ _ X) | lia]. }
  rewrite <- (rn32_exact _ F). unfold mult32. apply rep_mul; [apply (rep_ofZ 2); lia | exact X|]. rewrite (rn32_exact _ F).
  unfold fits. rewrite Rabs_mult, (Rabs_pos_eq 2) by lra. apply Rle_lt_trans with (bpow radix2 1); [change (bpow radix2 1) with 2; lra | apply bpow_lt; lia].
Qed.

(** Rounding a number that is small next to one that is not tiny. *)
Lemma small_rn : forall v g k, (-48 <= k)%Z -> bpow radix2 (-100) <= g -> Rabs v <= bpow radix2 k * g -> Rabs (rn32 v) <= bpow radix2 (k + 1) * g.
Proof.
  intros v g k K G V. destruct rn32_rounds as [R _]. specialize (R v). pose proof (bpow_gt_0 radix2 k) as B. pose proof (bpow_gt_0 radix2 (-100)) as B1.
  assert (E : e32 <= / 4 * (bpow radix2 k * g)).
  { unfold e32. apply Rle_trans with (/ 4 * (bpow radix2 k * bpow radix2 (-100))).
    - change (/ 4) with (bpow radix2 (-2)). rewrite <- !bpow_plus. apply bpow_le. lia.
    - apply Rmult_le_compat_l; [lra|]. apply Rmult_le_compat_l; lra. }
  rewrite u_u32 in R. pose proof u_pos as U. assert (UV : u * Rabs v <= / 4 * (bpow radix2 k * g)) by (apply Rmult_le_compat; [lra | apply Rabs_pos | unfold u; lra | exact V]).
  assert (P : 0 <= bpow radix2 k * g) by (apply Rmult_le_pos; lra).
  rewrite bpow_plus. change (bpow radix2 1) with 2.
  replace (rn32 v) with ((rn32 v - v) + v) by ring. eapply Rle_trans; [apply Rabs_triang|]. lra.
Qed.

Lemma rn_small : forall t k, (-149 <= k <= 127)%Z -> Rabs t <= bpow radix2 k -> Rabs (rn32 t) <= bpow radix2 k /\ fits (rn32 t).
Proof.
  intros t k K H. pose proof (rn32_abs_le t k ltac:(lia) H) as X. split; [exact X|]. unfold fits. eapply Rle_lt_trans; [exact X|]. apply bpow_lt. lia.
Qed.

(** * The kernel *)
Section Kernel.
Variables (ex : f32 -> f32) (eps : R).
Hypothesis EPS : 0 <= eps <= 1.
Hypothesis EX : exp_within eps ex.
Variables (dx dy sxf syf rhof ampf : f32) (X Y sx sy rho amp : R).
Hypothesis RX : rep dx (rn32 X).
Hypothesis RY : rep dy (rn32 Y).
Hypothesis BX : sz (-23) 24 X.
Hypothesis BY : sz (-23) 24 Y.
Hypothesis RSX : rep sxf sx.
Hypothesis RSY : rep syf sy.
Hypothesis PSX : 0 < sx.
Hypothesis PSY : 0 < sy.
Hypothesis BSX : nzb (-21) 19 sx.
Hypothesis BSY : nzb (-21) 19 sy.
Hypothesis RR : rep rhof rho.
Hypothesis BR : Rabs rho <= 1023 / 1024.
Hypothesis RA : rep ampf amp.
Hypothesis BA : 0 <= amp <= bpow radix2 20.

Lemma kernel_float :
  let v := gaussian (f32K ex) dx dy (f32_ofZ 0) (f32_ofZ 0) sxf syf rhof ampf in
  finite v /\
  Rabs (B2R v - amp * exp (- (form X Y sx sy rho / om rho) / 2)) <=
    amp * (11 * u * (q X Y sx sy / (om rho * om rho)) + eps + 2 * u) + e32 /\
  ((forall t, finite t -> (value t <= 0)%Q -> (0 <= value (ex t) <= 1)%Q) -> 0 <= B2R v <= amp).
Proof.
  intros v.
  pose proof (sz_rnd (-23) 24 X ltac:(lia) BX) as HX. pose proof (sz_rnd (-23) 24 Y ltac:(lia) BY) as HY.
  pose proof (sz_rn (-23) 24 X ltac:(lia) ltac:(lia) BX) as SX. pose proof (sz_rn (-23) 24 Y ltac:(lia) ltac:(lia) BY) as SY.
  set (x := rn32 X) in *. set (y := rn32 Y) in *.
  pose proof (minus_0 _ _ RX (sz_fits (-23) 24 x ltac:(lia) SX)) as RX0. pose proof (minus_0 _ _ RY (sz_fits (-23) 24 y ltac:(lia) SY)) as RY0.
  destruct (fmul _ _ _ _ _ _ RX0 RX0 (sz_mul _ _ _ _ _ _ SX SX) ltac:(lia) ltac:(lia)) as (Rxx & Hxx & Sxx). set (xx := rn32 (x * x)) in *.
  destruct (fmul _ _ _ _ _ _ RY0 RY0 (sz_mul _ _ _ _ _ _ SY SY) ltac:(lia) ltac:(lia)) as (Ryy & Hyy & Syy). set (yy := rn32 (y * y)) in *.
  pose proof (nzb_mul _ _ _ _ _ _ BSX BSX) as N1. pose proof (nzb_mul _ _ _ _ _ _ BSY BSY) as N2. pose proof (nzb_mul _ _ _ _ _ _ BSX BSY) as N3.
  destruct (fmul _ _ _ _ _ _ RSX RSX (or_intror N1) ltac:(lia) ltac:(lia)) as (Rssx & Hssx & _). pose proof (nzb_rn (-42) 38 (sx * sx) ltac:(lia) ltac:(lia) N1) as N1'. set (ssx := rn32 (sx * sx)) in *.
  destruct (fmul _ _ _ _ _ _ RSY RSY (or_intror N2) ltac:(lia) ltac:(lia)) as (Rssy & Hssy & _). pose proof (nzb_rn (-42) 38 (sy * sy) ltac:(lia) ltac:(lia) N2) as N2'. set (ssy := rn32 (sy * sy)) in *.
  destruct (fmul _ _ _ _ _ _ RSX RSY (or_intror N3) ltac:(lia) ltac:(lia)) as (Rss & Hss & _). pose proof (nzb_rn (-42) 38 (sx * sy) ltac:(lia) ltac:(lia) N3) as N3'. set (ss := rn32 (sx * sy)) in *.
  destruct (fdiv _ _ _ _ _ _ Rxx Rssx (nzb_nz _ _ _ N1') (sz_div _ _ _ _ _ _ Sxx N1') ltac:(lia) ltac:(lia)) as (Ra & Ha & Sa). set (a := rn32 (xx / ssx)) in *.
  destruct (fdiv _ _ _ _ _ _ Ryy Rssy (nzb_nz _ _ _ N2') (sz_div _ _ _ _ _ _ Syy N2') ltac:(lia) ltac:(lia)) as (Rb & Hb & Sb). set (b := rn32 (yy / ssy)) in *.
  assert (UA : forall l h t, sz l h t -> (h <= 92)%Z -> Rabs t <= bpow radix2 92).
  { intros l h t [->|[_ B]] H; [rewrite Rabs_R0; apply bpow_ge_0|]. eapply Rle_trans; [exact B|]. apply bpow_le. exact H. }
  assert (DBL : bpow radix2 93 = bpow radix2 92 + bpow radix2 92) by (change 93%Z with (1 + 92)%Z; rewrite bpow_plus; change (bpow radix2 1) with 2; ring).
  assert (DBL' : bpow radix2 94 = bpow radix2 93 + bpow radix2 93) by (change 94%Z with (1 + 93)%Z; rewrite bpow_plus; change (bpow radix2 1) with 2; ring).
  assert (UAB : Rabs (a + b) <= bpow radix2 93).
  { eapply Rle_trans; [apply Rabs_triang|]. pose proof (UA _ _ _ Sa ltac:(lia)). pose proof (UA _ _ _ Sb ltac:(lia)). lra. }
  destruct (fadd _ _ _ _ 93 Ra Rb UAB ltac:(lia)) as (Rs & Hs & Us). set (s := rn32 (a + b)) in *.
  assert (BR1 : Rabs rho <= 1) by lra.
  pose proof (rep_twice _ _ RR BR1) as R2r.
  assert (S2 : nzb 1 1 2) by (unfold nzb; change (bpow radix2 1) with 2; rewrite Rabs_pos_eq by lra; lra).
  assert (UX : Rabs x <= bpow radix2 24) by (destruct SX as [->|[_ SX']]; [rewrite Rabs_R0; apply bpow_ge_0 | exact SX']).
  assert (UY : Rabs y <= bpow radix2 24) by (destruct SY as [->|[_ SY']]; [rewrite Rabs_R0; apply bpow_ge_0 | exact SY']).
  assert (MB : forall m m' i j, Rabs m <= bpow radix2 i -> Rabs m' <= bpow radix2 j -> Rabs (m * m') <= bpow radix2 (i + j)).
  { intros m m' i j A B. rewrite Rabs_mult, bpow_plus. apply Rmult_le_compat; try apply Rabs_pos; assumption. }
  assert (U2r : Rabs (2 * rho) <= bpow radix2 1) by (rewrite Rabs_mult, (Rabs_pos_eq 2) by lra; change (bpow radix2 1) with 2; lra).
  destruct (rn_small _ 25 ltac:(lia) (MB (2 * rho) x 1%Z 24%Z U2r UX)) as [Ut1 Ft1].
  assert (Rt1 : rep (mult32 (mult32 (f32_ofZ 2) rhof) (minus32 dx (f32_ofZ 0))) (rn32 (2 * rho * x))) by (unfold mult32 at 1; apply rep_mul; assumption).
  set (t1 := rn32 (2 * rho * x)) in *.
  destruct (rn_small _ 49 ltac:(lia) (MB t1 y 25%Z 24%Z Ut1 UY)) as [Ut2 Ft2].
  assert (Rt2 : rep (mult32 (mult32 (mult32 (f32_ofZ 2) rhof) (minus32 dx (f32_ofZ 0))) (minus32 dy (f32_ofZ 0))) (rn32 (t1 * y))) by (unfold mult32 at 1; apply rep_mul; assumption).
  set (t2 := rn32 (t1 * y)) in *.
  pose proof (nzb_inv _ _ _ N3') as NI. destruct (rn_small _ 91 ltac:(lia) (MB t2 (/ ss) 49%Z 42%Z Ut2 (proj2 NI))) as [Ut Ft].
  pose proof (rep_div _ _ _ _ Rt2 Rss (nzb_nz _ _ _ N3') Ft) as Rt. change (t2 * / ss) with (t2 / ss) in *. set (t := rn32 (t2 / ss)) in *.
  assert (PSS : 0 < ss).
  { assert (0 < sx * sy) by (apply Rmult_lt_0_compat; assumption). unfold rnd in Hss. rewrite (Rabs_pos_eq (sx * sy)) in Hss by lra. apply Rabs_le_inv in Hss. unfold u in Hss. lra. }
  assert (HTT : Rabs (t - 2 * rho * al X sx * be Y sy) <= 71 / 10 * u * q X Y sx sy).
  { destruct (Req_dec rho 0) as [R0|R0]; [|destruct (Rle_or_lt (bpow radix2 (-42)) (Rabs rho)) as [RB|RB]].
    - assert (T0 : t = 0) by (unfold t, t2, t1; rewrite R0, Rmult_0_r, Rmult_0_l, rn32_0, Rmult_0_l, rn32_0; unfold Rdiv; rewrite Rmult_0_l; apply rn32_0).
      rewrite T0, R0. replace (0 - 2 * 0 * al X sx * be Y sy) with 0 by ring. rewrite Rabs_R0. pose proof (q_pos X Y sx sy). pose proof u_pos. apply Rmult_le_pos; lra.
    - assert (SR : sz (-42) 0 rho) by (right; split; [exact RB | change (bpow radix2 0) with 1; lra]).
      assert (S2r : sz (-41) 1 (2 * rho)) by (apply (sz_mul 1 1 (-42) 0); [right; exact S2 | exact SR]).
      pose proof (sz_mul _ _ _ _ _ _ S2r SX) as Z1. pose proof (sz_rn (-64) 25 _ ltac:(lia) ltac:(lia) Z1) as St1. fold t1 in St1.
      pose proof (sz_mul _ _ _ _ _ _ St1 SY) as Z2. pose proof (sz_rn (-87) 49 _ ltac:(lia) ltac:(lia) Z2) as St2. fold t2 in St2.
      pose proof (sz_div _ _ _ _ _ _ St2 N3') as Z3.
      apply (mixed_steps X Y x y sx sy rho t1 t2 ss t PSX PSY HX HY Hss BR1); [exact (sz_rnd (-64) 25 _ ltac:(lia) Z1) | exact (sz_rnd (-87) 49 _ ltac:(lia) Z2) | exact (sz_rnd (-125) 91 _ ltac:(lia) Z3)].
    - apply (mixed_tiny X Y x y sx sy rho ss t PSX PSY HX HY Hss).
      + apply Rlt_le. eapply Rlt_le_trans; [exact RB|]. rewrite <- u_u32. unfold u32. apply Rle_trans with (bpow radix2 (-24) * bpow radix2 (-7)); [rewrite <- bpow_plus; apply bpow_le; lia|].
        unfold Rdiv. apply Rmult_le_compat_l; [apply bpow_ge_0|]. cbn [bpow]. change (Z.pow_pos radix2 7) with 128%Z. lra.
      + destruct SX as [X0|NX]; [assert (T0 : t = 0) by (unfold t, t2, t1; rewrite X0, Rmult_0_r, rn32_0, Rmult_0_l, rn32_0; unfold Rdiv; rewrite Rmult_0_l; apply rn32_0);
          rewrite T0, X0, Rmult_0_l, Rabs_R0; unfold Rdiv; rewrite Rmult_0_l, Rmult_0_r; lra|].
        destruct SY as [Y0|NY]; [assert (T0 : t = 0) by (unfold t, t2; rewrite Y0, Rmult_0_r, rn32_0; unfold Rdiv; rewrite Rmult_0_l; apply rn32_0);
          rewrite T0, Y0, Rmult_0_r, Rabs_R0; unfold Rdiv; rewrite Rmult_0_l, Rmult_0_r; lra|].
        pose proof (nzb_mul _ _ _ _ _ _ NX NY) as NXY. pose proof (nzb_mul _ _ _ _ _ _ NXY NI) as NQ.
        assert (G1 : Rabs t1 <= bpow radix2 (-41 + 1) * Rabs x).
        { apply small_rn; [lia | destruct NX as [NX _]; eapply Rle_trans; [|exact NX]; apply bpow_le; lia|]. rewrite Rabs_mult. apply Rmult_le_compat_r; [apply Rabs_pos|].
          rewrite Rabs_mult, (Rabs_pos_eq 2) by lra. replace (bpow radix2 (-41)) with (2 * bpow radix2 (-42)) by (change 2 with (bpow radix2 1); rewrite <- bpow_plus; reflexivity). lra. }
        assert (G2 : Rabs t2 <= bpow radix2 (-41 + 1 + 1) * Rabs (x * y)).
        { apply small_rn; [lia | destruct NXY as [NXY _]; eapply Rle_trans; [|exact NXY]; apply bpow_le; lia|]. rewrite !Rabs_mult, <- Rmult_assoc. apply Rmult_le_compat_r; [apply Rabs_pos | exact G1]. }
        assert (G3 : Rabs t <= bpow radix2 (-41 + 1 + 1 + 1) * (Rabs (x * y) / ss)).
        { assert (EQ : Rabs (x * y) / ss = Rabs (x * y * / ss)) by (rewrite (Rabs_mult (x * y)), (Rabs_pos_eq (/ ss)) by (apply Rlt_le, Rinv_0_lt_compat; exact PSS); reflexivity).
          rewrite EQ. apply small_rn; [lia | destruct NQ as [NQ _]; eapply Rle_trans; [|exact NQ]; apply bpow_le; lia|]. unfold Rdiv. rewrite !(Rabs_mult _ (/ ss)), <- Rmult_assoc. apply Rmult_le_compat_r; [apply Rabs_pos | exact G2]. }
        eapply Rle_trans; [exact G3|]. apply Rmult_le_compat_r; [apply Rmult_le_pos; [apply Rabs_pos | apply Rlt_le, Rinv_0_lt_compat; exact PSS]|].
        rewrite <- u_u32. apply bpow_le. lia. }
  assert (UST : Rabs (s - t) <= bpow radix2 94).
  { unfold Rminus. eapply Rle_trans; [apply Rabs_triang|]. rewrite Rabs_Ropp. assert (Rabs t <= bpow radix2 92) by (eapply Rle_trans; [exact Ut | apply bpow_le; lia]). pose proof (bpow_ge_0 radix2 92). lra. }
  destruct (fsub _ _ _ _ 94 Rs Rt UST ltac:(lia)) as (Rz & Hz & Uz). set (z := rn32 (s - t)) in *.
  destruct (rn_small (rho * rho) 0 ltac:(lia)) as [Urr0 Frr].
  { rewrite Rabs_mult. replace (bpow radix2 0) with (1 * 1) by (change (bpow radix2 0) with 1; ring). apply Rmult_le_compat; try apply Rabs_pos; lra. }
  assert (Rrr : rep (mult32 rhof rhof) (rn32 (rho * rho))) by (unfold mult32; apply rep_mul; assumption).
  assert (Hrr : Rabs (rn32 (rho * rho) - rho * rho) <= u * (rho * rho) + u / 1000).
  { destruct rn32_rounds as [RND _]. specialize (RND (rho * rho)). rewrite u_u32, (Rabs_pos_eq (rho * rho)) in RND by apply sq_pos. eapply Rle_trans; [exact RND|].
    apply Rplus_le_compat_l. rewrite <- u_u32. unfold u32, e32. apply Rle_trans with (bpow radix2 (-24) * bpow radix2 (-10)); [rewrite <- bpow_plus; apply bpow_le; lia|].
    unfold Rdiv. apply Rmult_le_compat_l; [apply bpow_ge_0|]. cbn [bpow]. change (Z.pow_pos radix2 10) with 1024%Z. lra. }
  set (rr := rn32 (rho * rho)) in *.
  assert (Urr : Rabs (1 - rr) <= bpow radix2 1).
  { unfold Rminus. eapply Rle_trans; [apply Rabs_triang|]. rewrite Rabs_Ropp, Rabs_R1. change (bpow radix2 1) with 2.
    change (bpow radix2 0) with 1 in Urr0. lra. }
  destruct (fsub _ _ _ _ 1 (rep_ofZ 1 ltac:(lia)) Rrr Urr ltac:(lia)) as (Rw & Hw & Uw). set (w := rn32 (1 - rr)) in *.
  pose proof (om_range rho BR) as OM. pose proof (w_range rho BR rr w Hrr Hw) as WR.
  assert (Nw : nzb (-11) 1 w).
  { split; [|exact Uw]. rewrite Rabs_pos_eq by lra. replace (bpow radix2 (-11)) with (/ 2048) by (cbn [bpow]; change (Z.pow_pos radix2 11) with 2048%Z; reflexivity). lra. }
  assert (R2w : rep (mult32 (f32_ofZ 2) (minus32 (f32_ofZ 1) (mult32 rhof rhof))) (2 * w)).
  { apply rep_double; [exact Rw|]. right. destruct Nw as [A B]. split; [eapply Rle_trans; [|exact A]; apply bpow_le; lia | eapply Rle_trans; [exact B|]; apply bpow_le; lia]. }
  pose proof (nzb_mul _ _ _ _ _ _ S2 Nw) as N2w.
  pose proof (z_range X Y x y sx sy rho PSX PSY BR HX HY xx ssx a yy ssy b s t z Hxx Hssx Ha Hyy Hssy Hb Hs HTT Hz) as ZR.
  pose proof (q_pos X Y sx sy) as QP.
  assert (Sz : sz (-100) 94 z).
  { destruct (Req_dec z 0) as [E|E]; [left; exact E|]. right. split; [|exact Uz]. rewrite Rabs_pos_eq by lra.
    assert (QB : bpow radix2 (-89) <= q X Y sx sy).
    { assert (AUX : forall V sv, sz (-23) 24 V -> nzb (-21) 19 sv -> V <> 0 -> bpow radix2 (-89) <= V / sv * (V / sv)).
      { intros V sv HV Hsv NV. destruct HV as [E'|HV]; [contradiction|].
        pose proof (sz_div _ _ _ _ _ _ (or_intror HV) Hsv) as D. destruct D as [D|D]; [exfalso; apply (nzb_nz _ _ _ (nzb_mul _ _ _ _ _ _ HV (nzb_inv _ _ _ Hsv))); exact D|].
        pose proof (nzb_mul _ _ _ _ _ _ D D) as DD. destruct DD as [DD _]. rewrite Rabs_pos_eq in DD by apply sq_pos.
        eapply Rle_trans; [|exact DD]. apply bpow_le. lia. }
      unfold q, al, be. pose proof (sq_pos (X / sx)) as P1. pose proof (sq_pos (Y / sy)) as P2.
      destruct (Req_dec X 0) as [X0|X0]; [destruct (Req_dec Y 0) as [Y0|Y0]|].
      - exfalso. apply E. assert (q X Y sx sy = 0) by (unfold q, al, be; rewrite X0, Y0; unfold Rdiv; ring). rewrite H in ZR. lra.
      - pose proof (AUX Y sy BY BSY Y0). lra.
      - pose proof (AUX X sx BX BSX X0). lra. }
    destruct ZR as [ZR _]. apply Rle_trans with (bpow radix2 (-89) / 2048); [|lra].
    replace (bpow radix2 (-89) / 2048) with (bpow radix2 (-89) * bpow radix2 (-11)) by (unfold Rdiv; f_equal). rewrite <- bpow_plus. apply bpow_le. lia. }
  assert (Szo : sz (-100) 94 (- z)) by (destruct Sz as [E|E]; [left; rewrite E; ring | right; unfold nzb; rewrite Rabs_Ropp; exact E]).
  destruct (fdiv _ _ _ _ _ _ (rep_opp _ _ Rz) R2w (nzb_nz _ _ _ N2w) (sz_div _ _ _ _ _ _ Szo N2w) ltac:(lia) ltac:(lia)) as (Re & He & _). set (e := rn32 (- z / (2 * w))) in *.
  pose proof (e_nonpos X Y x y sx sy rho PSX PSY BR HX HY xx ssx a yy ssy b s t z Hxx Hssx Ha Hyy Hssy Hb Hs HTT Hz rr w Hrr Hw) as EN.
  pose proof (e_err X Y x y sx sy rho PSX PSY BR HX HY xx ssx a yy ssy b s t z Hxx Hssx Ha Hyy Hssy Hb Hs HTT Hz rr w e Hrr Hw He) as EE.
  assert (E0 : e <= 0).
  { unfold e. rewrite <- rn32_0. unfold rn32. apply round_le; [apply fexp_correct; reflexivity | apply valid_rnd_round_mode | exact EN]. }
  set (ef := div32 (@Bopp 24 128 (minus32 (plus32 (div32 (mult32 (minus32 dx (f32_ofZ 0)) (minus32 dx (f32_ofZ 0))) (mult32 sxf sxf))
     (div32 (mult32 (minus32 dy (f32_ofZ 0)) (minus32 dy (f32_ofZ 0))) (mult32 syf syf)))
     (div32 (mult32 (mult32 (mult32 (f32_ofZ 2) rhof) (minus32 dx (f32_ofZ 0))) (minus32 dy (f32_ofZ 0))) (mult32 sxf syf))))
     (mult32 (f32_ofZ 2) (minus32 (f32_ofZ 1) (mult32 rhof rhof)))) in *.
  change v with (mult32 ampf (ex ef)). clear v. destruct Re as [Fe Ve].
  assert (NE : (value ef <= 0)%Q) by (apply Rle_Qle; rewrite Q2R_0, (value_R ef Fe), Ve; exact E0).
  destruct (EX ef Fe NE) as [FEX EXE]. rewrite (value_R _ FEX), (value_R _ Fe), Ve in EXE.
  set (g := B2R (ex ef)) in *.
  assert (EXP : 0 < exp e <= 1).
  { split; [apply exp_pos|]. destruct (Rle_lt_or_eq_dec e 0 E0) as [H| ->]; [apply exp_increasing in H; rewrite exp_0 in H; lra | rewrite exp_0; lra]. }
  assert (GB : Rabs g <= 1 + eps).
  { replace g with ((g - exp e) + exp e) by ring. eapply Rle_trans; [apply Rabs_triang|]. rewrite (Rabs_pos_eq (exp e)) by lra. lra. }
  assert (AG : Rabs (amp * g) <= amp * (1 + eps)) by (rewrite Rabs_mult, (Rabs_pos_eq amp) by apply BA; apply Rmult_le_compat_l; [apply BA | exact GB]).
  assert (AG' : Rabs (amp * g) <= bpow radix2 21).
  { eapply Rle_trans; [exact AG|]. change 21%Z with (20 + 1)%Z. rewrite bpow_plus. change (bpow radix2 1) with 2. apply Rmult_le_compat; lra. }
  assert (RV : rep (mult32 ampf (ex ef)) (rn32 (amp * g))).
  { unfold mult32. apply rep_mul; [exact RA | split; [exact FEX | reflexivity] |]. unfold fits.
    eapply Rle_lt_trans; [apply (rn32_abs_le _ 21 ltac:(lia) AG')|]. apply bpow_lt. lia. }
  destruct RV as [FV VV]. split; [exact FV|]. rewrite VV.
  assert (FR : form X Y sx sy rho / om rho >= 0).
  { pose proof (form_range X Y sx sy rho BR) as F. unfold Rdiv. apply Rle_ge. apply Rmult_le_pos; [lra | apply Rlt_le, Rinv_0_lt_compat; lra]. }
  set (E := - (form X Y sx sy rho / om rho) / 2) in *.
  assert (ENP : E <= 0) by (unfold E; lra).
  pose proof (exp_contract e E E0 ENP) as XC.
  destruct rn32_rounds as [RND _]. specialize (RND (amp * g)). rewrite u_u32 in RND. pose proof u_pos as U. split.
  - replace (rn32 (amp * g) - amp * exp E) with ((rn32 (amp * g) - amp * g) + (amp * (g - exp e) + amp * (exp e - exp E))) by ring.
    eapply Rle_trans; [apply Rabs_triang|]. eapply Rle_trans; [apply Rplus_le_compat_l; apply Rabs_triang|].
    rewrite !(Rabs_mult amp), (Rabs_pos_eq amp) by apply BA.
    assert (A1 : u * Rabs (amp * g) <= u * (amp * (1 + eps))) by (apply Rmult_le_compat_l; lra).
    assert (A2 : amp * Rabs (g - exp e) <= amp * eps) by (apply Rmult_le_compat_l; [apply BA | exact EXE]).
    assert (A3 : amp * Rabs (exp e - exp E) <= amp * (11 * u * (q X Y sx sy / (om rho * om rho)))) by (apply Rmult_le_compat_l; [apply BA | lra]).
    assert (A4 : u * (amp * (1 + eps)) <= u * (amp * 2)) by (apply Rmult_le_compat_l; [lra|]; apply Rmult_le_compat_l; lra).
    lra.
  - intros UNIT. destruct (UNIT ef Fe NE) as [G0 G1]. apply Qle_Rle in G0, G1. rewrite Q2R_0, (value_R _ FEX) in G0. rewrite Q2R_1, (value_R _ FEX) in G1. fold g in G0, G1.
    split; [apply rn32_pos; apply Rmult_le_pos; lra|].
    rewrite <- (rn32_exact amp (rep_float _ _ RA)) at 2. unfold rn32. apply round_le; [apply fexp_correct; reflexivity | apply valid_rnd_round_mode |].
    rewrite <- (Rmult_1_r amp) at 2. apply Rmult_le_compat_l; lra.
Qed.
End Kernel.
