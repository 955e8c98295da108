(** The Gaussian kernel, with the real exponential and with rounded ones. *)
From Coq Require Import List ZArith QArith Reals Lra Psatz.
From Verif Require Import Prelude Model.Render Spec.RenderSpec.
Local Open Scope R_scope.

Definition gaussR (x y x0 y0 sx sy rho amp : R) : R := gaussian realK x y x0 y0 sx sy rho amp.

(** The exponent is a negative definite form in the scaled offsets. *)
Definition form (rho a b : R) : R := (a * a + b * b - 2 * rho * a * b) / (2 * (1 - rho * rho)).

Lemma gauss_form : forall x y x0 y0 sx sy rho amp, 0 < sx -> 0 < sy -> -1 < rho < 1 ->
  gaussR x y x0 y0 sx sy rho amp = amp * exp (- form rho ((x - x0) / sx) ((y - y0) / sy)).
Proof.
  intros x y x0 y0 sx sy rho amp A B C. unfold gaussR, gaussian, form. cbn [kT realK k_ofZ k_add k_sub k_mul k_div k_neg k_exp].
  f_equal. f_equal. field. repeat split; nra.
Qed.

Lemma form_pos : forall rho a b, -1 < rho < 1 -> 0 <= form rho a b /\ (form rho a b = 0 -> a = 0 /\ b = 0).
Proof.
  intros rho a b HR. unfold form. assert (P : 0 < 1 - rho * rho) by nra.
  assert (E : a * a + b * b - 2 * rho * a * b = (a - rho * b) * (a - rho * b) + (1 - rho * rho) * (b * b)) by ring.
  pose proof (Rle_0_sqr (a - rho * b)) as Q1. pose proof (Rle_0_sqr b) as Q2. unfold Rsqr in Q1, Q2. assert (Q3 : 0 <= (1 - rho * rho) * (b * b)) by nra. split.
  - apply Rmult_le_pos; [lra|]. apply Rlt_le, Rinv_0_lt_compat. lra.
  - intros Z. assert (N : a * a + b * b - 2 * rho * a * b = 0).
    { assert (K : (a * a + b * b - 2 * rho * a * b) / (2 * (1 - rho * rho)) * (2 * (1 - rho * rho)) = 0) by (rewrite Z; ring).
      field_simplify in K; [|nra]. nra. }
    assert (B0 : (1 - rho * rho) * (b * b) = 0) by lra. apply Rmult_integral in B0. destruct B0 as [B0|B0]; [lra|].
    apply Rmult_integral in B0. assert (b = 0) by tauto. subst b.
    assert (A0 : a * a = 0) by lra. apply Rmult_integral in A0. split; [tauto | reflexivity].
Qed.

Lemma form_scale : forall rho a b t, -1 < rho < 1 -> form rho (t * a) (t * b) = t * t * form rho a b.
Proof. intros. unfold form. field. nra. Qed.

Lemma exp_neg : forall z, 0 <= z -> 0 < exp (- z) <= 1.
Proof.
  intros z H. split; [apply exp_pos|]. rewrite <- exp_0. destruct (Req_dec z 0) as [->|N]; [rewrite Ropp_0; lra|].
  apply Rlt_le, exp_increasing. lra.
Qed.

Lemma gauss_bounds : forall x y x0 y0 sx sy rho amp, 0 < sx -> 0 < sy -> -1 < rho < 1 -> 0 <= amp ->
  0 <= gaussR x y x0 y0 sx sy rho amp <= amp.
Proof.
  intros. rewrite gauss_form by assumption.
  destruct (exp_neg (form rho ((x - x0) / sx) ((y - y0) / sy))) as [A B]; [apply form_pos; assumption|]. nra.
Qed.

Lemma gauss_peak : forall x y x0 y0 sx sy rho amp, 0 < sx -> 0 < sy -> -1 < rho < 1 -> 0 < amp ->
  (gaussR x y x0 y0 sx sy rho amp = amp <-> x = x0 /\ y = y0).
Proof.
  intros x y x0 y0 sx sy rho amp A B C D. rewrite gauss_form by assumption. split.
  - intros H. assert (E : exp (- form rho ((x - x0) / sx) ((y - y0) / sy)) = 1).
    { apply (Rmult_eq_reg_l amp); lra. }
    rewrite <- exp_0 in E. apply exp_inv in E. destruct (form_pos rho ((x - x0) / sx) ((y - y0) / sy) C) as [_ F].
    destruct F as [F1 F2]; [lra|]. split.
    + assert (K : (x - x0) / sx * sx = 0) by (rewrite F1; ring). field_simplify in K; lra.
    + assert (K : (y - y0) / sy * sy = 0) by (rewrite F2; ring). field_simplify in K; lra.
  - intros [-> ->]. replace (form rho ((x0 - x0) / sx) ((y0 - y0) / sy)) with 0.
    + rewrite Ropp_0, exp_0. ring.
    + unfold form. field. repeat split; nra.
Qed.

Lemma gauss_ray : forall a b s t x0 y0 sx sy rho amp, 0 < sx -> 0 < sy -> -1 < rho < 1 -> 0 <= amp -> 0 <= s <= t ->
  gaussR (x0 + t * a) (y0 + t * b) x0 y0 sx sy rho amp <= gaussR (x0 + s * a) (y0 + s * b) x0 y0 sx sy rho amp.
Proof.
  intros a b s t x0 y0 sx sy rho amp A B C D E. rewrite !gauss_form by assumption. apply Rmult_le_compat_l; [assumption|].
  assert (G : forall k, form rho ((x0 + k * a - x0) / sx) ((y0 + k * b - y0) / sy) = k * k * form rho (a / sx) (b / sy)).
  { intros k. rewrite <- form_scale by assumption. f_equal; field; lra. }
  rewrite !G. destruct (form_pos rho (a / sx) (b / sy) C) as [F _].
  destruct (Req_dec (s * s * form rho (a / sx) (b / sy)) (t * t * form rho (a / sx) (b / sy))) as [->|N]; [lra|].
  apply Rlt_le, exp_increasing. assert (s * s <= t * t) by nra. nra.
Qed.

(** The inverse covariance. *)
Lemma gauss_covariance : forall X Y a b x0 y0 sx sy rho amp, 0 < sx -> 0 < sy -> -1 < rho < 1 ->
  sx * sx * a + rho * sx * sy * b = X -> rho * sx * sy * a + sy * sy * b = Y ->
  gaussR (x0 + X) (y0 + Y) x0 y0 sx sy rho amp = amp * exp (- ((a * X + b * Y) / 2)).
Proof.
  intros X Y a b x0 y0 sx sy rho amp A B C <- <-. rewrite gauss_form by assumption. f_equal. f_equal. f_equal.
  unfold form. field. repeat split; nra.
Qed.

Local Open Scope Q_scope.
From Coq Require Import Lqa Lia.
From Verif Require Import Proofs.RenderProofs.

Lemma Qsq_pos : forall a : Q, 0 <= a * a.
Proof. intros [n d]. unfold Qle, Qmult. cbn [Qnum Qden]. pose proof (Z.square_nonneg n). lia. Qed.

Lemma mahalanobis_pos : forall p dy dx, proper_particle p -> 0 <= mahalanobis p dy dx.
Proof.
  intros p dy dx (A & B & C). unfold mahalanobis. set (a := 2 * dx / p_dx p). set (b := 2 * dy / p_dy p). set (rho := p_rho p) in *.
  clearbody a b rho. assert (P : 0 < 1 - rho * rho) by nra.
  unfold Qdiv. apply Qmult_le_0_compat; [|apply Qlt_le_weak, Qinv_lt_0_compat, P].
  setoid_replace (a * a - 2 * rho * a * b + b * b) with ((a - rho * b) * (a - rho * b) + (1 - rho * rho) * (b * b)) by ring.
  pose proof (Qsq_pos (a - rho * b)). pose proof (Qsq_pos b). assert (0 <= (1 - rho * rho) * (b * b)) by (apply Qmult_le_0_compat; lra). lra.
Qed.

Lemma bump_bounds : forall ex p dy dx, exp_like ex -> proper_particle p -> 0 <= p_amp p -> 0 <= bump ex p dy dx <= p_amp p.
Proof.
  intros ex p dy dx [RE EL] PP A. unfold bump. pose proof (mahalanobis_pos p dy dx PP) as M.
  set (m := mahalanobis p dy dx) in *. clearbody m. assert (E : m / 2 == (1 # 2) * m) by field.
  destruct (EL (- (m / 2))) as [L U]; [lra|]. nra.
Qed.
