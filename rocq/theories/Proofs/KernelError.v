(** The rounding errors of the kernel, on real numbers. *)
From Coq Require Import Reals Lia Lra Psatz.
From Flocq Require Import Core.Raux.
Local Open Scope R_scope.

Definition u : R := / 16777216.

Definition rel (k a A : R) : Prop := Rabs (a - A) <= k * u * Rabs A.
(** One rounding. *)
Definition rnd (r t : R) : Prop := Rabs (r - t) <= u * Rabs t.

Lemma u_pos : 0 < u. Proof. unfold u. lra. Qed.

Lemma rel_size : forall k a A, 0 <= k <= 20 -> rel k a A -> (1 - k * u) * Rabs A <= Rabs a <= (1 + k * u) * Rabs A.
Proof.
  intros k a A K H. unfold rel in H. split.
  - replace A with (a - (a - A)) at 1 by ring. pose proof (Rabs_triang (a - A) (A)). pose proof (Rabs_triang a (- (a - A))) as T.
    replace (a + - (a - A)) with A in T by ring. rewrite Rabs_Ropp in T. replace (a - (a - A)) with A by ring. lra.
  - replace a with ((a - A) + A) by ring. eapply Rle_trans; [apply Rabs_triang|]. lra.
Qed.

Lemma rel_refl : forall A, rel 0 A A.
Proof. intros A. unfold rel. rewrite Rminus_diag_eq, Rabs_R0 by reflexivity. lra. Qed.

Lemma rel_weaken : forall k l a A, k <= l -> rel k a A -> rel l a A.
Proof.
  intros k l a A L H. unfold rel in *. eapply Rle_trans; [exact H|]. apply Rmult_le_compat_r; [apply Rabs_pos|].
  apply Rmult_le_compat_r; [apply Rlt_le, u_pos | exact L].
Qed.

Lemma cross : forall k l, 0 <= k <= 20 -> 0 <= l <= 20 -> k * l * u <= 1 / 100.
Proof. intros k l K L. assert (k * l <= 20 * 20) by (apply Rmult_le_compat; lra). unfold u. lra. Qed.

Lemma rel_mul : forall k l a b A B, rel k a A -> rel l b B -> 0 <= k <= 20 -> 0 <= l <= 20 -> rel (k + l + 1 / 100) (a * b) (A * B).
Proof.
  intros k l a b A B HA HB K L. destruct (rel_size l b B L HB) as [_ SB]. unfold rel in *. rewrite Rabs_mult.
  replace (a * b - A * B) with ((a - A) * b + A * (b - B)) by ring. eapply Rle_trans; [apply Rabs_triang|]. rewrite !Rabs_mult.
  pose proof (Rabs_pos A) as PA. pose proof (Rabs_pos B) as PB. pose proof (Rabs_pos (a - A)). pose proof (Rabs_pos b). pose proof (Rabs_pos (b - B)).
  pose proof (cross k l K L) as C. pose proof u_pos as U.
  assert (Rabs (a - A) * Rabs b <= k * u * Rabs A * ((1 + l * u) * Rabs B)) by (apply Rmult_le_compat; lra).
  assert (Rabs A * Rabs (b - B) <= Rabs A * (l * u * Rabs B)) by (apply Rmult_le_compat_l; lra).
  assert (PAB : 0 <= Rabs A * Rabs B) by (apply Rmult_le_pos; lra).
  replace (k * u * Rabs A * ((1 + l * u) * Rabs B)) with ((k + k * l * u) * (u * (Rabs A * Rabs B))) in H2 by ring.
  assert ((k + k * l * u) * (u * (Rabs A * Rabs B)) <= (k + 1 / 100) * (u * (Rabs A * Rabs B))).
  { apply Rmult_le_compat_r; [apply Rmult_le_pos; lra | lra]. }
  lra.
Qed.

Lemma rel_div : forall k l a b A B, B <> 0 -> rel k a A -> rel l b B -> 0 <= k <= 20 -> 0 <= l <= 20 ->
  b <> 0 /\ rel (k + l + 1 / 100) (a / b) (A / B).
Proof.
  intros k l a b A B NB HA HB K L. destruct (rel_size l b B L HB) as [SB _]. unfold rel in *.
  pose proof u_pos as U. pose proof (Rabs_pos A) as PA. pose proof (Rabs_pos_lt B NB) as PB.
  assert (LU : 0 <= l * u <= 1 / 100) by (split; [apply Rmult_le_pos; lra | unfold u; lra]).
  assert (Pb : 0 < Rabs b) by (eapply Rlt_le_trans; [|exact SB]; apply Rmult_lt_0_compat; lra).
  assert (Nb : b <> 0) by (intros ->; rewrite Rabs_R0 in Pb; lra). split; [exact Nb|].
  replace (a / b - A / B) with (((a - A) * B + A * (B - b)) * / (b * B)) by (field; split; assumption).
  unfold Rdiv at 2. rewrite !Rabs_mult, !Rabs_inv, Rabs_mult.
  assert (NUM : Rabs ((a - A) * B + A * (B - b)) <= (k + l) * u * (Rabs A * Rabs B)).
  { eapply Rle_trans; [apply Rabs_triang|]. rewrite !Rabs_mult, (Rabs_minus_sym B b).
    assert (Rabs (a - A) * Rabs B <= k * u * Rabs A * Rabs B) by (apply Rmult_le_compat_r; lra).
    assert (Rabs A * Rabs (b - B) <= Rabs A * (l * u * Rabs B)) by (apply Rmult_le_compat_l; lra). lra. }
  apply Rmult_le_reg_r with (Rabs b * Rabs B); [apply Rmult_lt_0_compat; lra|].
  rewrite Rmult_assoc, Rinv_l by (apply Rmult_integral_contrapositive_currified; lra). rewrite Rmult_1_r.
  replace ((k + l + 1 / 100) * u * (Rabs A * / Rabs B) * (Rabs b * Rabs B)) with ((k + l + 1 / 100) * u * Rabs A * Rabs b) by (field; lra).
  eapply Rle_trans; [exact NUM|].
  assert (Q : (k + l + 1 / 100) * u * Rabs A * ((1 - l * u) * Rabs B) <= (k + l + 1 / 100) * u * Rabs A * Rabs b).
  { apply Rmult_le_compat_l; [|exact SB]. apply Rmult_le_pos; [|exact PA]. apply Rmult_le_pos; lra. }
  eapply Rle_trans; [|exact Q].
  replace ((k + l) * u * (Rabs A * Rabs B)) with ((k + l) * (u * (Rabs A * Rabs B))) by ring.
  replace ((k + l + 1 / 100) * u * Rabs A * ((1 - l * u) * Rabs B)) with ((k + l + 1 / 100) * (1 - l * u) * (u * (Rabs A * Rabs B))) by ring.
  apply Rmult_le_compat_r; [apply Rmult_le_pos; [lra|]; apply Rmult_le_pos; lra|].
  assert ((k + l + 1 / 100) * (l * u) <= 41 * (20 * u)) by (apply Rmult_le_compat; try lra; apply Rmult_le_compat_r; lra).
  unfold u in *. lra.
Qed.

Lemma rel_rnd : forall k r a A, rel k a A -> rnd r a -> 0 <= k <= 20 -> rel (k + 1 + 1 / 100) r A.
Proof.
  intros k r a A H R K. destruct (rel_size k a A K H) as [_ S]. unfold rel, rnd in *.
  replace (r - A) with ((r - a) + (a - A)) by ring. eapply Rle_trans; [apply Rabs_triang|].
  pose proof u_pos as U. pose proof (Rabs_pos A).
  assert (u * Rabs a <= u * ((1 + k * u) * Rabs A)) by (apply Rmult_le_compat_l; lra).
  replace (u * ((1 + k * u) * Rabs A)) with ((1 + k * u) * (u * Rabs A)) in H1 by ring.
  assert ((1 + k * u) * (u * Rabs A) <= (1 + 1 / 100) * (u * Rabs A)).
  { apply Rmult_le_compat_r; [apply Rmult_le_pos; lra|]. unfold u. lra. }
  lra.
Qed.

(** * The quadratic form *)
Section Form.
Variables X Y x y sx sy rho : R.
Hypothesis SX : 0 < sx.
Hypothesis SY : 0 < sy.
Hypothesis RHO : Rabs rho <= 1023 / 1024.
Hypothesis HX : rnd x X.
Hypothesis HY : rnd y Y.
Variables xx ssx a yy ssy b s t z : R.
Hypothesis Hxx : rnd xx (x * x).
Hypothesis Hssx : rnd ssx (sx * sx).
Hypothesis Ha : rnd a (xx / ssx).
Hypothesis Hyy : rnd yy (y * y).
Hypothesis Hssy : rnd ssy (sy * sy).
Hypothesis Hb : rnd b (yy / ssy).
Hypothesis Hs : rnd s (a + b).

Definition al : R := X / sx.
Definition be : R := Y / sy.
Definition q : R := al * al + be * be.
Definition form : R := q - 2 * rho * al * be.

Hypothesis HT : Rabs (t - 2 * rho * al * be) <= 71 / 10 * u * q.
Hypothesis Hz : rnd z (s - t).

Lemma rnd_rel : forall r A, rnd r A -> rel 1 r A.
Proof. intros r A H. unfold rel, rnd in *. rewrite Rmult_1_l. exact H. Qed.

Lemma square_err : forall v V s0 vv ss0 c, 0 < s0 -> rnd v V -> rnd vv (v * v) -> rnd ss0 (s0 * s0) -> rnd c (vv / ss0) ->
  rel 6 c ((V / s0) * (V / s0)).
Proof.
  intros v V s0 vv ss0 c S V0 V1 V2 V3. pose proof (rnd_rel _ _ V0) as A.
  pose proof (rel_mul 1 1 _ _ _ _ A A ltac:(lra) ltac:(lra)) as B. pose proof (rel_rnd _ _ _ _ B V1 ltac:(lra)) as C.
  pose proof (rel_rnd 0 _ _ _ (rel_refl (s0 * s0)) V2 ltac:(lra)) as D.
  assert (NZ : s0 * s0 <> 0) by (apply Rgt_not_eq, Rmult_lt_0_compat; assumption).
  destruct (rel_div _ _ _ _ _ _ NZ C D ltac:(lra) ltac:(lra)) as [_ E]. pose proof (rel_rnd _ _ _ _ E V3 ltac:(lra)) as F.
  replace (V / s0 * (V / s0)) with (V * V / (s0 * s0)) by (field; lra). eapply rel_weaken; [|exact F]. lra.
Qed.

Lemma a_err : rel 6 a (al * al). Proof. exact (square_err x X sx xx ssx a SX HX Hxx Hssx Ha). Qed.
Lemma b_err : rel 6 b (be * be). Proof. exact (square_err y Y sy yy ssy b SY HY Hyy Hssy Hb). Qed.

Lemma sq_pos : forall v : R, 0 <= v * v.
Proof. intros v. nra. Qed.

Lemma q_pos : 0 <= q.
Proof. unfold q. pose proof (sq_pos al). pose proof (sq_pos be). lra. Qed.

Lemma s_err : rel (71 / 10) s q.
Proof.
  assert (R : rel 6 (a + b) q).
  { pose proof a_err as A. pose proof b_err as B. unfold rel in *. unfold q. pose proof (sq_pos al). pose proof (sq_pos be).
    rewrite (Rabs_pos_eq (al * al + be * be)) by lra. rewrite (Rabs_pos_eq (al * al)) in A by lra. rewrite (Rabs_pos_eq (be * be)) in B by lra.
    replace (a + b - (al * al + be * be)) with ((a - al * al) + (b - be * be)) by ring. eapply Rle_trans; [apply Rabs_triang|]. lra. }
  eapply rel_weaken; [|exact (rel_rnd 6 s _ _ R Hs ltac:(lra))]. lra.
Qed.

Lemma t_le : Rabs (2 * rho * al * be) <= Rabs rho * q.
Proof.
  replace (2 * rho * al * be) with (rho * (2 * al * be)) by ring. rewrite Rabs_mult. apply Rmult_le_compat_l; [apply Rabs_pos|].
  apply Rabs_le. unfold q. pose proof (sq_pos (al + be)). pose proof (sq_pos (al - be)). lra.
Qed.

Lemma form_range : q / 1024 <= form <= 2 * q.
Proof.
  pose proof t_le as T. pose proof q_pos as Q. assert (T' : Rabs rho * q <= 1023 / 1024 * q) by (apply Rmult_le_compat_r; assumption).
  apply Rabs_le_inv in T. unfold form. lra.
Qed.

Lemma z_err : Rabs (z - form) <= 163 / 10 * u * q.
Proof.
  pose proof s_err as S. pose proof q_pos as Q. pose proof u_pos as U. unfold rel in S.
  rewrite (Rabs_pos_eq q) in S by exact Q.
  assert (D : Rabs (s - t - form) <= 142 / 10 * u * q).
  { unfold form. replace (s - t - (q - 2 * rho * al * be)) with ((s - q) - (t - 2 * rho * al * be)) by ring.
    eapply Rle_trans; [apply Rabs_triang|]. rewrite Rabs_Ropp. lra. }
  unfold rnd in Hz. destruct form_range as [F0 F1].
  assert (SZ : Rabs (s - t) <= 21 / 10 * q).
  { replace (s - t) with ((s - t - form) + form) by ring. eapply Rle_trans; [apply Rabs_triang|]. rewrite (Rabs_pos_eq form) by lra.
    assert (142 / 10 * u * q <= 1 / 10 * q) by (apply Rmult_le_compat_r; [exact Q | unfold u; lra]). lra. }
  replace (z - form) with ((z - (s - t)) + (s - t - form)) by ring. eapply Rle_trans; [apply Rabs_triang|].
  assert (u * Rabs (s - t) <= u * (21 / 10 * q)) by (apply Rmult_le_compat_l; lra). lra.
Qed.

Lemma z_range : q / 2048 <= z <= 21 / 10 * q.
Proof.
  pose proof z_err as Z. pose proof q_pos as Q. destruct form_range as [F0 F1]. apply Rabs_le_inv in Z.
  assert (163 / 10 * u * q <= 1 / 2048 * q) by (apply Rmult_le_compat_r; [exact Q | unfold u; lra]). lra.
Qed.

Variables rr w e : R.
Hypothesis Hrr : Rabs (rr - rho * rho) <= u * (rho * rho) + u / 1000.
Hypothesis Hw : rnd w (1 - rr).
Hypothesis He : rnd e (- z / (2 * w)).

Definition om : R := 1 - rho * rho.

Lemma om_range : 1 / 1024 <= om <= 1.
Proof.
  unfold om. pose proof (sq_pos rho). assert (rho * rho <= 1023 / 1024 * 1).
  { rewrite <- (Rabs_pos_eq (rho * rho)) by assumption. rewrite Rabs_mult. pose proof (Rabs_pos rho). apply Rmult_le_compat; lra. }
  lra.
Qed.

Lemma w_err : Rabs (w - om) <= 101 / 100 * u.
Proof.
  pose proof om_range as O. unfold rnd in *. pose proof u_pos as U. unfold om in *. pose proof (sq_pos rho) as P.
  assert (A : Rabs (1 - rr) <= 1 - rho * rho + (u * (rho * rho) + u / 1000)).
  { replace (1 - rr) with ((1 - rho * rho) + - (rr - rho * rho)) by ring. eapply Rle_trans; [apply Rabs_triang|]. rewrite Rabs_Ropp.
    rewrite (Rabs_pos_eq (1 - rho * rho)) by lra. lra. }
  replace (w - (1 - rho * rho)) with ((w - (1 - rr)) + - (rr - rho * rho)) by ring. eapply Rle_trans; [apply Rabs_triang|]. rewrite Rabs_Ropp.
  assert (u * Rabs (1 - rr) <= u * (1 - rho * rho + (u * (rho * rho) + u / 1000))) by (apply Rmult_le_compat_l; lra).
  assert (u * (u * (rho * rho) + u / 1000) <= u * (1 / 1000)) by (apply Rmult_le_compat_l; [lra|]; unfold u; lra). lra.
Qed.

Lemma w_range : 999 / 1000 * om <= w.
Proof. pose proof w_err as W. pose proof om_range. apply Rabs_le_inv in W. unfold u in W. lra. Qed.

Lemma e_nonpos : - z / (2 * w) <= 0.
Proof.
  destruct z_range as [Z _]. pose proof q_pos. pose proof w_range. pose proof om_range.
  assert (0 <= z * / (2 * w)) by (apply Rmult_le_pos; [lra | apply Rlt_le, Rinv_0_lt_compat; lra]).
  unfold Rdiv. lra.
Qed.

Lemma e_err : Rabs (e - - (form / om) / 2) <= 11 * u * (q / (om * om)).
Proof.
  pose proof om_range as O. pose proof w_range as W. pose proof w_err as WE. pose proof z_err as ZE. pose proof z_range as ZR.
  pose proof form_range as FR. pose proof q_pos as Q. pose proof u_pos as U.
  set (i := / om). set (j := / w).
  assert (I1 : 1 <= i <= 1024) by (unfold i; split; [rewrite <- Rinv_1; apply Rinv_le_contravar; lra | replace 1024 with (/ (1 / 1024)) by lra; apply Rinv_le_contravar; lra]).
  assert (J0 : 0 < j) by (apply Rinv_0_lt_compat; lra).
  assert (J1 : j <= 1002 / 1000 * i).
  { unfold j, i. apply Rle_trans with (/ (999 / 1000 * om)); [apply Rinv_le_contravar; lra|].
    rewrite Rinv_mult by lra. apply Rmult_le_compat_r; [apply Rlt_le, Rinv_0_lt_compat; lra | lra]. }
  assert (QI : 0 <= q * i) by (apply Rmult_le_pos; lra).
  assert (QII : q * i <= q * i * i) by (rewrite <- (Rmult_1_r (q * i)) at 1; apply Rmult_le_compat_l; lra).
  (* the exact quotient of the computed numbers *)
  assert (D1 : Rabs (- z / (2 * w) - - (form / om) / 2) <= (8168 / 1000 * u) * (q * i) + (1015 / 1000 * u) * (q * i * i)).
  { replace (- z / (2 * w) - - (form / om) / 2) with (- ((z - form) * (j / 2)) + form * ((w - om) * (i * j / 2)))
      by (unfold i, j; field; lra).
    eapply Rle_trans; [apply Rabs_triang|]. rewrite Rabs_Ropp, !Rabs_mult.
    assert (A1 : Rabs (j / 2) <= 501 / 1000 * i) by (rewrite Rabs_pos_eq by lra; lra).
    assert (IJ0 : 0 <= i * j / 2) by (apply Rmult_le_pos; [apply Rmult_le_pos; lra | lra]).
    assert (A2 : Rabs (i * j / 2) <= 501 / 1000 * (i * i)).
    { rewrite Rabs_pos_eq by exact IJ0. assert (i * j <= i * (1002 / 1000 * i)) by (apply Rmult_le_compat_l; lra). lra. }
    assert (B1 : Rabs (z - form) * Rabs (j / 2) <= (163 / 10 * u * q) * (501 / 1000 * i)) by (apply Rmult_le_compat; try apply Rabs_pos; assumption).
    assert (B2 : Rabs (w - om) * Rabs (i * j / 2) <= (101 / 100 * u) * (501 / 1000 * (i * i))) by (apply Rmult_le_compat; try apply Rabs_pos; assumption).
    assert (B3 : Rabs form * (Rabs (w - om) * Rabs (i * j / 2)) <= (2 * q) * ((101 / 100 * u) * (501 / 1000 * (i * i)))).
    { apply Rmult_le_compat; [apply Rabs_pos | apply Rmult_le_pos; apply Rabs_pos | rewrite Rabs_pos_eq by lra; lra | exact B2]. }
    assert (UQI : 0 <= u * (q * i)) by (apply Rmult_le_pos; lra). assert (UQII : 0 <= u * (q * i * i)) by (apply Rmult_le_pos; lra). lra. }
  assert (D2 : Rabs (- z / (2 * w)) <= 1053 / 1000 * (q * i)).
  { replace (- z / (2 * w)) with (- (z * (j / 2))) by (unfold j; field; lra). rewrite Rabs_Ropp, Rabs_mult, !Rabs_pos_eq by lra.
    assert (z * (j / 2) <= (21 / 10 * q) * (501 / 1000 * i)) by (apply Rmult_le_compat; lra). lra. }
  unfold rnd in He.
  replace (e - - (form / om) / 2) with ((e - - z / (2 * w)) + (- z / (2 * w) - - (form / om) / 2)) by ring.
  eapply Rle_trans; [apply Rabs_triang|].
  assert (u * Rabs (- z / (2 * w)) <= u * (1053 / 1000 * (q * i))) by (apply Rmult_le_compat_l; lra).
  replace (q / (om * om)) with (q * i * i) by (unfold i; field; lra).
  assert (u * (q * i) <= u * (q * i * i)) by (apply Rmult_le_compat_l; lra).
  assert (0 <= u * (q * i)) by (apply Rmult_le_pos; lra). lra.
Qed.
End Form.

(** The mixed term: either every step is one rounding, or it hardly matters. *)
Section Mixed.
Variables X Y x y sx sy rho t1 t2 ss t : R.
Hypothesis SX : 0 < sx.
Hypothesis SY : 0 < sy.
Hypothesis HX : rnd x X.
Hypothesis HY : rnd y Y.
Hypothesis Hss : rnd ss (sx * sy).

Lemma mixed_le : Rabs (X / sx * (Y / sy)) <= q X Y sx sy / 2.
Proof. apply Rabs_le. unfold q, al, be. pose proof (sq_pos (X / sx + Y / sy)). pose proof (sq_pos (X / sx - Y / sy)). lra. Qed.

Lemma mixed_steps : Rabs rho <= 1 -> rnd t1 (2 * rho * x) -> rnd t2 (t1 * y) -> rnd t (t2 / ss) ->
  Rabs (t - 2 * rho * al X sx * be Y sy) <= 71 / 10 * u * q X Y sx sy.
Proof.
  intros RHO Ht1 Ht2 Ht.
  pose proof (rel_mul 0 1 _ _ _ _ (rel_refl (2 * rho)) (rnd_rel _ _ HX) ltac:(lra) ltac:(lra)) as A.
  pose proof (rel_rnd _ _ _ _ A Ht1 ltac:(lra)) as B.
  pose proof (rel_mul _ 1 _ _ _ _ B (rnd_rel _ _ HY) ltac:(lra) ltac:(lra)) as C.
  pose proof (rel_rnd _ _ _ _ C Ht2 ltac:(lra)) as D.
  pose proof (rel_rnd 0 _ _ _ (rel_refl (sx * sy)) Hss ltac:(lra)) as E.
  assert (NZ : sx * sy <> 0) by (apply Rgt_not_eq, Rmult_lt_0_compat; assumption).
  destruct (rel_div _ _ _ _ _ _ NZ D E ltac:(lra) ltac:(lra)) as [_ F]. pose proof (rel_rnd _ _ _ _ F Ht ltac:(lra)) as G.
  apply (rel_weaken _ (71 / 10)) in G; [|lra]. unfold rel in G.
  replace (2 * rho * X * Y / (sx * sy)) with (2 * rho * al X sx * be Y sy) in G by (unfold al, be; field; split; lra).
  eapply Rle_trans; [exact G|]. apply Rmult_le_compat_l; [pose proof u_pos; lra|].
  eapply Rle_trans; [apply t_le|]. pose proof (q_pos X Y sx sy). rewrite <- (Rmult_1_l (q X Y sx sy)) at 2. apply Rmult_le_compat_r; assumption.
Qed.

Lemma mixed_tiny : Rabs rho <= u / 100 -> Rabs t <= u * (Rabs (x * y) / ss) -> Rabs (t - 2 * rho * al X sx * be Y sy) <= 71 / 10 * u * q X Y sx sy.
Proof.
  intros RHO Ht. pose proof u_pos as U. pose proof (q_pos X Y sx sy) as Q. pose proof mixed_le as ML.
  assert (NZ : sx * sy <> 0) by (apply Rgt_not_eq, Rmult_lt_0_compat; assumption).
  pose proof (rel_mul 1 1 _ _ _ _ (rnd_rel _ _ HX) (rnd_rel _ _ HY) ltac:(lra) ltac:(lra)) as A.
  destruct (rel_div _ 1 _ _ _ _ NZ A (rnd_rel _ _ Hss) ltac:(lra) ltac:(lra)) as [_ B]. apply rel_size in B; [|lra]. destruct B as [_ B].
  replace (X * Y / (sx * sy)) with (X / sx * (Y / sy)) in B by (field; split; lra).
  assert (SS : 0 < ss) by (unfold rnd in Hss; assert (0 < sx * sy) by (apply Rmult_lt_0_compat; assumption); rewrite (Rabs_pos_eq (sx * sy)) in Hss by lra; apply Rabs_le_inv in Hss; unfold u in Hss; lra).
  assert (B' : Rabs (x * y) / ss <= 2 * (q X Y sx sy / 2)).
  { replace (Rabs (x * y) / ss) with (Rabs (x * y / ss)) by (unfold Rdiv; rewrite (Rabs_mult (x * y)), (Rabs_pos_eq (/ ss)); [reflexivity | apply Rlt_le, Rinv_0_lt_compat; exact SS]).
    eapply Rle_trans; [exact B|]. apply Rmult_le_compat; [unfold u; lra | apply Rabs_pos | unfold u; lra | exact ML]. }
  assert (T1 : Rabs t <= u * q X Y sx sy) by (eapply Rle_trans; [exact Ht|]; apply Rmult_le_compat_l; lra).
  assert (T2 : Rabs (2 * rho * al X sx * be Y sy) <= u * q X Y sx sy).
  { eapply Rle_trans; [apply t_le|]. apply Rmult_le_compat_r; lra. }
  unfold Rminus. eapply Rle_trans; [apply Rabs_triang|]. rewrite Rabs_Ropp. assert (0 <= u * q X Y sx sy) by (apply Rmult_le_pos; lra). lra.
Qed.
End Mixed.

(** The exponential does not stretch on numbers that are not positive. *)
Lemma exp_contract : forall a b, a <= 0 -> b <= 0 -> Rabs (exp a - exp b) <= Rabs (a - b).
Proof.
  assert (M : forall a b, b <= a -> a <= 0 -> 0 <= exp a - exp b <= a - b).
  { intros a b L A. pose proof (exp_pos a) as PA. assert (EA : exp a <= 1).
    { destruct (Rle_lt_or_eq_dec a 0 A) as [H| ->]; [|rewrite exp_0; lra]. apply exp_increasing in H. rewrite exp_0 in H. lra. }
    split.
    - destruct (Rle_lt_or_eq_dec b a L) as [H| ->]; [apply exp_increasing in H; lra | lra].
    - replace b with (a + (b - a)) by ring. rewrite exp_plus.
      assert (1 + (b - a) <= exp (b - a)).
      { destruct (Req_dec (b - a) 0) as [E|E]; [rewrite E, exp_0; lra | apply Rlt_le, exp_ineq1; exact E]. }
      assert (exp a * (1 + (b - a)) <= exp a * exp (b - a)) by (apply Rmult_le_compat_l; lra).
      assert (exp a * (a - b) <= 1 * (a - b)) by (apply Rmult_le_compat_r; lra). lra. }
  intros a b A B. destruct (Rle_or_lt b a) as [L|L].
  - destruct (M a b L A). rewrite (Rabs_pos_eq (exp a - exp b)), (Rabs_pos_eq (a - b)) by lra. lra.
  - destruct (M b a (Rlt_le _ _ L) B). rewrite (Rabs_left1 (exp a - exp b)), (Rabs_left1 (a - b)) by lra. lra.
Qed.
