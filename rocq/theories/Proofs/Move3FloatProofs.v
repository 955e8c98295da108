(** Moving three-dimensional particles in binary32 (C132). *)
From Coq Require Import List ZArith QArith Qround Qreals Qabs Bool Reals Lia Lqa Lra Psatz.
From Flocq Require Import Core Relative Sterbenz IEEE754.BinarySingleNaN.
From Verif Require Import Prelude Model.Interp Model.Geometry Model.Render Model.InterpFloat Model.TriFloat Model.Move3Float.
From Verif Require Import Spec.InterpSpec Spec.InterpFloatSpec Spec.TriFloatSpec Spec.MoveFloatSpec Spec.Move3FloatSpec.
From Verif Require Import Proofs.InterpProofs Proofs.FloatProofs Proofs.RoundProofs Proofs.InterpFloatProofs Proofs.InterpBinary Proofs.TriFloatProofs.
Local Open Scope R_scope.

Lemma within_corners : forall M v x y z, corners v x y z (within M) -> corners v x y z (fun p => finite p /\ Rabs (B2R p) <= M).
Proof.
  intros M v x y z H d r c D R C. destruct (H d r c D R C) as [F B]. split; [exact F|].
  rewrite <- (value_R _ F). exact B.
Qed.

(** One coordinate: [fadd x (fmul (fmul t res) dt)] with [t] close to [T]. *)
Lemma one_coordinate : forall t T M x res dt, finite t -> Rabs (B2R t - T) <= bpow radix2 (-17) * M + bpow radix2 (-145) -> Rabs T <= M ->
  0 <= M <= bpow radix2 20 -> within (bpow radix2 24) x -> within (bpow radix2 20) res -> within (bpow radix2 20) dt ->
  finite (fadd x (fmul (fmul t res) dt)) /\
  Rabs (real (fadd x (fmul (fmul t res) dt)) - (real x + T * real res * real dt)) <= drift3 M x res dt.
Proof.
  intros t T M x res dt FT ET BT [M0 M1] [FX BX] [FR BR] [FD BD].
  pose proof (finite_rep x FX) as RX. pose proof (finite_rep res FR) as RR. pose proof (finite_rep dt FD) as RD.
  unfold real in BX, BR, BD. assert (RT : rep t (B2R t)) by (split; [exact FT | reflexivity]).
  set (a := B2R t) in *. set (X := Q2R (value x)) in *. set (R0 := Q2R (value res)) in *. set (D := Q2R (value dt)) in *.
  assert (U : u32 = bpow radix2 (-24)) by reflexivity. assert (E : e32 = bpow radix2 (-150)) by reflexivity.
  assert (P20 : bpow radix2 20 = 1048576) by (cbn; lra). assert (P24 : bpow radix2 24 = 16777216) by (cbn; lra).
  assert (N24 : bpow radix2 (-24) = / 16777216) by (cbn; lra). assert (N17 : bpow radix2 (-17) = / 131072) by (cbn; lra).
  assert (N16 : bpow radix2 (-16) = / 65536) by (cbn; lra).
  set (e := bpow radix2 (-145)) in *. assert (E32e : e32 <= e) by (rewrite E; apply bpow_le; lia).
  assert (E0 : 0 <= e32) by apply e32_small.
  assert (EP : e * bpow radix2 40 = bpow radix2 (-105)) by (unfold e; rewrite bpow_shift; reflexivity).
  assert (P40 : bpow radix2 40 = 1048576 * 1048576) by (cbn; lra).
  assert (T100 : bpow radix2 (-100) = 32 * bpow radix2 (-105)) by (change 32 with (bpow radix2 5); rewrite bpow_shift; reflexivity).
  assert (ES : e <= / 1073741824) by (unfold e; change (/ 1073741824) with (bpow radix2 (-30)); apply bpow_le; lia).
  assert (EE : 0 <= e) by (unfold e; apply bpow_ge_0).
  rewrite P20 in *. rewrite P24 in *. rewrite N17 in *.
  set (r := Rabs R0) in *. set (d := Rabs D) in *. assert (r0 : 0 <= r) by apply Rabs_pos. assert (d0 : 0 <= d) by apply Rabs_pos.
  (* first product *)
  assert (A : Rabs a <= 2 * M + e).
  { replace a with (T + (a - T)) by ring. eapply Rle_trans; [apply Rabs_triang|]. lra. }
  pose proof (proj1 rn32_rounds (a * R0)) as D1.
  assert (S1 : Rabs (a * R0) <= (2 * M + e) * r) by (rewrite Rabs_mult; apply Rmult_le_compat_r; assumption).
  assert (ER : e * r <= e * 1048576) by (apply Rmult_le_compat_l; assumption).
  assert (MR : M * r <= 1048576 * 1048576) by (apply Rmult_le_compat; lra).
  assert (ER0 : 0 <= e * r) by (apply Rmult_le_pos; lra).
  assert (MR0 : 0 <= M * r) by (apply Rmult_le_pos; lra).
  assert (X1 : Rabs (rn32 (a * R0) - T * R0) <= / 131072 * (M * r) + e * r + (/ 8388608 * (M * r) + / 16777216 * (e * r) + e32)).
  { replace (rn32 (a * R0) - T * R0) with ((a - T) * R0 + (rn32 (a * R0) - a * R0)) by ring.
    eapply Rle_trans; [apply Rabs_triang|]. apply Rplus_le_compat.
    - rewrite Rabs_mult. fold r. apply Rle_trans with ((/ 131072 * M + e) * r); [apply Rmult_le_compat_r; assumption | lra].
    - eapply Rle_trans; [exact D1|]. rewrite U, N24.
      assert (/ 16777216 * Rabs (a * R0) <= / 16777216 * ((2 * M + e) * r)) by (apply Rmult_le_compat_l; lra). lra. }
  assert (SP : Rabs (T * R0) <= M * r) by (rewrite Rabs_mult; apply Rmult_le_compat_r; assumption).
  assert (BIG : forall q, Rabs q <= bpow radix2 100 -> fits q).
  { intros q H. unfold fits. eapply Rle_lt_trans; [exact H|]. apply bpow_lt. lia. }
  assert (P100 : 1048576 * 1048576 * 1048576 * 1048576 * 1048576 = bpow radix2 100) by (cbn; lra).
  assert (Y1 : Rabs (rn32 (a * R0)) <= M * r + (/ 131072 * (M * r) + e * r + (/ 8388608 * (M * r) + / 16777216 * (e * r) + e32))).
  { replace (rn32 (a * R0)) with (T * R0 + (rn32 (a * R0) - T * R0)) by ring. eapply Rle_trans; [apply Rabs_triang|]. lra. }
  assert (R1 : rep (fmul t res) (rn32 (a * R0))) by (apply rep_mul; [exact RT | exact RR | apply BIG; rewrite <- P100; lra]).
  set (b := rn32 (a * R0)) in *.
  (* second product *)
  pose proof (proj1 rn32_rounds (b * D)) as D2.
  assert (S2 : Rabs (b * D) <= (2 * (M * r) + 2 * (e * r) + e) * d).
  { rewrite Rabs_mult. fold d. apply Rmult_le_compat_r; [exact d0|]. lra. }
  assert (MRD0 : 0 <= M * r * d) by (apply Rmult_le_pos; lra).
  assert (ERD : 0 <= e * r * d <= bpow radix2 (-105)).
  { split; [apply Rmult_le_pos; lra|]. rewrite <- EP, P40. replace (e * (1048576 * 1048576)) with (e * 1048576 * 1048576) by ring.
    apply Rmult_le_compat; lra. }
  assert (ED : 0 <= e * d <= bpow radix2 (-105)).
  { split; [apply Rmult_le_pos; lra|]. rewrite <- EP, P40. apply Rmult_le_compat_l; lra. }
  assert (B105 : e <= bpow radix2 (-105)) by (unfold e; apply bpow_le; lia).
  assert (S105 : bpow radix2 (-105) <= 1) by (change 1 with (bpow radix2 0); apply bpow_le; lia).
  assert (MRD : M * r * d <= 1048576 * 1048576 * 1048576) by (apply Rmult_le_compat; lra).
  assert (X2 : Rabs (rn32 (b * D) - T * R0 * D) <= / 131072 * (M * r * d) + / 2097152 * (M * r * d) + 8 * bpow radix2 (-105)).
  { replace (rn32 (b * D) - T * R0 * D) with ((b - T * R0) * D + (rn32 (b * D) - b * D)) by ring.
    eapply Rle_trans; [apply Rabs_triang|]. rewrite Rabs_mult. fold d.
    assert (Rabs (b - T * R0) * d <= (/ 131072 * (M * r) + / 8388608 * (M * r) + 2 * (e * r) + e) * d) by (apply Rmult_le_compat_r; lra).
    assert (/ 16777216 * Rabs (b * D) <= / 16777216 * ((2 * (M * r) + 2 * (e * r) + e) * d)) by (apply Rmult_le_compat_l; lra).
    rewrite U, N24 in D2. lra. }
  assert (SQ : Rabs (T * R0 * D) <= M * r * d) by (rewrite Rabs_mult; apply Rmult_le_compat_r; assumption).
  assert (Y2 : Rabs (rn32 (b * D)) <= 2 * (M * r * d) + 8).
  { replace (rn32 (b * D)) with (T * R0 * D + (rn32 (b * D) - T * R0 * D)) by ring. eapply Rle_trans; [apply Rabs_triang|]. lra. }
  assert (R2 : rep (fmul (fmul t res) dt) (rn32 (b * D))) by (apply rep_mul; [exact R1 | exact RD | apply BIG; rewrite <- P100; lra]).
  set (c := rn32 (b * D)) in *.
  (* sum *)
  pose proof (proj1 rn32_rounds (X + c)) as D3.
  assert (S3 : Rabs (X + c) <= Rabs X + (M * r * d + (/ 131072 * (M * r * d) + / 2097152 * (M * r * d) + 8 * bpow radix2 (-105)))).
  { eapply Rle_trans; [apply Rabs_triang|]. apply Rplus_le_compat_l.
    replace c with (T * R0 * D + (c - T * R0 * D)) by ring. eapply Rle_trans; [apply Rabs_triang|]. lra. }
  assert (UX : u32 * Rabs (X + c) <= / 16777216 * Rabs X + / 8388608 * (M * r * d) + bpow radix2 (-105)).
  { rewrite U, N24. assert (/ 16777216 * Rabs (X + c) <= / 16777216 * (Rabs X + (M * r * d + (/ 131072 * (M * r * d) + / 2097152 * (M * r * d) + 8 * bpow radix2 (-105)))))
      by (apply Rmult_le_compat_l; lra). lra. }
  assert (R3 : rep (fadd x (fmul (fmul t res) dt)) (rn32 (X + c))).
  { apply rep_add; [exact RX | exact R2 |]. apply BIG. rewrite <- P100.
    replace (rn32 (X + c)) with ((X + c) + (rn32 (X + c) - (X + c))) by ring. eapply Rle_trans; [apply Rabs_triang|]. lra. }
  destruct R3 as [F3 V3]. split; [exact F3|]. unfold real. rewrite (value_R _ F3), V3. fold X. fold R0. fold D.
  unfold drift3, real. fold X. fold R0. fold D. fold r. fold d. rewrite N24, N16, T100.
  replace (rn32 (X + c) - (X + T * R0 * D)) with ((c - T * R0 * D) + (rn32 (X + c) - (X + c))) by ring.
  eapply Rle_trans; [apply Rabs_triang|]. lra.
Qed.

Lemma one_moved : forall v x y z c res dt M, cell_within M v x y z -> M <= bpow radix2 20 -> finite x -> finite y -> finite z ->
  within (bpow radix2 24) c -> within (bpow radix2 20) res -> within (bpow radix2 20) dt ->
  finite (fadd c (fmul (fmul (trilinear32 v x y z) res) dt)) /\
  Rabs (real (fadd c (fmul (fmul (trilinear32 v x y z) res) dt)) - goes3 v x y z c res dt) <= drift3 M c res dt.
Proof.
  intros v x y z c res dt M [SZ V] BM FX FY FZ WC WR WT. pose proof (within_corners M v x y z V) as CR.
  assert (B126 : M <= bpow radix2 126) by (eapply Rle_trans; [exact BM | apply bpow_le; lia]).
  destruct (tri_error v x y z M SZ FX FY FZ CR B126) as [F E].
  assert (CB : corners v x y z (fun p => finite p /\ - M <= B2R p <= M)).
  { intros d r q D R Q. destruct (CR d r q D R Q) as [G H]. split; [exact G | apply Rabs_le_inv; exact H]. }
  pose proof (tri_between v x y z (- M) M SZ CB) as TB.
  assert (M0 : 0 <= M) by lra.
  apply one_coordinate; try assumption; [apply Rabs_le; lra | split; assumption].
Qed.

(** * Standing still *)
Lemma rn32_0 : rn32 0 = 0.
Proof. apply rn32_exact. apply generic_format_0. Qed.

Lemma fits_0 : fits 0.
Proof. unfold fits. rewrite Rabs_R0. apply bpow_gt_0. Qed.

Lemma mul_zero : forall p w, finite p -> finite w -> B2R p * B2R w = 0 -> rep (fmul p w) 0.
Proof.
  intros p w FP FW E. rewrite <- rn32_0, <- E. apply rep_mul; [split; [exact FP | reflexivity] | split; [exact FW | reflexivity] |].
  rewrite E, rn32_0. exact fits_0.
Qed.

Lemma add_zero : forall p q, rep p 0 -> rep q 0 -> rep (fadd p q) 0.
Proof.
  intros p q P Q. pose proof (rep_add p q 0 0 P Q) as A. rewrite Rplus_0_l, rn32_0 in A. exact (A fits_0).
Qed.

Lemma keep : forall x p, finite x -> rep p 0 -> rep (fadd x p) (B2R x).
Proof.
  intros x p F P. assert (E : rn32 (B2R x + 0) = B2R x).
  { rewrite Rplus_0_r. apply rn32_exact. exact (generic_format_B2R 24 128 x). }
  rewrite <- E. apply rep_add; [split; [exact F | reflexivity] | exact P |]. rewrite E. exact (abs_B2R_lt_emax 24 128 x).
Qed.

Lemma tri_zero : forall v x y z, wsize v -> finite x -> finite y -> finite z ->
  corners v x y z (fun p => finite p /\ B2R p = 0) -> rep (trilinear32 v x y z) 0.
Proof.
  intros v x y z SZ FX FY FZ CR.
  assert (F : finite (trilinear32 v x y z)).
  { apply (tri_error v x y z 0); try assumption; [|apply bpow_ge_0]. intros d r c D R C. destruct (CR d r c D R C) as [F E].
    split; [exact F|]. rewrite E, Rabs_R0. apply Rle_refl. }
  destruct (tri_sum8 v x y z SZ FX FY FZ) as (wa & wb & wc & wd & we & wf & wg & wh & E). cbv zeta in E.
  rewrite E in F |- *. clear E. apply finite_sum8 in F. destruct F as (Fa & Fb & Fc & Fd & Fe & Ff & Fg & Fh).
  destruct SZ as (SD & SH & SW).
  assert (T : forall d r c w, corner (wD v) (value z) d -> corner (wH v) (value y) r -> corner (wW v) (value x) c ->
    finite (fmul (wat v d r c) w) -> rep (fmul (wat v d r c) w) 0).
  { intros d r c w D R C F. destruct (CR d r c D R C) as [FP EP]. apply finite_fmul in F. destruct F as [_ FW].
    apply mul_zero; try assumption. rewrite EP. apply Rmult_0_l. }
  unfold sum8. repeat apply add_zero; apply T; try assumption; apply corner_iff; try lia; auto.
Qed.

Lemma still : forall v x y z c res dt, wsize v -> finite x -> finite y -> finite z -> finite c -> finite res -> finite dt ->
  corners v x y z (fun p => finite p /\ B2R p = 0) \/
  (finite (trilinear32 v x y z) /\ B2R res = 0) \/ (finite (fmul (trilinear32 v x y z) res) /\ B2R dt = 0) ->
  rep (fadd c (fmul (fmul (trilinear32 v x y z) res) dt)) (B2R c).
Proof.
  intros v x y z c res dt SZ FX FY FZ FC FR FD H. apply keep; [exact FC|].
  assert (Z : forall p q, finite q -> rep p 0 -> rep (fmul p q) 0).
  { intros p q Q [P E]. apply mul_zero; try assumption. rewrite E. apply Rmult_0_l. }
  destruct H as [H | [[F E] | [F E]]].
  - apply Z; [exact FD|]. apply Z; [exact FR|]. apply tri_zero; assumption.
  - apply Z; [exact FD|]. apply mul_zero; try assumption. rewrite E. apply Rmult_0_r.
  - apply mul_zero; try assumption. rewrite E. apply Rmult_0_r.
Qed.

(** * Corners that are not finite *)
Lemma one_spoilt : forall v x y z c res dt, wsize v -> finite x -> finite y -> finite z ->
  finite (fadd c (fmul (fmul (trilinear32 v x y z) res) dt)) -> corners v x y z finite.
Proof.
  intros v x y z c res dt SZ FX FY FZ F. apply finite_fadd in F. destruct F as [_ F]. apply finite_fmul in F. destruct F as [F _].
  apply finite_fmul in F. destruct F as [F _]. exact (tri_nan v x y z SZ FX FY FZ F).
Qed.

(** * Direction *)
Lemma finite_mul_value : forall p q, finite (fmul p q) -> B2R (fmul p q) = rn32 (B2R p * B2R q).
Proof.
  intros p q F. pose proof (Bmult_correct 24 128 p32 l32 mode_NE p q) as C.
  change (@Bmult 24 128 p32 l32 mode_NE p q) with (fmul p q) in C.
  destruct (Rlt_bool _ _); [exact (proj1 C)|]. exfalso.
  unfold finite in F. rewrite <- is_finite_SF_B2SF, C in F. unfold binary_overflow in F. cbn in F. discriminate F.
Qed.

Lemma finite_add_value : forall p q, finite (fadd p q) -> B2R (fadd p q) = rn32 (B2R p + B2R q).
Proof.
  intros p q F. destruct (finite_fadd p q F) as [FP FQ]. pose proof (Bplus_correct 24 128 p32 l32 mode_NE p q FP FQ) as C.
  change (@Bplus 24 128 p32 l32 mode_NE p q) with (fadd p q) in C.
  destruct (Rlt_bool _ _); [exact (proj1 C)|]. exfalso.
  unfold finite in F. rewrite <- is_finite_SF_B2SF, (proj1 C) in F. unfold binary_overflow in F. cbn in F. discriminate F.
Qed.

Lemma rn32_ge : forall a t, float32 a -> a <= t -> a <= rn32 t.
Proof. intros a t F H. unfold rn32. apply round_ge_generic; [apply fexp_correct; reflexivity | apply valid_rnd_round_mode | exact F | exact H]. Qed.

Lemma one_forward : forall v x y z c res dt, wsize v -> finite x -> finite y -> finite z ->
  corners v x y z (fun p => finite p /\ 0 <= B2R p <= bpow radix2 126) -> 0 <= B2R res -> 0 <= B2R dt ->
  finite (fadd c (fmul (fmul (trilinear32 v x y z) res) dt)) ->
  B2R c <= B2R (fadd c (fmul (fmul (trilinear32 v x y z) res) dt)).
Proof.
  intros v x y z c res dt SZ FX FY FZ CR R0 D0 F. pose proof (tri_pos v x y z SZ FX FY FZ CR) as T.
  rewrite (finite_add_value _ _ F). destruct (finite_fadd _ _ F) as [FC F1]. destruct (finite_fmul _ _ F1) as [F2 _].
  apply rn32_ge; [exact (generic_format_B2R 24 128 c)|].
  assert (P1 : 0 <= B2R (fmul (trilinear32 v x y z) res)).
  { rewrite (finite_mul_value _ _ F2). apply rn32_ge; [apply generic_format_0 | apply Rmult_le_pos; assumption]. }
  assert (P2 : 0 <= B2R (fmul (fmul (trilinear32 v x y z) res) dt)).
  { rewrite (finite_mul_value _ _ F1). apply rn32_ge; [apply generic_format_0 | apply Rmult_le_pos; assumption]. }
  lra.
Qed.

(** * Speed *)
Lemma goes_bound : forall v x y z c res dt M, cell_within M v x y z ->
  Rabs (goes3 v x y z c res dt - real c) <= M * Rabs (real res) * Rabs (real dt).
Proof.
  intros v x y z c res dt M [SZ V]. pose proof (within_corners M v x y z V) as CR.
  assert (CB : corners v x y z (fun p => finite p /\ - M <= B2R p <= M)).
  { intros d r q D R Q. destruct (CR d r q D R Q) as [G H]. split; [exact G | apply Rabs_le_inv; exact H]. }
  pose proof (tri_between v x y z (- M) M SZ CB) as TB. unfold goes3.
  match goal with |- Rabs (?a + ?b - ?a) <= _ => replace (a + b - a) with b by ring end.
  rewrite !Rabs_mult. apply Rmult_le_compat_r; [apply Rabs_pos|]. apply Rmult_le_compat_r; [apply Rabs_pos|]. apply Rabs_le. exact TB.
Qed.
