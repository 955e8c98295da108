(** Particles moved in binary32. *)
From Coq Require Import List Arith ZArith QArith Qround Qreals Qabs Qminmax Bool Reals Lia Lqa Lra Psatz.
From Flocq Require Import Core Relative Plus_error Mult_error IEEE754.BinarySingleNaN.
From Verif Require Import Prelude Model.Interp Model.Geometry Model.Render Model.InterpFloat Model.HistFloat Model.DrawFloat Model.MoveFloat.
From Verif Require Import Spec.InterpSpec Spec.RenderSpec Spec.InterpFloatSpec Spec.DrawFloatSpec Spec.MoveFloatSpec.
From Verif Require Import Proofs.InterpProofs Proofs.RenderProofs Proofs.FloatProofs Proofs.RoundProofs Proofs.InterpFloatProofs Proofs.InterpBinary.
From Verif Require Import Proofs.DrawFloatProofs Proofs.PlaceFloatProofs Proofs.DrawnPixel Proofs.KernelError Proofs.KernelFloatProofs Proofs.KernelImage.
Local Open Scope R_scope.

(** * On real numbers *)
Lemma move_error : forall x c A s D d t p E e g,
  0 < c -> Rabs (A - c) <= 101 / 100 * u * c -> 0 <= e -> 0 <= E -> 0 <= g ->
  Rabs (s - x * A) <= u * Rabs (x * A) + e -> Rabs (D - d) <= E -> Rabs (t - (s + D)) <= u * Rabs (s + D) ->
  Rabs (p - t / A) <= 201 / 100 * u * Rabs (t / A) + g ->
  Rabs (p - (x + d / c)) <= 5 * u * Rabs x + 5 * u * (Rabs d / c) + 101 / 100 * (E / c) + 4 * (e / c) + g.
Proof.
  intros x c A s D d t p E e g C HA He HE Hg HS HD HT HP. unfold u in *.
  assert (A1 : 0 < A) by (apply Rabs_le_inv in HA; lra).
  assert (IC : 0 < / c) by (apply Rinv_0_lt_compat; exact C). assert (IA : 0 < / A) by (apply Rinv_0_lt_compat; exact A1).
  assert (IAC : / A <= (1 + 102 / 100 * / 16777216) * / c).
  { apply Rmult_le_reg_r with (A * c); [apply Rmult_lt_0_compat; assumption|].
    replace (/ A * (A * c)) with c by (field; lra). replace ((1 + 102 / 100 * / 16777216) * / c * (A * c)) with ((1 + 102 / 100 * / 16777216) * A) by (field; lra).
    apply Rabs_le_inv in HA. lra. }
  assert (IAC' : Rabs (/ A - / c) <= 102 / 100 * / 16777216 * / c).
  { replace (/ A - / c) with ((c - A) * (/ A * / c)) by (field; lra). rewrite Rabs_mult, (Rabs_pos_eq (/ A * / c)) by (apply Rlt_le, Rmult_lt_0_compat; assumption).
    rewrite Rabs_minus_sym. apply Rle_trans with (101 / 100 * / 16777216 * c * (/ A * / c)).
    - apply Rmult_le_compat_r; [apply Rlt_le, Rmult_lt_0_compat; assumption | exact HA].
    - replace (101 / 100 * / 16777216 * c * (/ A * / c)) with (101 / 100 * / 16777216 * / A) by (field; lra). lra. }
  (* everything in pixels *)
  assert (SC : forall v B, Rabs v <= B -> Rabs (v * / A) <= B * / A) by (intros v B H; rewrite Rabs_mult, (Rabs_pos_eq (/ A)) by lra; apply Rmult_le_compat_r; lra).
  apply SC in HS, HD, HT.
  replace ((s - x * A) * / A) with (s * / A - x) in HS by (field; lra).
  assert (XA : Rabs (x * A) * / A = Rabs x) by (rewrite Rabs_mult, (Rabs_pos_eq A) by lra; field; lra).
  rewrite Rmult_plus_distr_r, Rmult_assoc, XA in HS.
  replace ((D - d) * / A) with (D * / A - d * / A) in HD by ring.
  replace ((t - (s + D)) * / A) with (t * / A - (s * / A + D * / A)) in HT by ring.
  assert (SD : Rabs (s + D) * / A <= Rabs (s * / A) + Rabs (D * / A)).
  { rewrite !Rabs_mult, (Rabs_pos_eq (/ A)) by lra. rewrite <- Rmult_plus_distr_r. apply Rmult_le_compat_r; [lra | apply Rabs_triang]. }
  rewrite Rmult_assoc in HT. unfold Rdiv in *. 
  assert (DC : Rabs (d * / A - d * / c) <= 102 / 100 * / 16777216 * (Rabs d * / c)).
  { replace (d * / A - d * / c) with (d * (/ A - / c)) by ring. rewrite Rabs_mult. pose proof (Rabs_pos d). 
    replace (102 / 100 * / 16777216 * (Rabs d * / c)) with (Rabs d * (102 / 100 * / 16777216 * / c)) by (unfold Rdiv; ring). apply Rmult_le_compat_l; assumption. }
  assert (EA : E * / A <= (1 + 102 / 100 * / 16777216) * (E * / c)).
  { replace ((1 + 102 / 100 * / 16777216) * (E * / c)) with (E * ((1 + 102 / 100 * / 16777216) * / c)) by ring. apply Rmult_le_compat_l; assumption. }
  assert (eA : e * / A <= (1 + 102 / 100 * / 16777216) * (e * / c)).
  { replace ((1 + 102 / 100 * / 16777216) * (e * / c)) with (e * ((1 + 102 / 100 * / 16777216) * / c)) by ring. apply Rmult_le_compat_l; assumption. }
  assert (P1 : 0 <= E * / c) by (apply Rmult_le_pos; lra). assert (P2 : 0 <= e * / c) by (apply Rmult_le_pos; lra).
  assert (P3 : 0 <= Rabs d * / c) by (apply Rmult_le_pos; [apply Rabs_pos | lra]). pose proof (Rabs_pos x) as P4.
  assert (DA : Rabs (d * / c) = Rabs d * / c) by (rewrite Rabs_mult, (Rabs_pos_eq (/ c)) by lra; reflexivity).
  assert (S1 : Rabs (s * / A) <= Rabs x * (1 + / 16777216) + e * / A).
  { replace (s * / A) with ((s * / A - x) + x) by ring. eapply Rle_trans; [apply Rabs_triang|]. lra. }
  assert (D1 : Rabs (D * / A) <= E * / A + 102 / 100 * / 16777216 * (Rabs d * / c) + Rabs d * / c).
  { replace (D * / A) with ((D * / A - d * / A) + ((d * / A - d * / c) + d * / c)) by ring. eapply Rle_trans; [apply Rabs_triang|].
    eapply Rle_trans; [apply Rplus_le_compat_l, Rabs_triang|]. rewrite DA. lra. }
  assert (T1 : Rabs (t * / A - (x + d * / c)) <= / 16777216 * (Rabs (s * / A) + Rabs (D * / A)) + (/ 16777216 * Rabs x + e * / A) + (E * / A + 102 / 100 * / 16777216 * (Rabs d * / c))).
  { replace (t * / A - (x + d * / c)) with ((t * / A - (s * / A + D * / A)) + ((s * / A - x) + ((D * / A - d * / A) + (d * / A - d * / c)))) by ring.
    eapply Rle_trans; [apply Rabs_triang|]. eapply Rle_trans; [apply Rplus_le_compat_l, Rabs_triang|].
    eapply Rle_trans; [apply Rplus_le_compat_l, Rplus_le_compat_l, Rabs_triang|]. lra. }
  assert (T2 : Rabs (t * / A) <= Rabs (t * / A - (x + d * / c)) + Rabs x + Rabs d * / c).
  { replace (t * / A) with ((t * / A - (x + d * / c)) + (x + d * / c)) at 1 by ring. eapply Rle_trans; [apply Rabs_triang|].
    pose proof (Rabs_triang x (d * / c)) as TR. rewrite DA in TR. lra. }
  replace (p - (x + d * / c)) with ((p - t * / A) + (t * / A - (x + d * / c))) by ring.
  eapply Rle_trans; [apply Rabs_triang|]. lra.
Qed.

Lemma speed_error : forall U32 U rx dt w D M eU e, 0 <= e -> 0 <= eU -> 0 <= M ->
  Rabs U <= M -> Rabs (U32 - U) <= eU -> Rabs (w - U32 * rx) <= u * Rabs (U32 * rx) + e -> Rabs (D - w * dt) <= u * Rabs (w * dt) + e ->
  Rabs (D - U * rx * dt) <= 201 / 100 * u * (M * Rabs rx * Rabs dt) + 101 / 100 * (eU * Rabs rx * Rabs dt) + e + 2 * (e * Rabs dt).
Proof.
  intros U32 U rx dt w D M eU e He HeU HM HU HE HW HD. unfold u in *.
  set (r := Rabs rx) in *. set (k := Rabs dt) in *. assert (R0 : 0 <= r) by apply Rabs_pos. assert (K0 : 0 <= k) by apply Rabs_pos.
  assert (A1 : Rabs U32 <= M + eU).
  { replace U32 with ((U32 - U) + U) by ring. eapply Rle_trans; [apply Rabs_triang|]. lra. }
  assert (A2 : Rabs (U32 * rx) <= M * r + eU * r) by (rewrite Rabs_mult; fold r; rewrite <- Rmult_plus_distr_r; apply Rmult_le_compat_r; assumption).
  assert (A3 : Rabs w <= (1 + / 16777216) * (M * r + eU * r) + e).
  { replace w with ((w - U32 * rx) + U32 * rx) by ring. eapply Rle_trans; [apply Rabs_triang|]. lra. }
  assert (A4 : Rabs (w * dt) <= ((1 + / 16777216) * (M * r + eU * r) + e) * k) by (rewrite Rabs_mult; fold k; apply Rmult_le_compat_r; assumption).
  assert (A5 : Rabs ((w - U32 * rx) * dt) <= (/ 16777216 * (M * r + eU * r) + e) * k).
  { rewrite Rabs_mult. fold k. apply Rmult_le_compat_r; [exact K0|]. eapply Rle_trans; [exact HW|]. lra. }
  assert (A6 : Rabs ((U32 - U) * (rx * dt)) <= eU * (r * k)).
  { rewrite !Rabs_mult. fold r k. apply Rmult_le_compat_r; [apply Rmult_le_pos; assumption | exact HE]. }
  replace (D - U * rx * dt) with ((D - w * dt) + ((w - U32 * rx) * dt + (U32 - U) * (rx * dt))) by ring.
  eapply Rle_trans; [apply Rabs_triang|]. eapply Rle_trans; [apply Rplus_le_compat_l, Rabs_triang|].
  assert (N1 : 0 <= M * r * k) by (repeat apply Rmult_le_pos; assumption). assert (N2 : 0 <= eU * r * k) by (repeat apply Rmult_le_pos; assumption).
  assert (N3 : 0 <= e * k) by (apply Rmult_le_pos; assumption).
  lra.
Qed.

(** * The scale *)
Lemma rn64_rel : forall t, bpow radix2 (-1000) <= Rabs t ->
  Rabs (round radix2 (FLT_exp (-1074) 53) ZnearestE t - t) <= bpow radix2 (-53) * Rabs t.
Proof.
  intros t A. pose proof (relative_error_N_FLT radix2 (-1074) 53 p64 (fun x => negb (Z.even x)) t) as R.
  assert (E : / 2 * bpow radix2 (- (53) + 1) = bpow radix2 (-53)) by (change (/ 2) with (bpow radix2 (-1)); rewrite <- bpow_plus; reflexivity).
  rewrite E in R. apply R. eapply Rle_trans; [|exact A]. apply bpow_le. lia.
Qed.

Lemma steps_R : forall n b, (1 <= b)%Z -> Q2R (steps n b) = IZR n / IZR b.
Proof.
  intros n b B. unfold steps. rewrite Q2R_div', !Q2R_Z; [reflexivity|]. intros E. unfold Qeq in E. cbn in E. lia.
Qed.

Lemma steps_range : forall n b, (1 <= n < 2 ^ 24)%Z -> (1 <= b < 2 ^ 24)%Z -> bpow radix2 (-24) <= Q2R (steps n b) <= bpow radix2 24.
Proof.
  intros n b N B. rewrite steps_R by lia. assert (N1 : 1 <= IZR n <= IZR (2 ^ 24)) by (split; [apply (IZR_le 1) | apply IZR_le]; lia).
  assert (B1 : 1 <= IZR b <= IZR (2 ^ 24)) by (split; [apply (IZR_le 1) | apply IZR_le]; lia). change (IZR (2 ^ 24)) with (bpow radix2 24) in *.
  assert (IB : bpow radix2 (-24) <= / IZR b <= 1) by (split; [change (-24)%Z with (- (24))%Z; rewrite bpow_opp; apply Rinv_le_contravar; lra | rewrite <- Rinv_1; apply Rinv_le_contravar; lra]).
  pose proof (bpow_gt_0 radix2 (-24)). pose proof (bpow_gt_0 radix2 24). unfold Rdiv. split.
  - rewrite <- (Rmult_1_l (bpow radix2 (-24))). apply Rmult_le_compat; lra.
  - rewrite <- (Rmult_1_r (bpow radix2 24)). apply Rmult_le_compat; lra.
Qed.

Lemma scale_rep : forall n b, (1 <= n < 2 ^ 24)%Z -> (1 <= b < 2 ^ 24)%Z ->
  exists A, rep (scale32 n b) A /\ Rabs (A - Q2R (steps n b)) <= 101 / 100 * u * Q2R (steps n b) /\
    (forall k, Q2R (steps n b) = bpow radix2 k -> A = bpow radix2 k).
Proof.
  intros n b N B. pose proof (steps_range n b N B) as RG. pose proof (steps_R n b ltac:(lia)) as SR. set (c := Q2R (steps n b)) in *.
  destruct (dy_ofZ n ltac:(lia)) as [FN VN]. destruct (dy_ofZ b ltac:(lia)) as [FB VB].
  assert (VN' : B2R (f64_ofZ n) = IZR n) by (rewrite VN; unfold F2R; cbn [Fnum Fexp Z.opp bpow]; ring).
  assert (VB' : B2R (f64_ofZ b) = IZR b) by (rewrite VB; unfold F2R; cbn [Fnum Fexp Z.opp bpow]; ring).
  assert (NZ : B2R (f64_ofZ b) <> 0) by (rewrite VB'; apply IZR_neq; lia).
  pose proof (Bdiv_correct 53 1024 p64 l64 mode_NE (f64_ofZ n) (f64_ofZ b) NZ) as C. rewrite VN', VB', <- SR in C.
  set (t := round radix2 (SpecFloat.fexp 53 1024) (round_mode mode_NE) c) in *.
  pose proof (bpow_gt_0 radix2 (-24)) as P24. assert (CP : 0 < c) by lra.
  assert (T : Rabs (t - c) <= bpow radix2 (-53) * c).
  { pose proof (rn64_rel c) as X. change (round radix2 (FLT_exp (-1074) 53) ZnearestE c) with t in X. rewrite (Rabs_pos_eq c) in X by lra. apply X.
    eapply Rle_trans; [|apply RG]. apply bpow_le. lia. }
  assert (B53 : bpow radix2 (-53) <= / 1000 * u) by (rewrite <- u_u32; unfold u32; replace (bpow radix2 (-53)) with (bpow radix2 (-29) * bpow radix2 (-24)) by (rewrite <- bpow_plus; reflexivity);
    apply Rmult_le_compat_r; [apply bpow_ge_0|]; apply Rle_trans with (bpow radix2 (-10)); [apply bpow_le; lia | cbn [bpow]; change (Z.pow_pos radix2 10) with 1024%Z; lra]).
  assert (T' : Rabs (t - c) <= / 1000 * u * c) by (eapply Rle_trans; [exact T|]; apply Rmult_le_compat_r; lra).
  pose proof u_pos as UP. assert (US : u <= / 1000000) by (unfold u; lra).
  assert (UC : / 1000 * u * c <= / 1000 * c) by (apply Rmult_le_compat_r; lra).
  assert (TR : / 2 * c <= t <= 2 * c) by (apply Rabs_le_inv in T'; lra).
  assert (NT : nzb (-25) 25 t).
  { split; rewrite Rabs_pos_eq by lra; [replace (bpow radix2 (-25)) with (/ 2 * bpow radix2 (-24)) by (change (/ 2) with (bpow radix2 (-1)); rewrite <- bpow_plus; reflexivity) |
      replace (bpow radix2 25) with (2 * bpow radix2 24) by (change 2 with (bpow radix2 1); rewrite <- bpow_plus; reflexivity)]; lra. }
  rewrite Rlt_bool_true in C; [|destruct NT as [_ NT]; eapply Rle_lt_trans; [exact NT|]; apply bpow_lt; lia].
  destruct C as (C1 & C2 & _). rewrite FN in C2. exists (rn32 t).
  assert (NR : nzb (-25) 25 (rn32 t)) by (apply nzb_rn; [lia | lia | exact NT]).
  split; [|split].
  - unfold scale32. rewrite <- C1. apply to_f32_rep; [exact C2|]. rewrite C1. apply (sz_fits (-25) 25); [lia | right; exact NR].
  - pose proof (sz_rnd (-25) 25 t ltac:(lia) (or_intror NT)) as X. unfold rnd in X. rewrite (Rabs_pos_eq t) in X by lra.
    replace (rn32 t - c) with ((rn32 t - t) + (t - c)) by ring. eapply Rle_trans; [apply Rabs_triang|].
    assert (UT : u * t <= u * c + u * (/ 1000 * u * c)) by (rewrite <- Rmult_plus_distr_l; apply Rmult_le_compat_l; [lra | apply Rabs_le_inv in T'; lra]).
    assert (UU : u * (/ 1000 * u * c) <= u * (/ 1000 * c)) by (apply Rmult_le_compat_l; [lra | exact UC]). set (uc := u * c) in *. replace (u * (/ 1000 * u * c)) with (/ 1000 * u * uc) in * by (unfold uc; ring).
    replace (u * (/ 1000 * c)) with (/ 1000 * uc) in UU by (unfold uc; ring). replace (/ 1000 * u * c) with (/ 1000 * uc) in T' by (unfold uc; ring).
    replace (101 / 100 * u * c) with (101 / 100 * uc) by (unfold uc; field). assert (0 < uc) by (apply Rmult_lt_0_compat; assumption). lra.
  - intros k K. assert (K1 : (-24 <= k <= 24)%Z) by (rewrite K in RG; destruct RG as [R1 R2]; apply le_bpow in R1, R2; lia).
    assert (TK : t = bpow radix2 k).
    { unfold t. rewrite K. apply round_generic; [apply valid_rnd_round_mode|]. apply (generic_format_bpow radix2 (FLT_exp (-1074) 53)). unfold FLT_exp. lia. }
    rewrite TK. apply rn32_exact. apply bpow_float. lia.
Qed.

(** * A coordinate *)
Lemma rn32_err : forall t, Rabs (rn32 t - t) <= u * Rabs t + e32.
Proof. intros t. rewrite <- u_u32. apply rn32_rounds. Qed.

Lemma small_fits : forall t, Rabs t <= bpow radix2 127 -> fits t.
Proof. intros t H. unfold fits. eapply Rle_lt_trans; [exact H|]. apply bpow_lt. lia. Qed.

Lemma rn_bound : forall t k, (-149 <= k <= 127)%Z -> Rabs t <= bpow radix2 k -> Rabs (rn32 t) <= bpow radix2 k /\ fits (rn32 t).
Proof.
  intros t k K H. pose proof (rn32_abs_le t k ltac:(lia) H) as X. split; [exact X|]. unfold fits. eapply Rle_lt_trans; [exact X|]. apply bpow_lt. lia.
Qed.

Lemma mul_bound : forall a b i j, Rabs a <= bpow radix2 i -> Rabs b <= bpow radix2 j -> Rabs (a * b) <= bpow radix2 (i + j).
Proof. intros a b i j A B. rewrite Rabs_mult, bpow_plus. apply Rmult_le_compat; try apply Rabs_pos; assumption. Qed.

Lemma unscale_rep : forall recip tf af t A, rep tf t -> rep af A -> 0 < A -> nzb (-25) 25 A -> Rabs t <= bpow radix2 62 ->
  exists p, rep (unscale32 recip tf af) p /\ Rabs (p - t / A) <= 201 / 100 * u * Rabs (t / A) + e32 /\
    (forall k, A = bpow radix2 k -> p = rn32 (t / A)).
Proof.
  intros recip tf af t A RT RA A0 NA BT. pose proof u_pos as UP. assert (US : u <= / 1000000) by (unfold u; lra). assert (E0 : 0 <= e32) by apply bpow_ge_0.
  assert (NI : nzb (-25) 25 (/ A)) by (exact (nzb_inv (-25) 25 A NA)).
  destruct recip; cbn [unscale32].
  - assert (IA : 0 < / A) by (apply Rinv_0_lt_compat; exact A0).
    assert (RI : rep (div32 (f32_ofZ 1) af) (rn32 (1 / A))).
    { apply rep_div; [apply (rep_ofZ 1); lia | exact RA | lra|]. unfold Rdiv. rewrite Rmult_1_l. apply (sz_fits (-25) 25); [lia|]. right. apply nzb_rn; [lia | lia | exact NI]. }
    assert (EI : Rabs (rn32 (1 / A) - / A) <= u * / A).
    { unfold Rdiv. rewrite Rmult_1_l. pose proof (sz_rnd (-25) 25 (/ A) ltac:(lia) (or_intror NI)) as X. unfold rnd in X. rewrite (Rabs_pos_eq (/ A)) in X by lra. exact X. }
    set (r := rn32 (1 / A)) in *.
    assert (NR : Rabs r <= bpow radix2 25) by (unfold r, Rdiv; rewrite Rmult_1_l; apply (rn_bound (/ A) 25); [lia | apply NI]).
    assert (TRB : Rabs (t * r) <= bpow radix2 87) by (apply (mul_bound t r 62 25); assumption).
    exists (rn32 (t * r)). split; [unfold mult32; apply rep_mul; [exact RT | exact RI | apply (rn_bound (t * r) 87); [lia | exact TRB]]|]. split.
    + pose proof (rn32_err (t * r)) as X. unfold Rdiv. rewrite (Rabs_mult t (/ A)), (Rabs_pos_eq (/ A)) by lra.
      assert (TR : Rabs (t * r - t * / A) <= u * (Rabs t * / A)).
      { replace (t * r - t * / A) with (t * (r - / A)) by ring. rewrite Rabs_mult. pose proof (Rabs_pos t). replace (u * (Rabs t * / A)) with (Rabs t * (u * / A)) by ring. apply Rmult_le_compat_l; assumption. }
      assert (TR' : Rabs (t * r) <= (1 + u) * (Rabs t * / A)).
      { replace (t * r) with ((t * r - t * / A) + t * / A) by ring. eapply Rle_trans; [apply Rabs_triang|]. rewrite (Rabs_mult t (/ A)), (Rabs_pos_eq (/ A)) by lra. lra. }
      assert (P : 0 <= Rabs t * / A) by (apply Rmult_le_pos; [apply Rabs_pos | lra]).
      assert (UTR : u * Rabs (t * r) <= u * ((1 + u) * (Rabs t * / A))) by (apply Rmult_le_compat_l; lra).
      replace (rn32 (t * r) - t * / A) with ((rn32 (t * r) - t * r) + (t * r - t * / A)) by ring. eapply Rle_trans; [apply Rabs_triang|].
      assert (UU : u * (u * (Rabs t * / A)) <= / 1000000 * (u * (Rabs t * / A))) by (apply Rmult_le_compat_r; [apply Rmult_le_pos; lra | exact US]).
      assert (UN : 0 <= u * (Rabs t * / A)) by (apply Rmult_le_pos; lra). lra.
    + intros k K. unfold r. assert (E : 1 / A = bpow radix2 (- k)) by (rewrite K, bpow_opp; unfold Rdiv; apply Rmult_1_l). rewrite E.
      rewrite (rn32_exact (bpow radix2 (- k))); [rewrite K, bpow_opp; reflexivity|]. apply bpow_float.
      destruct NA as [_ N2]. rewrite K, Rabs_pos_eq in N2 by apply bpow_ge_0. apply le_bpow in N2. lia.
  - assert (B : Rabs (t / A) <= bpow radix2 87) by (unfold Rdiv; apply (mul_bound t (/ A) 62 25); [exact BT | apply NI]).
    exists (rn32 (t / A)). split; [apply rep_div; [exact RT | exact RA | lra | apply (rn_bound (t / A) 87); [lia | exact B]]|]. split; [|reflexivity].
    eapply Rle_trans; [apply rn32_err|]. pose proof (Rabs_pos (t / A)). assert (0 <= u * Rabs (t / A)) by (apply Rmult_le_pos; lra). lra.
Qed.

Section Coord.
Variables (recip : bool) (n b : Z) (xf rf df Uf : f32) (U M : R).
Hypothesis N : (1 <= n < 2 ^ 24)%Z.
Hypothesis B : (1 <= b < 2 ^ 24)%Z.
Hypothesis WX : within (bpow radix2 24) xf.
Hypothesis WR : within (bpow radix2 20) rf.
Hypothesis WD : within (bpow radix2 20) df.
Hypothesis HM : 0 <= M <= bpow radix2 20.

Let c : R := Q2R (steps n b).

Lemma scaled_ok : within (bpow radix2 50) (mult32 xf (scale32 n b)) /\
  sampled_at (steps n b) xf (value (mult32 xf (scale32 n b))).
Proof.
  destruct (scale_rep n b N B) as (A & RA & EA & _). pose proof (steps_range n b N B) as RG. fold c in EA, RG.
  pose proof u_pos as UP. assert (US : u <= / 1000000) by (unfold u; lra). pose proof (bpow_gt_0 radix2 (-24)) as P. destruct WX as [FX BX]. unfold real in BX.
  assert (RX : rep xf (Q2R (value xf))) by (apply finite_rep; exact FX). set (x := Q2R (value xf)) in *.
  assert (UC : u * c <= / 1000000 * c) by (apply Rmult_le_compat_r; lra).
  assert (AB : 0 < A <= 2 * c) by (apply Rabs_le_inv in EA; lra).
  assert (AB' : Rabs A <= bpow radix2 25) by (rewrite Rabs_pos_eq by lra; replace (bpow radix2 25) with (2 * bpow radix2 24) by (change 2 with (bpow radix2 1); rewrite <- bpow_plus; reflexivity); lra).
  pose proof (mul_bound x A 24 25 BX AB') as XB. destruct (rn_bound (x * A) 49 ltac:(lia) XB) as [XB' FT].
  assert (RS : rep (mult32 xf (scale32 n b)) (rn32 (x * A))) by (unfold mult32; apply rep_mul; assumption). destruct RS as [FS VS].
  assert (VS' : Q2R (value (mult32 xf (scale32 n b))) = rn32 (x * A)) by (rewrite (value_R _ FS); exact VS).
  split; [split; [exact FS | unfold real; rewrite VS'; eapply Rle_trans; [exact XB' | apply bpow_le; lia]]|].
  unfold sampled_at, real. fold x c. rewrite VS'. pose proof (rn32_err (x * A)) as E1.
  assert (E2 : Rabs (x * A - c * x) <= 101 / 100 * u * (c * Rabs x)).
  { replace (x * A - c * x) with (x * (A - c)) by ring. rewrite Rabs_mult. pose proof (Rabs_pos x). replace (101 / 100 * u * (c * Rabs x)) with (Rabs x * (101 / 100 * u * c)) by ring. apply Rmult_le_compat_l; assumption. }
  assert (E3 : Rabs (x * A) <= 11 / 10 * (c * Rabs x)).
  { rewrite Rabs_mult, (Rabs_pos_eq A) by lra. pose proof (Rabs_pos x). replace (11 / 10 * (c * Rabs x)) with (Rabs x * (11 / 10 * c)) by ring. apply Rmult_le_compat_l; [assumption|]. apply Rabs_le_inv in EA. lra. }
  assert (E4 : u * Rabs (x * A) <= u * (11 / 10 * (c * Rabs x))) by (apply Rmult_le_compat_l; lra).
  assert (E5 : e32 <= bpow radix2 (-149)) by (unfold e32; apply bpow_le; lia).
  assert (E6 : 0 <= c * Rabs x) by (apply Rmult_le_pos; [lra | apply Rabs_pos]).
  replace (rn32 (x * A) - c * x) with ((rn32 (x * A) - x * A) + (x * A - c * x)) by ring.
  eapply Rle_trans; [apply Rabs_triang|]. assert (E7 : 0 <= u * (c * Rabs x)) by (apply Rmult_le_pos; lra).
  change (3 / 16777216) with (3 * u). lra.
Qed.

Hypothesis FU : finite Uf.
Hypothesis EU : Rabs (B2R Uf - U) <= bpow radix2 (-21) * M + bpow radix2 (-144).
Hypothesis BU : Rabs U <= M.

Lemma coord_ok :
  let p := unscale32 recip (plus32 (mult32 xf (scale32 n b)) (mult32 (mult32 Uf rf) df)) (scale32 n b) in
  finite p /\ Rabs (real p - (real xf + U * real rf * real df / c)) <=
    5 / 16777216 * Rabs (real xf) + 1 / 1048576 * (M * Rabs (real rf) * Rabs (real df) / c) + bpow radix2 (-70).
Proof.
  intros p. destruct (scale_rep n b N B) as (A & RA & EA & _). pose proof (steps_range n b N B) as RG. fold c in EA, RG.
  pose proof u_pos as UP. assert (US : u <= / 1000000) by (unfold u; lra). pose proof (bpow_gt_0 radix2 (-24)) as P24.
  destruct scaled_ok as [[FS BS] _]. destruct WX as [FX BX]. destruct WR as [FR BR]. destruct WD as [FD BD]. unfold real in *.
  set (x := Q2R (value xf)) in *. set (rx := Q2R (value rf)) in *. set (dt := Q2R (value df)) in *.
  pose proof (finite_rep _ FX) as RX. pose proof (finite_rep _ FR) as RR. pose proof (finite_rep _ FD) as RD. fold x in RX. fold rx in RR. fold dt in RD.
  assert (UC : u * c <= / 1000000 * c) by (apply Rmult_le_compat_r; lra).
  assert (AB : / 2 * c <= A <= 2 * c) by (apply Rabs_le_inv in EA; lra).
  assert (NA : nzb (-25) 25 A).
  { split; rewrite Rabs_pos_eq by lra; [replace (bpow radix2 (-25)) with (/ 2 * bpow radix2 (-24)) by (change (/ 2) with (bpow radix2 (-1)); rewrite <- bpow_plus; reflexivity) |
      replace (bpow radix2 25) with (2 * bpow radix2 24) by (change 2 with (bpow radix2 1); rewrite <- bpow_plus; reflexivity)]; lra. }
  (* the scaled position *)
  pose proof (mul_bound x A 24 25 BX (proj2 NA)) as XB. destruct (rn_bound (x * A) 49 ltac:(lia) XB) as [XB' FT].
  assert (RS : rep (mult32 xf (scale32 n b)) (rn32 (x * A))) by (unfold mult32; apply rep_mul; assumption).
  pose proof (rn32_err (x * A)) as ES. set (s := rn32 (x * A)) in *.
  (* the displacement *)
  set (eU := bpow radix2 (-21) * M + bpow radix2 (-144)) in *.
  assert (B21 : bpow radix2 (-21) = 8 * u) by (rewrite <- u_u32; unfold u32; change 8 with (bpow radix2 3); rewrite <- bpow_plus; reflexivity).
  assert (EU0 : 0 <= eU) by (unfold eU; pose proof (bpow_ge_0 radix2 (-144)); pose proof (bpow_ge_0 radix2 (-21)); assert (0 <= bpow radix2 (-21) * M) by (apply Rmult_le_pos; lra); lra).
  assert (UB : Rabs (B2R Uf) <= bpow radix2 21).
  { replace (B2R Uf) with ((B2R Uf - U) + U) by ring. eapply Rle_trans; [apply Rabs_triang|].
    assert (E1 : bpow radix2 (-144) <= / 1000) by (apply Rle_trans with (bpow radix2 (-10)); [apply bpow_le; lia | cbn [bpow]; change (Z.pow_pos radix2 10) with 1024%Z; lra]).
    assert (E2 : u * M <= / 1000000 * M) by (apply Rmult_le_compat_r; lra). unfold eU in EU. rewrite B21 in EU.
    replace (bpow radix2 21) with (2 * bpow radix2 20) by (change 2 with (bpow radix2 1); rewrite <- bpow_plus; reflexivity).
    assert (1 <= bpow radix2 20) by (change 1 with (bpow radix2 0); apply bpow_le; lia). lra. }
  assert (RU : rep Uf (B2R Uf)) by (split; [exact FU | reflexivity]).
  pose proof (mul_bound _ _ 21 20 UB BR) as WB. destruct (rn_bound _ 41 ltac:(lia) WB) as [WB' WF].
  assert (RW : rep (mult32 Uf rf) (rn32 (B2R Uf * rx))) by (unfold mult32; apply rep_mul; assumption).
  pose proof (rn32_err (B2R Uf * rx)) as EW. set (w := rn32 (B2R Uf * rx)) in *.
  pose proof (mul_bound _ _ 41 20 WB' BD) as DB. destruct (rn_bound _ 61 ltac:(lia) DB) as [DB' DF].
  assert (RDD : rep (mult32 (mult32 Uf rf) df) (rn32 (w * dt))) by (unfold mult32 at 1; apply rep_mul; assumption).
  pose proof (rn32_err (w * dt)) as EDD. set (D := rn32 (w * dt)) in *.
  assert (E0 : 0 <= e32) by apply bpow_ge_0.
  pose proof (speed_error (B2R Uf) U rx dt w D M eU e32 E0 EU0 (proj1 HM) BU EU EW EDD) as ED.
  (* the sum *)
  assert (TB : Rabs (s + D) <= bpow radix2 62).
  { eapply Rle_trans; [apply Rabs_triang|]. replace (bpow radix2 62) with (bpow radix2 61 + bpow radix2 61) by (change 62%Z with (1 + 61)%Z; rewrite bpow_plus; change (bpow radix2 1) with 2; ring).
    apply Rplus_le_compat; [eapply Rle_trans; [exact XB' | apply bpow_le; lia] | exact DB']. }
  destruct (fadd _ _ _ _ 62 RS RDD TB ltac:(lia)) as (RT & ET & TB'). set (t := rn32 (s + D)) in *. unfold rnd in ET.
  destruct (unscale_rep recip _ _ t A RT RA ltac:(lra) NA TB') as (pp & [FP VP] & EP & _). fold p in FP, VP.
  split; [exact FP|]. rewrite (value_R p FP), VP.
  set (E := 201 / 100 * u * (M * Rabs rx * Rabs dt) + 101 / 100 * (eU * Rabs rx * Rabs dt) + e32 + 2 * (e32 * Rabs dt)) in *.
  pose proof (Rabs_pos rx) as R0. pose proof (Rabs_pos dt) as D0. set (r := Rabs rx) in *. set (k := Rabs dt) in *.
  assert (K0 : 0 <= M * r * k) by (repeat apply Rmult_le_pos; lra).
  assert (K1 : 0 <= eU * r * k) by (repeat apply Rmult_le_pos; lra). assert (K2 : 0 <= e32 * k) by (apply Rmult_le_pos; lra).
  assert (K3 : 0 <= u * (M * r * k)) by (apply Rmult_le_pos; lra).
  assert (EE : 0 <= E) by (unfold E; lra).
  pose proof (move_error x c A s D (U * rx * dt) t pp E e32 e32 ltac:(lra) EA E0 EE E0 ES ED ET EP) as MV.
  eapply Rle_trans; [exact MV|]. clear MV.
  assert (IC : 0 < / c <= bpow radix2 24).
  { split; [apply Rinv_0_lt_compat; lra|]. replace (bpow radix2 24) with (/ bpow radix2 (-24)) by (rewrite <- bpow_opp; reflexivity). apply Rinv_le_contravar; lra. }
  assert (DU : Rabs (U * rx * dt) / c <= M * r * k / c).
  { unfold Rdiv. apply Rmult_le_compat_r; [lra|]. rewrite !Rabs_mult. fold r k. apply Rmult_le_compat_r; [exact D0|]. apply Rmult_le_compat_r; [exact R0 | exact BU]. }
  (* the part that is not proportional *)
  assert (RK : r * k <= bpow radix2 40) by (replace (bpow radix2 40) with (bpow radix2 20 * bpow radix2 20) by (rewrite <- bpow_plus; reflexivity); apply Rmult_le_compat; assumption).
  assert (EUK : eU * r * k <= 8 * u * (M * r * k) + bpow radix2 (-104)).
  { unfold eU. rewrite B21. replace ((8 * u * M + bpow radix2 (-144)) * r * k) with (8 * u * (M * r * k) + bpow radix2 (-144) * (r * k)) by ring.
    apply Rplus_le_compat_l. replace (bpow radix2 (-104)) with (bpow radix2 (-144) * bpow radix2 40) by (rewrite <- bpow_plus; reflexivity). apply Rmult_le_compat_l; [apply bpow_ge_0 | exact RK]. }
  assert (E32 : e32 <= bpow radix2 (-104)) by (unfold e32; apply bpow_le; lia).
  assert (EK : e32 * k <= bpow radix2 (-104)).
  { apply Rle_trans with (e32 * bpow radix2 20); [apply Rmult_le_compat_l; assumption|]. unfold e32. rewrite <- bpow_plus. apply bpow_le. lia. }
  assert (EB : E * / c <= 101 / 10 * u * (M * r * k) * / c + 5 * bpow radix2 (-80)).
  { apply Rle_trans with ((101 / 10 * u * (M * r * k) + 5 * bpow radix2 (-104)) * / c).
    - apply Rmult_le_compat_r; [lra|]. unfold E. lra.
    - rewrite Rmult_plus_distr_r. apply Rplus_le_compat_l. rewrite Rmult_assoc. apply Rmult_le_compat_l; [lra|].
      replace (bpow radix2 (-80)) with (bpow radix2 (-104) * bpow radix2 24) by (rewrite <- bpow_plus; reflexivity). apply Rmult_le_compat_l; [apply bpow_ge_0 | lra]. }
  assert (eB : e32 * / c <= bpow radix2 (-80)).
  { apply Rle_trans with (e32 * bpow radix2 24); [apply Rmult_le_compat_l; lra|]. unfold e32. rewrite <- bpow_plus. apply bpow_le. lia. }
  assert (e80 : e32 <= bpow radix2 (-80)) by (unfold e32; apply bpow_le; lia).
  assert (T70 : 1024 * bpow radix2 (-80) = bpow radix2 (-70)) by (change 1024 with (bpow radix2 10); rewrite <- bpow_plus; reflexivity).
  pose proof (bpow_ge_0 radix2 (-80)) as P80. assert (K4 : 0 <= u * (M * r * k) * / c) by (apply Rmult_le_pos; lra).
  unfold Rdiv in *. change (5 * / 16777216) with (5 * u). 
  assert (UDU : u * (Rabs (U * rx * dt) * / c) <= u * (M * r * k * / c)) by (apply Rmult_le_compat_l; lra).
  unfold u in *. set (q := M * r * k * / c) in *. set (dq := Rabs (U * rx * dt) * / c) in *. assert (Q0 : 0 <= q) by (apply Rmult_le_pos; lra).
  assert (EB2 : E * / c <= 101 * / 10 * / 16777216 * q + 5 * bpow radix2 (-80)) by (unfold q; lra). lra.
Qed.
End Coord.

(** * The two coordinates *)
Lemma neighbour_in : forall n x i, neighbour n x i -> (0 <= i < n)%Z. Proof. intros n x i [H _]. exact H. Qed.

Section Moved.
Variables (recip : bool) (pb : Z * Z) (f : flow32) (dt rx ry : f32) (y x : f32) (M : R).
Hypothesis FW : flow_within M f.
Hypothesis BM : M <= bpow radix2 20.
Hypothesis PB : bounds_ok pb.
Hypothesis WY : within (bpow radix2 24) y.
Hypothesis WX : within (bpow radix2 24) x.
Hypothesis WT : within (bpow radix2 20) dt.
Hypothesis WRX : within (bpow radix2 20) rx.
Hypothesis WRY : within (bpow radix2 20) ry.

Let sy : f32 := mult32 y (scale32 (h_H f) (fst pb)).
Let sx : f32 := mult32 x (scale32 (h_W f) (snd pb)).

Lemma M_pos : 0 <= M.
Proof. destruct FW as (H & W & A). destruct (A 0%Z 0%Z ltac:(lia) ltac:(lia)) as [[_ B] _]. eapply Rle_trans; [apply Rabs_pos | exact B]. Qed.

Lemma samples : (finite sy /\ sampled_at (steps (h_H f) (fst pb)) y (value sy)) /\ (finite sx /\ sampled_at (steps (h_W f) (snd pb)) x (value sx)).
Proof.
  destruct FW as (H & W & A). destruct PB as [P1 P2].
  destruct (scaled_ok (h_H f) (fst pb) y H P1 WY) as [[S1 _] S2]. destruct (scaled_ok (h_W f) (snd pb) x W P2 WX) as [[S3 _] S4].
  repeat split; assumption.
Qed.

Lemma speed_ok : forall (ch : fimage), g_rows ch = h_H f -> g_cols ch = h_W f ->
  (forall r c, (0 <= r < h_H f)%Z -> (0 <= c < h_W f)%Z -> finite (g_at ch r c) /\ Rabs (real (g_at ch r c)) <= M) ->
  finite (bilinear32 ch sx sy) /\
  Rabs (B2R (bilinear32 ch sx sy) - Q2R (bilinear (values ch) (value sx) (value sy))) <= bpow radix2 (-21) * M + bpow radix2 (-144) /\
  Rabs (Q2R (bilinear (values ch) (value sx) (value sy))) <= M.
Proof.
  intros ch GR GC A. destruct FW as (H & W & _). destruct samples as [[F1 _] [F2 _]].
  assert (AR : around ch sx sy (fun p => finite p /\ Rabs (B2R p) <= M)).
  { intros r c NR NC. apply neighbour_in in NR, NC. rewrite GR in NR. rewrite GC in NC. destruct (A r c NR NC) as [X Y]. split; [exact X|]. rewrite <- (value_R _ X). exact Y. }
  destruct (binary32_error ch sx sy M) as [E1 E2]; [split; rewrite ?GR, ?GC; lia | exact F2 | exact F1 | exact AR | eapply Rle_trans; [exact BM | apply bpow_le; lia]|].
  split; [exact E1|]. split; [exact E2|]. apply Rabs_le. apply exact_between.
  - split; cbn [values rows cols]; lia.
  - intros r c NR NC. apply neighbour_in in NR, NC. cbn [values rows cols at_] in *. rewrite GR in NR. rewrite GC in NC. apply Rabs_le_inv. apply (A r c NR NC).
Qed.

Theorem moved :
  let (y', x') := second_position32 recip pb f dt rx ry (y, x) in
  let ay := steps (h_H f) (fst pb) in let ax := steps (h_W f) (snd pb) in
  finite y' /\ finite x' /\
  exists qy qx, sampled_at ay y qy /\ sampled_at ax x qx /\
    Rabs (real y' - arrives ay y (bilinear (chan1 (flow_of f)) qx qy) ry dt) <= drift ay y M ry dt /\
    Rabs (real x' - arrives ax x (bilinear (chan0 (flow_of f)) qx qy) rx dt) <= drift ax x M rx dt.
Proof.
  cbn [second_position32 update32]. fold sx sy. destruct FW as (H & W & A). destruct PB as [P1 P2]. destruct samples as [[F1 S1] [F2 S2]].
  destruct (speed_ok (hchan1 f) eq_refl eq_refl (fun r c R C => proj2 (A r c R C))) as (V1 & V2 & V3).
  destruct (speed_ok (hchan0 f) eq_refl eq_refl (fun r c R C => proj1 (A r c R C))) as (U1 & U2 & U3).
  destruct (coord_ok recip (h_H f) (fst pb) y ry dt _ _ M H P1 WY WRY WT (conj M_pos BM) V1 V2 V3) as [Y1 Y2].
  destruct (coord_ok recip (h_W f) (snd pb) x rx dt _ _ M W P2 WX WRX WT (conj M_pos BM) U1 U2 U3) as [X1 X2].
  split; [exact Y1|]. split; [exact X1|]. exists (value sy), (value sx). split; [exact S1|]. split; [exact S2|]. split; [exact Y2 | exact X2].
Qed.
End Moved.

Lemma uniform_value : forall u0 v0 f qx qy, uniform32 u0 v0 f -> (1 <= h_H f)%Z -> (1 <= h_W f)%Z ->
  Q2R (bilinear (chan0 (flow_of f)) qx qy) = real u0 /\ Q2R (bilinear (chan1 (flow_of f)) qx qy) = real v0.
Proof.
  intros u0 v0 f qx qy U H W.
  assert (X0 : real u0 <= Q2R (bilinear (chan0 (flow_of f)) qx qy) <= real u0).
  { apply exact_between; [split; assumption|]. intros r c NR NC. apply neighbour_in in NR, NC. destruct (U r c NR NC) as [E _]. change (Q2R (at_ (chan0 (flow_of f)) r c)) with (real (h_u f r c)). rewrite E. lra. }
  assert (X1 : real v0 <= Q2R (bilinear (chan1 (flow_of f)) qx qy) <= real v0).
  { apply exact_between; [split; assumption|]. intros r c NR NC. apply neighbour_in in NR, NC. destruct (U r c NR NC) as [_ E]. change (Q2R (at_ (chan1 (flow_of f)) r c)) with (real (h_v f r c)). rewrite E. lra. }
  split; apply Rle_antisym; first [apply X0 | apply X1].
Qed.

(** * No flow *)
Lemma gather_lands : forall n i, (1 <= n)%Z -> (0 <= gather_index n i < n)%Z.
Proof. intros n i N. unfold gather_index, clipZ. lia. Qed.

Lemma no_speed : forall ch sx sy, fsize ch -> finite sx -> finite sy ->
  (forall r c, (0 <= r < g_rows ch)%Z -> (0 <= c < g_cols ch)%Z -> finite (g_at ch r c) /\ real (g_at ch r c) = 0) ->
  rep (bilinear32 ch sx sy) 0.
Proof.
  intros ch sx sy SZ F2 F1 A.
  assert (AR : around ch sx sy (fun p => finite p /\ Rabs (B2R p) <= 0)).
  { intros r c NR NC. apply neighbour_in in NR, NC. destruct (A r c NR NC) as [X Y]. split; [exact X|]. rewrite <- (value_R _ X). change (Rabs (real (g_at ch r c)) <= 0). rewrite Y, Rabs_R0. lra. }
  pose proof (compute_rep ch sx sy 0 SZ F2 F1 AR (bpow_ge_0 _ _)) as C.
  destruct SZ as [SR SC].
  assert (Z0 : forall r c, @ggather (rounded (fun _ => rn32)) (real_image (fun _ => rn32) (values ch)) r c = 0).
  { intros r c. unfold ggather. cbn [real_image g_at g_rows g_cols values at_ rows cols]. apply (A _ _); apply gather_lands; lia. }
  unfold bilinear_in in C. cbv zeta in C. rewrite !Z0 in C. cbn [a_mul a_add rounded] in C. repeat progress rewrite ?Rmult_0_r, ?rn32_0, ?Rplus_0_r in C. exact C.
Qed.

Lemma still_coord : forall recip n b xf Uf rf df k, (1 <= n < 2 ^ 24)%Z -> (1 <= b < 2 ^ 24)%Z ->
  within (bpow radix2 24) xf -> finite rf -> finite df -> rep Uf 0 -> bpow radix2 (-100) <= Rabs (real xf) \/ real xf = 0 -> Q2R (steps n b) = bpow radix2 k ->
  let p := unscale32 recip (plus32 (mult32 xf (scale32 n b)) (mult32 (mult32 Uf rf) df)) (scale32 n b) in
  finite p /\ real p = real xf.
Proof.
  intros recip n b xf Uf rf df k N B [FX BX] FR FD RU SM K p.
  destruct (scale_rep n b N B) as (A & RA & _ & EX). specialize (EX k K). pose proof (steps_range n b N B) as RG.
  assert (K1 : (-24 <= k <= 24)%Z) by (rewrite K in RG; destruct RG as [R1 R2]; apply le_bpow in R1, R2; lia).
  pose proof (finite_rep _ FX) as RX. pose proof (finite_rep _ FR) as RR. pose proof (finite_rep _ FD) as RD. unfold real in *. set (x := Q2R (value xf)) in *.
  assert (FLX : float32 x) by (unfold x; rewrite (value_R _ FX); apply (generic_format_B2R 24 128)).
  assert (XA : rn32 (x * A) = x * A).
  { apply rn32_exact. rewrite EX. destruct SM as [SM|SM]; [|rewrite SM, Rmult_0_l; apply generic_format_0].
    apply (mult_bpow_exact_FLT radix2 (-149) 24 x k FLX).
    pose proof (mag_ge_bpow radix2 x (-99) SM). lia. }
  assert (XB : Rabs (x * A) <= bpow radix2 49) by (rewrite EX; apply (mul_bound x (bpow radix2 k) 24 25); [exact BX | rewrite Rabs_pos_eq by apply bpow_ge_0; apply bpow_le; lia]).
  assert (RS : rep (mult32 xf (scale32 n b)) (x * A)) by (rewrite <- XA; unfold mult32; apply rep_mul; [exact RX | exact RA | apply (rn_bound (x * A) 49); [lia | exact XB]]).
  assert (F0 : fits (rn32 0)) by (rewrite rn32_0; unfold fits; rewrite Rabs_R0; apply bpow_gt_0).
  assert (RW : rep (mult32 Uf rf) 0).
  { rewrite <- rn32_0. rewrite <- (Rmult_0_l (Q2R (value rf))). unfold mult32. apply rep_mul; [exact RU | exact RR | rewrite Rmult_0_l; exact F0]. }
  assert (RDD : rep (mult32 (mult32 Uf rf) df) 0).
  { rewrite <- rn32_0. rewrite <- (Rmult_0_l (Q2R (value df))). unfold mult32 at 1. apply rep_mul; [exact RW | exact RD | rewrite Rmult_0_l; exact F0]. }
  assert (RT : rep (plus32 (mult32 xf (scale32 n b)) (mult32 (mult32 Uf rf) df)) (x * A)).
  { destruct (fadd _ _ _ _ 49 RS RDD ltac:(rewrite Rplus_0_r; exact XB) ltac:(lia)) as (T & _). rewrite Rplus_0_r, XA in T. exact T. }
  assert (NA : nzb (-25) 25 A) by (rewrite EX; split; rewrite Rabs_pos_eq by apply bpow_ge_0; apply bpow_le; lia).
  assert (A0 : 0 < A) by (rewrite EX; apply bpow_gt_0).
  destruct (unscale_rep recip _ _ _ A RT RA A0 NA) as (pp & [FP VP] & _ & PE); [eapply Rle_trans; [exact XB | apply bpow_le; lia]|].
  fold p in FP, VP. specialize (PE k EX). split; [exact FP|]. rewrite (value_R p FP), VP, PE.
  replace (x * A / A) with x by (field; lra). apply rn32_exact. exact FLX.
Qed.
