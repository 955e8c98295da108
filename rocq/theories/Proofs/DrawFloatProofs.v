(** Drawing in binary32. *)
From Coq Require Import List Arith ZArith QArith Qround Qreals Qabs Qminmax Bool Permutation Reals Lia Lqa Lra Psatz.
From Flocq Require Import Core Relative Plus_error IEEE754.BinarySingleNaN.
From Verif Require Import Prelude Model.Interp Model.Geometry Model.Render Model.InterpFloat Model.HistFloat Model.DrawFloat.
From Verif Require Import Spec.InterpSpec Spec.RenderSpec Spec.InterpFloatSpec Spec.DrawFloatSpec.
From Verif Require Import Proofs.InterpProofs Proofs.FloatProofs Proofs.RoundProofs Proofs.InterpFloatProofs Proofs.InterpBinary.
Import ListNotations.
Local Open Scope R_scope.

(** * Sums *)
Definition sumR (vs : list f32) : R := fold_right (fun v s => B2R v + s) 0 vs.
Definition absR (vs : list f32) : R := fold_right (fun v s => Rabs (B2R v) + s) 0 vs.
Definition nz (x : f32) : bool := match x with B754_zero _ => false | _ => true end.
Definition live (vs : list f32) : nat := List.length (filter nz vs).

Lemma sumR_app : forall a b, sumR (a ++ b) = sumR a + sumR b.
Proof. unfold sumR. induction a as [|x a IH]; intros b; cbn [app fold_right]; [symmetry; apply Rplus_0_l | rewrite IH; ring]. Qed.
Lemma absR_app : forall a b, absR (a ++ b) = absR a + absR b.
Proof. unfold absR. induction a as [|x a IH]; intros b; cbn [app fold_right]; [symmetry; apply Rplus_0_l | rewrite IH; ring]. Qed.
Lemma live_app : forall a b, live (a ++ b) = (live a + live b)%nat.
Proof. intros a b. unfold live. rewrite filter_app, app_length. reflexivity. Qed.
Lemma absR_pos : forall a, 0 <= absR a.
Proof. induction a as [|x a IH]; cbn [absR fold_right]; [lra|]. fold (absR a). pose proof (Rabs_pos (B2R x)). lra. Qed.
Lemma live_0 : forall a, Forall finite a -> live a = 0%nat -> sumR a = 0 /\ absR a = 0.
Proof.
  induction 1 as [|x a F _ IH]; intros L; [split; reflexivity|].
  destruct x as [s|s| |s m e H]; try discriminate F; [|discriminate L].
  destruct (IH L) as [A B]. cbn [sumR absR fold_right B2R]. fold (sumR a) (absR a). rewrite A, B, Rabs_R0. lra.
Qed.

Lemma sum_perm : forall a b, Permutation a b -> sumR a = sumR b /\ absR a = absR b /\ live a = live b.
Proof.
  induction 1 as [|x a b _ (I1 & I2 & I3)|x y a|a b c _ (I1 & I2 & I3) _ (J1 & J2 & J3)].
  - repeat split; reflexivity.
  - cbn [sumR absR fold_right]. fold (sumR a) (sumR b) (absR a) (absR b). rewrite I1, I2. repeat split.
    unfold live in *. cbn [filter]. destruct (nz x); cbn [List.length]; rewrite I3; reflexivity.
  - cbn [sumR absR fold_right]. fold (sumR a) (absR a). repeat split; try ring.
    unfold live. cbn [filter]. destruct (nz x), (nz y); reflexivity.
  - repeat split; etransitivity; eassumption.
Qed.

Lemma add_error : forall a b, float32 a -> float32 b -> Rabs (rn32 (a + b) - (a + b)) <= u32 * Rabs (a + b).
Proof.
  intros a b A B. destruct (@FLT_plus_error_N_ex radix2 (-149) 24 p32 (fun x => negb (Z.even x)) a b A B) as (ep & H1 & H2).
  change (round radix2 (FLT_exp (-149) 24) (Znearest (fun x => negb (Z.even x))) (a + b)) with (rn32 (a + b)) in H2. rewrite H2.
  replace ((a + b) * (1 + ep) - (a + b)) with (ep * (a + b)) by ring. rewrite Rabs_mult.
  apply Rmult_le_compat_r; [apply Rabs_pos|]. eapply Rle_trans; [exact H1|].
  assert (U : u_ro radix2 24 = u32) by (unfold u_ro, u32; change (/ 2) with (bpow radix2 (-1)); rewrite <- bpow_plus; reflexivity).
  rewrite U. pose proof u32_small. apply Rmult_le_reg_r with (1 + u32); [lra|]. unfold Rdiv. rewrite Rmult_assoc, Rinv_l by lra. nra.
Qed.

Lemma pow_up : forall m n, (m <= n)%nat -> (1 + u32) ^ m <= (1 + u32) ^ n.
Proof. intros m n H. apply Rle_pow; [pose proof u32_small; lra | exact H]. Qed.

Lemma pow_1 : forall n, 1 <= (1 + u32) ^ n.
Proof. intros n. apply (pow_up 0 n). lia. Qed.

Definition err (k : nat) (S a A : R) : Prop := Rabs (a - A) <= ((1 + u32) ^ Nat.pred k - 1) * S.

Lemma rep_float : forall x a, rep x a -> float32 a.
Proof. intros x a [F <-]. exact (generic_format_B2R 24 128 x). Qed.

Lemma sum_size : forall l, Rabs (sumR l) <= absR l.
Proof.
  induction l as [|x l IH]; cbn [sumR absR fold_right]; [rewrite Rabs_R0; lra|]. fold (sumR l) (absR l).
  eapply Rle_trans; [apply Rabs_triang|]. lra.
Qed.

Lemma big : bpow radix2 127 < bpow radix2 128.
Proof. apply bpow_lt. lia. Qed.

Lemma sum_error : forall l v, sum32 l v -> Forall finite l -> (1 + u32) ^ Nat.pred (live l) * absR l <= bpow radix2 127 ->
  exists a, rep v a /\ err (live l) (absR l) a (sumR l).
Proof.
  induction 1 as [x|l l' v w H1 IH1 H2 IH2]; intros F B.
  - apply Forall_inv in F. exists (B2R x). split; [split; [exact F | reflexivity]|]. unfold err. cbn [sumR absR fold_right].
    rewrite Rplus_0_r, Rminus_diag_eq, Rabs_R0 by reflexivity. rewrite Rplus_0_r.
    apply Rmult_le_pos; [pose proof (pow_1 (Nat.pred (live [x]))); lra | apply Rabs_pos].
  - apply Forall_app in F. destruct F as [F1 F2]. rewrite live_app, absR_app in B. rewrite live_app, absR_app, sumR_app.
    pose proof (absR_pos l) as P1. pose proof (absR_pos l') as P2.
    assert (B1 : (1 + u32) ^ Nat.pred (live l) * absR l <= bpow radix2 127).
    { eapply Rle_trans; [|exact B]. apply Rmult_le_compat; [pose proof (pow_1 (Nat.pred (live l))); lra | exact P1 | apply pow_up; lia | lra]. }
    assert (B2 : (1 + u32) ^ Nat.pred (live l') * absR l' <= bpow radix2 127).
    { eapply Rle_trans; [|exact B]. apply Rmult_le_compat; [pose proof (pow_1 (Nat.pred (live l'))); lra | exact P2 | apply pow_up; lia | lra]. }
    destruct (IH1 F1 B1) as (a & RA & EA). destruct (IH2 F2 B2) as (b & RB & EB). unfold err in *.
    pose proof (sum_size l) as S1. pose proof (sum_size l') as S2.
    destruct (live l) as [|k1] eqn:L1.
    + destruct (live_0 l F1 L1) as [Z1 Z2]. rewrite Z1, Z2 in *. cbn [Nat.pred Nat.add] in *.
      assert (A0 : a = 0) by (rewrite Rmult_0_r, Rminus_0_r in EA; destruct (Req_dec a 0) as [E|E]; [exact E | apply Rabs_pos_lt in E; lra]).
      subst a. exists b. rewrite !Rplus_0_l. split; [|exact EB].
      rewrite <- (rn32_exact b (rep_float _ _ RB)). rewrite <- (Rplus_0_l b). apply rep_add; [exact RA | exact RB |].
      rewrite Rplus_0_l, (rn32_exact b (rep_float _ _ RB)). unfold fits.
      replace b with ((b - sumR l') + sumR l') by ring. eapply Rle_lt_trans; [apply Rabs_triang|]. pose proof big. lra.
    + destruct (live l') as [|k2] eqn:L2.
      * destruct (live_0 l' F2 L2) as [Z1 Z2]. rewrite Z1, Z2 in *. rewrite !Nat.add_0_r in *.
        assert (A0 : b = 0) by (rewrite Rmult_0_r, Rminus_0_r in EB; destruct (Req_dec b 0) as [E|E]; [exact E | apply Rabs_pos_lt in E; lra]).
        subst b. exists a. rewrite !Rplus_0_r. split; [|exact EA].
        rewrite <- (rn32_exact a (rep_float _ _ RA)). rewrite <- (Rplus_0_r a). apply rep_add; [exact RA | exact RB |].
        rewrite Rplus_0_r, (rn32_exact a (rep_float _ _ RA)). unfold fits.
        replace a with ((a - sumR l) + sumR l) by ring. eapply Rle_lt_trans; [apply Rabs_triang|]. pose proof big. lra.
      * cbn [Nat.pred] in *. set (m := (k1 + k2)%nat). replace (Nat.pred (S k1 + S k2)) with (S m) in * by (unfold m; lia).
        assert (EA' : Rabs (a - sumR l) <= ((1 + u32) ^ m - 1) * absR l).
        { eapply Rle_trans; [exact EA|]. apply Rmult_le_compat_r; [exact P1|]. pose proof (pow_up k1 m ltac:(unfold m; lia)). lra. }
        assert (EB' : Rabs (b - sumR l') <= ((1 + u32) ^ m - 1) * absR l').
        { eapply Rle_trans; [exact EB|]. apply Rmult_le_compat_r; [exact P2|]. pose proof (pow_up k2 m ltac:(unfold m; lia)). lra. }
        assert (E : Rabs ((a + b) - (sumR l + sumR l')) <= ((1 + u32) ^ m - 1) * (absR l + absR l')).
        { replace ((a + b) - (sumR l + sumR l')) with ((a - sumR l) + (b - sumR l')) by ring.
          eapply Rle_trans; [apply Rabs_triang|]. lra. }
        assert (SZ : Rabs (a + b) <= (1 + u32) ^ m * (absR l + absR l')).
        { replace (a + b) with (((a + b) - (sumR l + sumR l')) + (sumR l + sumR l')) by ring.
          eapply Rle_trans; [apply Rabs_triang|]. pose proof (Rabs_triang (sumR l) (sumR l')). lra. }
        pose proof (add_error a b (rep_float _ _ RA) (rep_float _ _ RB)) as AE.
        assert (T : Rabs (rn32 (a + b) - (sumR l + sumR l')) <= ((1 + u32) ^ S m - 1) * (absR l + absR l')).
        { replace (rn32 (a + b) - (sumR l + sumR l')) with ((rn32 (a + b) - (a + b)) + ((a + b) - (sumR l + sumR l'))) by ring.
          eapply Rle_trans; [apply Rabs_triang|]. cbn [pow].
          assert (u32 * Rabs (a + b) <= u32 * ((1 + u32) ^ m * (absR l + absR l')))
            by (apply Rmult_le_compat_l; [apply u32_small | exact SZ]). lra. }
        exists (rn32 (a + b)). split; [|exact T]. apply rep_add; [exact RA | exact RB|]. unfold fits.
        replace (rn32 (a + b)) with ((rn32 (a + b) - (sumR l + sumR l')) + (sumR l + sumR l')) by ring.
        eapply Rle_lt_trans; [apply Rabs_triang|]. pose proof (Rabs_triang (sumR l) (sumR l')). pose proof big. lra.
Qed.

(** At most two numbers that are not zero: no order makes a difference. *)
Lemma sum_two_live : forall l v, sum32 l v -> Forall finite l -> (1 + u32) ^ Nat.pred (live l) * absR l <= bpow radix2 127 ->
  (live l <= 2)%nat -> rep v (rn32 (sumR l)).
Proof.
  induction 1 as [x|l l' v w H1 IH1 H2 IH2]; intros F B K.
  - apply Forall_inv in F. cbn [sumR fold_right]. rewrite Rplus_0_r.
    rewrite (rn32_exact _ (generic_format_B2R 24 128 x)). split; [exact F | reflexivity].
  - apply Forall_app in F. destruct F as [F1 F2]. rewrite live_app, absR_app in B. rewrite live_app in K. rewrite sumR_app.
    pose proof (absR_pos l) as P1. pose proof (absR_pos l') as P2.
    assert (B1 : (1 + u32) ^ Nat.pred (live l) * absR l <= bpow radix2 127).
    { eapply Rle_trans; [|exact B]. apply Rmult_le_compat; [pose proof (pow_1 (Nat.pred (live l))); lra | exact P1 | apply pow_up; lia | lra]. }
    assert (B2 : (1 + u32) ^ Nat.pred (live l') * absR l' <= bpow radix2 127).
    { eapply Rle_trans; [|exact B]. apply Rmult_le_compat; [pose proof (pow_1 (Nat.pred (live l'))); lra | exact P2 | apply pow_up; lia | lra]. }
    assert (X : forall j, (live j <= 1)%nat -> forall z a, rep z a -> err (live j) (absR j) a (sumR j) -> a = sumR j).
    { intros j J z a _ E. unfold err in E. replace (Nat.pred (live j)) with 0%nat in E by lia. cbn [pow] in E.
      replace ((1 - 1) * absR j) with 0 in E by ring. destruct (Req_dec (a - sumR j) 0) as [Z|Z]; [lra | apply Rabs_pos_lt in Z; lra]. }
    destruct (sum_error l v H1 F1 B1) as (a & RA & EA). destruct (sum_error l' w H2 F2 B2) as (b & RB & EB).
    destruct (sum_error (l ++ l') (plus32 v w)) as (c & RC & EC);
      [constructor; assumption | apply Forall_app; split; assumption | rewrite live_app, absR_app; exact B |].
    assert (G : rep (plus32 v w) (rn32 (a + b))).
    { destruct RC as [FC VC]. destruct RA as [FA <-]. destruct RB as [FB <-]. split; [exact FC|].
      pose proof (Bplus_correct 24 128 p32 l32 mode_NE v w FA FB) as C. fold (rn32 (B2R v + B2R w)) (plus32 v w) in C.
      destruct (Rlt_bool (Rabs (rn32 (B2R v + B2R w))) (bpow radix2 128)); [apply C|].
      destruct C as [C _]. rewrite <- is_finite_SF_B2SF, C in FC. destruct (Bsign v); discriminate FC. }
    destruct (live l) as [|[|k]] eqn:L1.
    + destruct (live_0 l F1 L1) as [Z1 Z2]. pose proof (X l ltac:(lia) v a RA ltac:(rewrite L1; exact EA)) as EQ. rewrite Z1 in *.
      rewrite EQ, Rplus_0_l in G. rewrite Rplus_0_l. pose proof (IH2 F2 B2 ltac:(lia)) as RB'.
      assert (EB' : b = rn32 (sumR l')) by (destruct RB as [_ <-]; destruct RB' as [_ <-]; reflexivity).
      rewrite (rn32_exact b (rep_float _ _ RB)), EB' in G. exact G.
    + rewrite (X l ltac:(lia) v a RA ltac:(rewrite L1; exact EA)) in G.
      rewrite (X l' ltac:(lia) w b RB EB) in G. exact G.
    + rewrite (X l' ltac:(lia) w b RB EB) in G. destruct (live_0 l' F2 ltac:(lia)) as [Z1 _]. rewrite Z1, Rplus_0_r in *.
      pose proof (IH1 F1 B1 ltac:(lia)) as RA'. assert (EA' : a = rn32 (sumR l)) by (destruct RA as [_ <-]; destruct RA' as [_ <-]; reflexivity).
      rewrite (rn32_exact a (rep_float _ _ RA)), EA' in G. exact G.
Qed.
