(** The quotient by 100 of download_piv_1.py:114-115 as a binary64 number. *)
From Coq Require Import ZArith Reals Lra Lia.
From Flocq Require Import Core.
Local Open Scope Z_scope.

Local Notation rnd := (round radix2 (FLT_exp (-1074) 53) ZnearestE).

Lemma prec53 : Prec_gt_0 53.
Proof. reflexivity. Qed.
Local Existing Instance prec53.

Lemma quotient_nonneg : forall x, 0 <= x <= 2 ^ 52 -> Zfloor (rnd (IZR x / 100)) = x / 100.
Proof.
  intros x Hx. set (q := x / 100).
  assert (D : x = 100 * q + x mod 100) by apply (Z_div_mod_eq_full x 100).
  assert (M := Z.mod_pos_bound x 100 eq_refl).
  assert (Q : 0 <= q < 2 ^ 46) by lia.
  assert (V : (IZR x / 100 = IZR q + IZR (x mod 100) / 100)%R).
  { rewrite D at 1. rewrite plus_IZR, mult_IZR. field. }
  assert (M0 : (0 <= IZR (x mod 100) <= 99)%R) by (split; apply IZR_le; lia).
  assert (Q0 : (0 <= IZR q)%R) by (apply IZR_le; lia).
  assert (Q1 : (IZR q + 1 <= bpow radix2 46)%R).
  { change (bpow radix2 46) with (IZR (2 ^ 46)). rewrite <- (plus_IZR q 1). apply IZR_le. lia. }
  apply Zfloor_imp. rewrite plus_IZR. split.
  - replace (IZR q) with (rnd (IZR q)).
    + apply round_le; auto with typeclass_instances. rewrite V. lra.
    + apply round_generic; auto with typeclass_instances.
      apply generic_format_FLT. exists (Float radix2 q 0); [unfold F2R; cbn; lra|cbn [Fnum]; change (radix_val radix2 ^ 53) with (2 ^ 53); lia|cbn [Fexp]; lia].
  - assert (E := error_le_half_ulp radix2 (FLT_exp (-1074) 53) (fun n => negb (Z.even n)) (IZR x / 100)).
    assert (U : (ulp radix2 (FLT_exp (-1074) 53) (IZR x / 100) <= bpow radix2 (46 - 53))%R).
    { replace (bpow radix2 (46 - 53)) with (ulp radix2 (FLT_exp (-1074) 53) (bpow radix2 45)).
      - rewrite ulp_bpow. change (FLT_exp (-1074) 53 (45 + 1)) with (-7). 
        destruct (Req_dec (IZR x / 100) 0) as [->|N].
        + rewrite ulp_FLT_0 by reflexivity. apply bpow_le. lia.
        + rewrite ulp_neq_0 by exact N. apply bpow_le. unfold cexp.
          assert (G : mag radix2 (IZR x / 100) <= 46).
          { apply mag_le_bpow; [exact N|]. rewrite V, Rabs_pos_eq by lra. lra. }
          unfold FLT_exp. lia.
      - rewrite ulp_bpow. reflexivity. }
    change (bpow radix2 (46 - 53)) with (/ IZR 128)%R in U.
    apply Rabs_le_inv in E. rewrite V in *. lra.
Qed.

(** Truncation of the rounded quotient is the truncated quotient. *)
Lemma quotient_float : forall x, Z.abs x <= 2 ^ 52 -> Ztrunc (rnd (IZR x / 100)) = Z.quot x 100.
Proof.
  intros x Hx. destruct (Z_le_gt_dec 0 x) as [P|P].
  - rewrite Ztrunc_floor.
    + rewrite quotient_nonneg by lia. rewrite Z.quot_div_nonneg; lia.
    + replace 0%R with (rnd 0) by (apply round_0; auto with typeclass_instances). apply round_le; auto with typeclass_instances.
      apply IZR_le in P. lra.
  - assert (S : rnd (IZR x / 100) = (- rnd (IZR (- x) / 100))%R).
    { replace (IZR x / 100)%R with (- (IZR (- x) / 100))%R by (rewrite opp_IZR; field). apply round_NE_opp. }
    rewrite S, Ztrunc_opp, Ztrunc_floor.
    + rewrite quotient_nonneg by lia. rewrite <- (Z.opp_involutive x) at 2. rewrite (Z.quot_opp_l (- x)), (Z.quot_div_nonneg (- x)) by lia. reflexivity.
    + replace 0%R with (rnd 0) by (apply round_0; auto with typeclass_instances). apply round_le; auto with typeclass_instances.
      assert (P' : 0 <= - x) by lia. apply IZR_le in P'. lra.
Qed.
