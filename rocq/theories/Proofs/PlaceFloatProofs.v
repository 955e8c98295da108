(** Where particles are drawn in binary32, and what they add to a pixel. *)
From Coq Require Import List Arith ZArith QArith Qround Qreals Qabs Qminmax Bool Permutation Reals Lia Lqa Lra Psatz.
From Flocq Require Import Core Relative Plus_error IEEE754.BinarySingleNaN.
From Verif Require Import Prelude Model.Interp Model.Geometry Model.Render Model.InterpFloat Model.HistFloat Model.DrawFloat.
From Verif Require Import Spec.InterpSpec Spec.RenderSpec Spec.InterpFloatSpec Spec.DrawFloatSpec.
From Verif Require Import Proofs.InterpProofs Proofs.RenderProofs Proofs.FloatProofs Proofs.RoundProofs Proofs.InterpFloatProofs Proofs.InterpBinary.
From Verif Require Import Proofs.DrawFloatProofs.
Import ListNotations.
Local Open Scope R_scope.

(** * The last centre *)
Definition micro : f64 := @Bdiv 53 1024 p64 l64 mode_NE (f64_ofZ 1) (f64_ofZ 1000000).

Lemma micro_ok : is_finite micro = true /\ 0 < B2R micro <= 11 / 10000000.
Proof.
  assert (F : is_finite micro = true) by (vm_compute; reflexivity). split; [exact F|].
  destruct (f_val_R micro F) as (q & E & V). rewrite <- V.
  assert (X : exists q', f_val micro = Some q' /\ (0 < q')%Q /\ (q' <= 11 # 10000000)%Q).
  { eexists. split; [vm_compute; reflexivity|]. split; [reflexivity | vm_compute; discriminate]. }
  destruct X as (q' & E' & A & B). rewrite E in E'. injection E' as <-. apply Qlt_Rlt in A. apply Qle_Rle in B.
  rewrite Q2R_0 in A. unfold Q2R in B at 2. cbn [Qnum Qden] in B. lra.
Qed.

Lemma nearest_le : forall fexp (V : Valid_exp fexp) g t, generic_format radix2 fexp g ->
  Rabs (round radix2 fexp ZnearestE t - t) <= Rabs (g - t).
Proof. intros fexp V g t G. apply (round_N_pt radix2 fexp (fun x => negb (Z.even x)) t). exact G. Qed.

Lemma to_f32_rep : forall x : f64, is_finite x = true -> fits (rn32 (B2R x)) -> rep (to_f32 x) (rn32 (B2R x)).
Proof.
  intros [s|s| |s m e H] F B; try discriminate F.
  - cbn [B2R to_f32]. rewrite (rn32_exact 0 float32_0). split; reflexivity.
  - cbn [to_f32]. pose proof (binary_normalize_correct 24 128 p32 l32 mode_NE (SpecFloat.cond_Zopp s (Zpos m)) e s) as C. cbv zeta in C.
    cbn [B2R] in B. fold (rn32 (F2R (Float radix2 (SpecFloat.cond_Zopp s (Zpos m)) e))) in C. cbn [B2R].
    rewrite Rlt_bool_true in C by exact B. destruct C as (C1 & C2 & _). split; [exact C2 | exact C1].
Qed.

Lemma fits_small : forall t, Rabs t <= IZR (2 ^ 25) -> fits t.
Proof.
  intros t H. unfold fits. eapply Rle_lt_trans; [exact H|]. change (IZR (2 ^ 25)) with (bpow radix2 25). apply bpow_lt. lia.
Qed.

Lemma float64_Z : forall z, (Z.abs z < 2 ^ 53)%Z -> generic_format radix2 (SpecFloat.fexp 53 1024) (IZR z).
Proof.
  intros z H. apply (generic_format_FLT radix2 (-1074) 53). exists (Float radix2 z 0); [|exact H | cbn; lia].
  unfold F2R. cbn [Fnum Fexp bpow]. ring.
Qed.

Lemma bound_rep : forall n r, (0 <= r)%Z -> (2 * r + 1 <= n < 2 ^ 24)%Z ->
  exists l, rep (bound32 n r) l /\ IZR (n - r) - 1 / 200000 <= l <= IZR (n - r).
Proof.
  intros n r R0 N. set (m := IZR (n - r)). destruct micro_ok as (FM & MU).
  assert (M1 : 1 <= m) by (apply (IZR_le 1); lia). assert (M2 : m <= IZR (2 ^ 24)) by (apply IZR_le; lia).
  assert (DZ : dy 0 (f64_ofZ (n - r)) (n - r)) by (apply dy_ofZ; lia).
  destruct DZ as [FZ VZ]. assert (VZ' : B2R (f64_ofZ (n - r)) = m) by (rewrite VZ; unfold F2R, m; cbn [Fnum Fexp Z.opp bpow]; ring).
  pose proof (Bminus_correct 53 1024 p64 l64 mode_NE (f64_ofZ (n - r)) micro FZ FM) as C. rewrite VZ' in C.
  set (t := round radix2 (SpecFloat.fexp 53 1024) (round_mode mode_NE) (m - B2R micro)) in *.
  assert (T : Rabs (t - (m - B2R micro)) <= B2R micro).
  { pose proof (nearest_le (SpecFloat.fexp 53 1024) (fexp_correct 53 1024 p64) m (m - B2R micro) (float64_Z (n - r) ltac:(lia))) as X.
    change (round radix2 (SpecFloat.fexp 53 1024) ZnearestE (m - B2R micro)) with t in X.
    replace (m - (m - B2R micro)) with (B2R micro) in X by ring. rewrite (Rabs_pos_eq (B2R micro)) in X by lra. exact X. }
  apply Rabs_le_inv in T. change (IZR (2 ^ 24)) with (IZR 16777216) in M2.
  rewrite Rlt_bool_true in C.
  2: { apply Rle_lt_trans with (IZR (2 ^ 25)); [apply Rabs_le; change (IZR (2 ^ 25)) with (IZR 33554432); split; lra|].
       change (IZR (2 ^ 25)) with (bpow radix2 25). apply bpow_lt. lia. }
  destruct C as (C1 & C2 & _). fold t in C1.
  set (l := rn32 t). 
  assert (L : Rabs (l - t) <= Rabs (m - t)).
  { apply (nearest_le (FLT_exp (-149) 24) (@FLT_exp_valid (-149) 24 p32) m t). apply float32_Z. lia. }
  assert (LM : l <= m).
  { unfold l. rewrite <- (rn32_exact m (float32_Z (n - r) ltac:(lia))). unfold rn32. apply round_le; [apply fexp_correct; reflexivity | apply valid_rnd_round_mode | lra]. }
  rewrite (Rabs_pos_eq (m - t)) in L by lra. apply Rabs_le_inv in L.
  exists l. split; [|lra].
  unfold bound32. fold micro. unfold l. rewrite <- C1. apply to_f32_rep; [exact C2|]. rewrite C1. fold l. apply fits_small.
  apply Rabs_le. change (IZR (2 ^ 25)) with (IZR 33554432). split; lra.
Qed.

(** * Subtracting whole numbers *)
Lemma minus_int : forall c k, float32 c -> 0 <= IZR k <= c -> c < IZR (2 ^ 24) -> float32 (c - IZR k).
Proof.
  intros c k F [K0 K1] C. destruct (Req_dec c 0) as [->|NZ].
  - replace (IZR k) with 0 by lra. rewrite Rminus_0_r. exact F.
  - unfold float32 in F. unfold generic_format in F. set (e := cexp radix2 (FLT_exp (-149) 24) c) in *. set (mt := Ztrunc (scaled_mantissa radix2 (FLT_exp (-149) 24) c)) in *.
    assert (MG : (mag radix2 c <= 24)%Z).
    { apply mag_le_bpow; [exact NZ|]. rewrite Rabs_pos_eq by lra. exact C. }
    assert (E0 : (e <= 0)%Z) by (unfold e, cexp, FLT_exp; lia).
    assert (E1 : (-149 <= e)%Z) by (unfold e, cexp, FLT_exp; lia).
    assert (E2 : (mag radix2 c - 24 <= e)%Z) by (unfold e, cexp, FLT_exp; lia).
    assert (CB : c < bpow radix2 (24 + e)).
    { pose proof (bpow_mag_gt radix2 c) as G. rewrite Rabs_pos_eq in G by lra.
      eapply Rlt_le_trans; [exact G|]. apply bpow_le. lia. }
    assert (V : c - IZR k = F2R (Float radix2 (mt - k * 2 ^ (- e)) e)).
    { unfold F2R. cbn [Fnum Fexp]. rewrite minus_IZR, mult_IZR. rewrite F at 1. unfold F2R. cbn [Fnum Fexp].
      assert (P : IZR (2 ^ (- e)) * bpow radix2 e = 1).
      { change 2%Z with (radix_val radix2). rewrite IZR_Zpower by lia. rewrite <- bpow_plus. replace (- e + e)%Z with 0%Z by lia. reflexivity. }
      rewrite Rmult_minus_distr_r, Rmult_assoc, P. ring. }
    apply (generic_format_FLT radix2 (-149) 24). exists (Float radix2 (mt - k * 2 ^ (- e)) e); [exact V | | exact E1].
    cbn [Fnum]. apply lt_IZR. rewrite abs_IZR. apply Rmult_lt_reg_r with (bpow radix2 e); [apply bpow_gt_0|].
    change (IZR (Zpower radix2 24)) with (bpow radix2 24). rewrite <- bpow_plus.
    rewrite <- (Rabs_pos_eq (bpow radix2 e)) by (apply bpow_ge_0). rewrite <- Rabs_mult. unfold F2R in V. cbn [Fnum Fexp] in V. rewrite <- V.
    rewrite Rabs_pos_eq by lra. lra.
Qed.

(** * One axis *)
Section Axis.
Variables (n r : Z) (p : f32).
Hypothesis R0 : (0 <= r)%Z.
Hypothesis N : (2 * r + 1 <= n < 2 ^ 24)%Z.
Hypothesis FP : finite p.

Definition lastc : Q := value (bound32 n r).
Definition cen : Q := clipQ (inject_Z r) lastc (value p).

Lemma last_far : far n r lastc /\ finite (bound32 n r).
Proof.
  destruct (bound_rep n r R0 N) as (l & L & B). pose proof (proj1 L) as F. split; [|exact F].
  pose proof (value_R _ F) as V. destruct L as [_ L]. rewrite L in V. unfold far.
  replace (1 / 200000) with (Q2R (1 # 200000)) in B by (unfold Q2R; cbn [Qnum Qden]; lra).
  rewrite minus_IZR, <- (Q2R_Z n), <- (Q2R_Z r) in B. rewrite <- V in B.
  rewrite <- !Q2R_minus in B. split; [apply value_float; exact F|]. split; apply Rle_Qle; apply B.
Qed.

Lemma last_ge : (inject_Z r <= lastc)%Q.
Proof.
  destruct last_far as [(_ & A & _) _]. assert (inject_Z r + 1 <= inject_Z n - inject_Z r)%Q.
  { change 1%Q with (inject_Z 1). rewrite <- inject_Z_plus. unfold Qminus. rewrite <- inject_Z_opp, <- inject_Z_plus, <- Zle_Qle. lia. }
  lra.
Qed.

Lemma cen_rep : rep (clip_center32 n r p) (Q2R cen).
Proof.
  unfold clip_center32, cen. destruct last_far as [_ F]. apply rep_clip; [rewrite Q2R_Z; apply rep_ofZ; lia | apply finite_rep; exact F | exact last_ge | exact FP].
Qed.

Lemma cen_spec : (cen == drawn_at lastc r p)%Q.
Proof.
  unfold cen, drawn_at. pose proof last_ge as L. destruct (clipQ_cases (inject_Z r) lastc (value p) L) as [(A & ->)|[(A & ->)|((A & B) & ->)]].
  - rewrite Q.max_l, Q.min_r by lra. reflexivity.
  - rewrite Q.max_r, Q.min_l by lra. reflexivity.
  - rewrite Q.max_r, Q.min_r by lra. reflexivity.
Qed.

Lemma cen_range : (inject_Z r <= cen <= inject_Z n - inject_Z r)%Q.
Proof.
  unfold cen. pose proof last_ge as L. destruct last_far as [(_ & _ & A) _].
  destruct (clipQ_cases (inject_Z r) lastc (value p) L) as [(X & ->)|[(X & ->)|((X & Y) & ->)]]; lra.
Qed.

Lemma cen_R : IZR r <= Q2R cen <= IZR (n - r).
Proof.
  destruct cen_range as [A B]. apply Qle_Rle in A, B. rewrite Q2R_minus, !Q2R_Z in B. rewrite Q2R_Z in A. rewrite minus_IZR. lra.
Qed.

Lemma cen_float : float32 (Q2R cen).
Proof. exact (rep_float _ _ cen_rep). Qed.

Lemma cen_small : Q2R cen < IZR (2 ^ 24).
Proof. pose proof cen_R. assert (IZR (n - r) < IZR (2 ^ 24)) by (apply IZR_lt; lia). lra. Qed.

Definition fl : Z := Qfloor cen.

Lemma fl_R : IZR fl <= Q2R cen < IZR fl + 1.
Proof. unfold fl. rewrite <- floor_Q2R. split; [apply Zfloor_lb | apply Zfloor_ub]. Qed.

Lemma fl_range : (r <= fl <= n - r)%Z.
Proof.
  pose proof cen_R as C. pose proof fl_R as F. split.
  - assert (IZR r < IZR (fl + 1)) by (rewrite plus_IZR; lra). apply lt_IZR in H. lia.
  - apply le_IZR. lra.
Qed.

Lemma first_eq : first32 n r p = (fl - r)%Z.
Proof.
  unfold first32. pose proof cen_R as C. pose proof cen_small as S. pose proof fl_R as F. pose proof fl_range as G.
  assert (K0 : 0 <= IZR r) by (apply (IZR_le 0); exact R0).
  assert (FM : float32 (Q2R cen - IZR r)) by (apply minus_int; [exact cen_float | lra | exact S]).
  assert (X : rep (minus32 (clip_center32 n r p) (f32_ofZ r)) (Q2R cen - IZR r)).
  { unfold minus32. rewrite <- (rn32_exact _ FM). apply rep_sub; [exact cen_rep | apply rep_ofZ; lia|].
    rewrite (rn32_exact _ FM). apply fits_small. rewrite Rabs_pos_eq by lra. change (IZR (2 ^ 25)) with (IZR 33554432).
    change (IZR (2 ^ 24)) with (IZR 16777216) in S. lra. }
  set (x := minus32 (clip_center32 n r p) (f32_ofZ r)) in *. destruct X as [FX VX].
  assert (FL : Qfloor (value x) = (fl - r)%Z).
  { rewrite <- floor_Q2R, (value_R x FX), VX. apply Zfloor_imp. rewrite plus_IZR, minus_IZR. lra. }
  assert (Y : f32_floor x = int32 (Qfloor (value x))).
  { destruct x as [s|s| |s m e H]; try discriminate FX; reflexivity. }
  rewrite Y, FL. unfold int32, clipZ. lia.
Qed.

(** The offset of row (column) [k] from the centre, rounded once. *)
Lemma offset_ok : forall i, (0 <= i < 2 * r + 1)%Z ->
  closest (minus32 (f32_ofZ (i - r)) (minus32 (clip_center32 n r p) (f32_ofZ (first32 n r p + r))))
    (inject_Z (i + first32 n r p) - drawn_at lastc r p).
Proof.
  intros i I. rewrite first_eq. replace (fl - r + r)%Z with fl by lia.
  pose proof cen_R as C. pose proof cen_small as S. pose proof fl_R as F. pose proof fl_range as G.
  assert (K0 : 0 <= IZR fl) by (apply (IZR_le 0); lia).
  assert (FM : float32 (Q2R cen - IZR fl)) by (apply minus_int; [exact cen_float | lra | exact S]).
  assert (X : rep (minus32 (clip_center32 n r p) (f32_ofZ fl)) (Q2R cen - IZR fl)).
  { unfold minus32. rewrite <- (rn32_exact _ FM). apply rep_sub; [exact cen_rep | apply rep_ofZ; lia|].
    rewrite (rn32_exact _ FM). apply fits_small. rewrite Rabs_pos_eq by lra. change (IZR (2 ^ 25)) with (IZR 33554432). lra. }
  assert (E : Q2R (inject_Z (i + (fl - r)) - drawn_at lastc r p) = IZR (i - r) - (Q2R cen - IZR fl)).
  { rewrite Q2R_minus, Q2R_Z, <- (Qeq_eqR _ _ cen_spec), plus_IZR, !minus_IZR. ring. }
  assert (Y : rep (minus32 (f32_ofZ (i - r)) (minus32 (clip_center32 n r p) (f32_ofZ fl))) (rn32 (IZR (i - r) - (Q2R cen - IZR fl)))).
  { unfold minus32 at 1. apply rep_sub; [apply rep_ofZ; lia | exact X|]. apply fits_small.
    assert (A1 : IZR (-16777217) <= IZR (i - r) - (Q2R cen - IZR fl) <= IZR 16777217).
    { assert (IZR (i - r) <= IZR 16777216) by (apply IZR_le; lia). assert (IZR (-16777216) <= IZR (i - r)) by (apply IZR_le; lia).
      change (IZR 16777217) with (IZR (16777216 + 1)). change (IZR (-16777217)) with (IZR (-16777216 - 1)). rewrite plus_IZR, minus_IZR. lra. }
    destruct rn32_rounds as [RR _]. specialize (RR (IZR (i - r) - (Q2R cen - IZR fl))).
    set (t := IZR (i - r) - (Q2R cen - IZR fl)) in *. pose proof u32_small as U. pose proof e32_small as EE.
    assert (AT : Rabs t <= 16777217) by (apply Rabs_le; lra).
    replace (rn32 t) with ((rn32 t - t) + t) by ring. eapply Rle_trans; [apply Rabs_triang|].
    change (IZR (2 ^ 25)) with (IZR 33554432). assert (u32 * Rabs t <= / 1024 * 16777217) by (apply Rmult_le_compat; [lra | apply Rabs_pos | lra | exact AT]). lra. }
  destruct Y as [FY VY]. split; [exact FY|]. rewrite (value_R _ FY), VY, E. reflexivity.
Qed.

Lemma patch_iff : forall k, in_patch r (drawn_at lastc r p) k <-> (0 <= k - first32 n r p < 2 * r + 1)%Z.
Proof.
  intros k. rewrite first_eq. unfold in_patch. rewrite <- cen_spec. pose proof fl_R as F.
  assert (A : (inject_Z (k - r) <= cen)%Q <-> (k - r <= fl)%Z).
  { rewrite Q2R_le, Q2R_Z. split; intros X.
    - assert (IZR (k - r) < IZR (fl + 1)) by (rewrite plus_IZR; lra). apply lt_IZR in H. lia.
    - apply IZR_le in X. lra. }
  assert (B : (cen < inject_Z (k + r) + 1)%Q <-> (fl <= k + r)%Z).
  { split; intros X.
    - apply Qlt_Rlt in X. rewrite Q2R_plus, Q2R_Z, Q2R_1 in X. assert (IZR fl < IZR (k + r + 1)) by (rewrite (plus_IZR (k + r)); lra).
      apply lt_IZR in H. lia.
    - apply Rlt_Qlt. rewrite Q2R_plus, Q2R_Z, Q2R_1. apply IZR_le in X. lra. }
  rewrite A, B. lia.
Qed.

Lemma first_range : (0 <= first32 n r p)%Z.
Proof. rewrite first_eq. pose proof fl_range. lia. Qed.
End Axis.

(** * What reaches a pixel *)
Lemma pick : forall {A} (g : Z -> list A) (l : list Z) k, NoDup l -> (forall i, In i l -> i <> k -> g i = []) ->
  (In k l -> flat_map g l = g k) /\ (~ In k l -> flat_map g l = []).
Proof.
  intros A g l k ND. induction ND as [|x l X ND IH]; intros H; [split; [intros [] | reflexivity]|].
  destruct (IH ltac:(intros i I; apply H; right; exact I)) as [I1 I2]. cbn [flat_map]. split.
  - intros [->|K]; [rewrite I2 by exact X; apply app_nil_r|].
    rewrite (H x (or_introl eq_refl)) by (intros ->; contradiction). apply I1. exact K.
  - intros K. rewrite (H x (or_introl eq_refl)) by (intros ->; apply K; left; reflexivity). apply I2. intros Q. apply K. right. exact Q.
Qed.

Lemma zrange_nodup : forall a b, NoDup (zrange a b).
Proof.
  intros a b. unfold zrange. apply FinFun.Injective_map_NoDup; [intros x y H; lia | apply seq_NoDup].
Qed.

Lemma hits_app : forall H W a b row col, hits H W (a ++ b) row col = (hits H W a row col ++ hits H W b row col)%list.
Proof. intros H W a b row col. unfold hits. apply flat_map_app. Qed.

Lemma flat_map_map : forall {A B C} (f : B -> list C) (g : A -> B) l, flat_map f (map g l) = flat_map (fun x => f (g x)) l.
Proof. intros A B C f g l. induction l as [|x l IH]; [reflexivity|]. cbn [map flat_map]. rewrite IH. reflexivity. Qed.

Lemma flat_map_flat_map : forall {A B C} (f : B -> list C) (g : A -> list B) l, flat_map f (flat_map g l) = flat_map (fun x => flat_map f (g x)) l.
Proof. intros A B C f g l. induction l as [|x l IH]; [reflexivity|]. cbn [flat_map]. rewrite flat_map_app, IH. reflexivity. Qed.

Lemma index_pos : forall n i k, (0 <= i)%Z -> (0 <= k < n)%Z -> scatter_index n i = Some k <-> i = k.
Proof.
  intros n i k I K. unfold scatter_index, wrap. assert (E : (i <? 0)%Z = false) by (apply Z.ltb_ge; lia). rewrite E.
  destruct ((0 <=? i) && (i <? n))%Z eqn:B; [split; [intros X; injection X as ->; reflexivity | intros ->; reflexivity]|].
  split; [discriminate|]. intros ->. apply andb_false_iff in B. destruct B as [B|B]; [apply Z.leb_gt in B | apply Z.ltb_ge in B]; lia.
Qed.

Lemma one_hit : forall (H W row col i j : Z) (v : f32), (0 <= i)%Z -> (0 <= j)%Z -> (0 <= row < H)%Z -> (0 <= col < W)%Z ->
  match scatter_index H i, scatter_index W j with
  | Some a, Some b => if ((a =? row) && (b =? col))%Z then [v] else []
  | _, _ => []
  end = if ((i =? row) && (j =? col))%Z then [v] else [].
Proof.
  intros H W row col i j v I J R C. pose proof (index_pos H i row I R) as A. pose proof (index_pos W j col J C) as B.
  destruct (Z.eqb_spec i row) as [E|E]; [destruct (Z.eqb_spec j col) as [E'|E']|]; cbn [andb].
  - rewrite (proj2 A E), (proj2 B E'), !Z.eqb_refl. reflexivity.
  - rewrite (proj2 A E). destruct (scatter_index W j) as [b|]; [|reflexivity]. destruct (Z.eqb_spec b col) as [->|_]; [exfalso; apply E'; apply B; reflexivity|].
    rewrite andb_false_r. reflexivity.
  - destruct (scatter_index H i) as [a|]; [|reflexivity]. destruct (scatter_index W j) as [b|]; [|reflexivity].
    destruct (Z.eqb_spec a row) as [->|_]; [exfalso; apply E; apply A; reflexivity|]. reflexivity.
Qed.

Section Patch.
Variables (ex : f32 -> f32) (H W r : Z).
Hypothesis R0 : (0 <= r)%Z.
Hypothesis RM : room H W r.

Lemma particle_hits : forall p row col, placed p -> (0 <= row < H)%Z -> (0 <= col < W)%Z ->
  exists o, adds ex (lastc H r) (lastc W r) r p row col o /\
    hits H W (scatter_one32 ex H W r p) row col = match o with Some v => [v] | None => [] end.
Proof.
  intros p row col [FY FX] RR CC. destruct RM as [RH RW].
  pose proof (first_range H r (q_y p) R0 RH FY) as TY. pose proof (first_range W r (q_x p) R0 RW FX) as TX.
  set (ty := first32 H r (q_y p)) in *. set (tx := first32 W r (q_x p)) in *.
  set (val := fun i j => gaussian (f32K ex) (minus32 (f32_ofZ (j - r)) (minus32 (clip_center32 W r (q_x p)) (f32_ofZ (tx + r))))
     (minus32 (f32_ofZ (i - r)) (minus32 (clip_center32 H r (q_y p)) (f32_ofZ (ty + r)))) (f32_ofZ 0) (f32_ofZ 0)
     (div32 (q_dx p) (f32_ofZ 2)) (div32 (q_dy p) (f32_ofZ 2)) (q_rho p) (q_amp p)).
  assert (E : hits H W (scatter_one32 ex H W r p) row col =
    flat_map (fun i => flat_map (fun j => if ((i + ty =? row) && (j + tx =? col))%Z then [val i j] else []) (zrange 0 (2 * r + 1))) (zrange 0 (2 * r + 1))).
  { unfold hits, scatter_one32. cbv zeta. rewrite flat_map_flat_map. fold ty tx.
    rewrite !flat_map_concat_map. f_equal. apply map_ext_in. intros i I. apply in_zrange in I.
    rewrite flat_map_map. rewrite !flat_map_concat_map. f_equal. apply map_ext_in. intros j J. apply in_zrange in J.
    apply one_hit; lia. }
  rewrite E. clear E.
  assert (IN : forall i, flat_map (fun j => if ((i + ty =? row) && (j + tx =? col))%Z then [val i j] else []) (zrange 0 (2 * r + 1)) =
     if ((i + ty =? row) && ((0 <=? col - tx) && (col - tx <? 2 * r + 1)))%Z then [val i (col - tx)%Z] else []).
  { intros i. destruct (Z.eqb_spec (i + ty) row) as [E|E]; cbn [andb].
    - destruct (pick (fun j => if (j + tx =? col)%Z then [val i j] else []) (zrange 0 (2 * r + 1)) (col - tx)%Z (zrange_nodup _ _)) as [P1 P2].
      { intros j J D. destruct (Z.eqb_spec (j + tx) col) as [X|X]; [exfalso; lia | reflexivity]. }
      rewrite in_zrange in P1, P2. destruct ((0 <=? col - tx) && (col - tx <? 2 * r + 1))%Z eqn:B.
      + rewrite P1 by lia. destruct (Z.eqb_spec (col - tx + tx) col) as [_|X]; [reflexivity | lia].
      + apply P2. lia.
    - induction (zrange 0 (2 * r + 1)) as [|j l IH]; [reflexivity | exact IH]. }
  rewrite (flat_map_ext _ _ IN). clear IN.
  destruct (pick (fun i => if ((i + ty =? row) && ((0 <=? col - tx) && (col - tx <? 2 * r + 1)))%Z then [val i (col - tx)%Z] else [])
     (zrange 0 (2 * r + 1)) (row - ty)%Z (zrange_nodup _ _)) as [P1 P2].
  { intros i I D. destruct (Z.eqb_spec (i + ty) row) as [X|X]; [exfalso; lia | reflexivity]. }
  rewrite in_zrange in P1, P2.
  pose proof (patch_iff H r (q_y p) R0 RH FY row) as PY. fold ty in PY.
  pose proof (patch_iff W r (q_x p) R0 RW FX col) as PX. fold tx in PX.
  destruct ((0 <=? row - ty) && (row - ty <? 2 * r + 1))%Z eqn:BY.
  - rewrite P1 by lia. replace (row - ty + ty)%Z with row by lia. rewrite Z.eqb_refl. cbn [andb].
    destruct ((0 <=? col - tx) && (col - tx <? 2 * r + 1))%Z eqn:BX.
    + exists (Some (val (row - ty)%Z (col - tx)%Z)). split; [|reflexivity]. cbn [adds]. split; [apply PY; lia|]. split; [apply PX; lia|].
      eexists _, _. split; [|split; [|reflexivity]].
      * pose proof (offset_ok H r (q_y p) R0 RH FY (row - ty) ltac:(lia)) as O. fold ty in O. replace (row - ty + ty)%Z with row in O by lia. exact O.
      * pose proof (offset_ok W r (q_x p) R0 RW FX (col - tx) ltac:(lia)) as O. fold tx in O. replace (col - tx + tx)%Z with col in O by lia. exact O.
    + exists None. split; [|reflexivity]. cbn [adds]. intros [_ X]. apply PX in X. lia.
  - rewrite P2 by lia. exists None. split; [|reflexivity]. cbn [adds]. intros [X _]. apply PY in X. lia.
Qed.

Lemma all_hits : forall ps row col, Forall placed ps -> (0 <= row < H)%Z -> (0 <= col < W)%Z ->
  lights ex (lastc H r) (lastc W r) r ps row col (hits H W (flat_map (scatter_one32 ex H W r) ps) row col).
Proof.
  intros ps row col F RR CC. induction F as [|p ps P _ (os & O & E)]; [exists []; split; [constructor | reflexivity]|].
  destruct (particle_hits p row col P RR CC) as (o & A & B). exists (o :: os). split; [constructor; assumption|].
  cbn [flat_map]. rewrite hits_app, B, E. reflexivity.
Qed.
End Patch.
