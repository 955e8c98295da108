(** The shipped configurations in float arithmetic. *)
From Coq Require Import List Arith ZArith QArith Qabs Qminmax String Bool Lia Reals Lra.
From Flocq Require Import Core Relative IEEE754.BinarySingleNaN.
From Verif Require Import Prelude Model.PyVal Model.Types Model.Base Model.Files Model.Loaders Model.Episodic Model.Prefetch Model.Sampler Model.Stack.
From Verif Require Import Model.Interp Model.DataGen Model.Geometry Model.Make Model.Synthetic Model.Configured Model.Shipped.
From Verif Require Import Spec.TypesSpec Spec.FilesSpec Spec.MakeSpec Spec.ConfiguredSpec Spec.AcceptSpec Spec.ArithSpec Spec.ShippedSpec.
From Verif Require Import Proofs.MakeProofs Proofs.MakeMore Proofs.ArithProofs.
Import ListNotations.
Local Open Scope string_scope.
Local Open Scope nat_scope.

(** ** Decimal numbers are read as the nearest float *)

Lemma f64_ofQ_nearest : forall q,
  (Rabs (round radix2 (SpecFloat.fexp 53 1024) ZnearestE (IZR (Qnum q) / IZR (Zpos (Qden q)))) < bpow radix2 1024)%R ->
  is_finite (f64_ofQ q) = true /\
  B2R (f64_ofQ q) = round radix2 (SpecFloat.fexp 53 1024) ZnearestE (IZR (Qnum q) / IZR (Zpos (Qden q))).
Proof.
  intros [n d]. cbn [Qnum Qden]. intros H. unfold f64_ofQ. cbn [Qnum Qden].
  assert (F : forall z, F2R (Float radix2 z 0) = IZR z) by (intros z; unfold F2R; cbn; ring).
  destruct n as [|n|n].
  - split; [reflexivity|]. cbn [B2R]. unfold Rdiv. rewrite Rmult_0_l. symmetry. apply round_0. typeclasses eauto.
  - pose proof (proj2 (Bdiv_correct_aux 53 1024 p64 l64 mode_NE false n 0 false d 0)) as C. cbv zeta in C.
    cbn [SpecFloat.cond_Zopp] in C. rewrite !F in C. cbn [round_mode] in C.
    rewrite (Rlt_bool_true _ _ H) in C. destruct C as (E & FI & _).
    rewrite B2R_SF2B, is_finite_SF2B. auto.
  - pose proof (proj2 (Bdiv_correct_aux 53 1024 p64 l64 mode_NE true n 0 false d 0)) as C. cbv zeta in C.
    cbn [SpecFloat.cond_Zopp Z.opp] in C. rewrite !F in C. cbn [round_mode] in C.
    rewrite (Rlt_bool_true _ _ H) in C. destruct C as (E & FI & _).
    rewrite B2R_SF2B, is_finite_SF2B. auto.
Qed.

(** ** The shape of the flow fields enters the geometry in two places only *)

Definition with_shape {N} (c : gcfg N) (s : Z * Z) : gcfg N :=
  mkGcfg N (g_image c) (g_off c) (g_dt c) (g_ffsize c) s (g_res c) (g_vpp c) (g_maxd c) (g_max c) (g_min c) (g_hide c).

Lemma construct_shape : forall N c g fy fx py px, construct N c = Ok g -> (0 < fy)%Z -> (0 < fx)%Z ->
  ceil N (n_mul N (max0 N (n_neg N (fst (l_pbo g)))) (n_div N (n_ofZ N fy) (fst (g_ffsize c)))) = Ok py ->
  ceil N (n_mul N (max0 N (n_neg N (snd (l_pbo g)))) (n_div N (n_ofZ N fx) (snd (g_ffsize c)))) = Ok px ->
  exists res, construct N (with_shape c (fy, fx)) = Ok (mkGeom N res (o_out g) (py, px) (o_pbo g) (o_off g) (o_pb g) (l_pbo g) (l_pb g)).
Proof.
  intros N c g fy fx py px H Py Px. revert H. unfold construct.
  cbn [with_shape g_image g_off g_dt g_ffsize g_ffshape g_res g_vpp g_maxd g_max g_min g_hide fst snd].
  rewrite (proj2 (Z.ltb_lt 0 fy) Py), (proj2 (Z.ltb_lt 0 fx) Px). cbn [andb negb].
  repeat match goal with
  | |- (if ?b then Err _ else _) = _ -> _ => destruct b; [discriminate|]
  | |- (let _ := _ in _) = _ -> _ => cbv zeta
  | |- bind (int N ?x) _ = _ -> _ => destruct (int N x); cbn [bind]; [|discriminate]
  | |- bind (ceil N ?x) _ = _ -> _ => destruct (ceil N x); cbn [bind]; [|discriminate]
  end.
  intros E. apply (f_equal (fun r => match r with Ok x => x | Err _ => g end)) in E. cbv beta iota in E. subst g. cbn [l_pbo fst snd o_out o_pbo o_off o_pb l_pb]. intros -> ->. cbn [bind]. eexists. reflexivity.
Qed.

(** With no need to pad, any finite number of points per unit will do. *)
Lemma no_padding : forall x r, is_finite r = true -> f64_ltb (f64_ofZ 0) (Bopp x) = false ->
  ceil float64 (n_mul float64 (max0 float64 (n_neg float64 x)) r) = Ok 0%Z.
Proof.
  intros x r FR H. unfold max0, ceil. cbn [float64 n_neg n_mul n_ltb n_ofZ n_ceil]. rewrite H.
  assert (Z0 : f64_ofZ 0 = B754_zero false) by reflexivity. rewrite Z0.
  destruct r as [s|s| |s m e E]; try discriminate; reflexivity.
Qed.

Lemma quotient_finite : forall n s, (0 < n < 2 ^ 31)%Z -> is_finite s = true -> (1 <= B2R s)%R ->
  is_finite (@Bdiv 53 1024 p64 l64 mode_NE (f64_ofZ n) s) = true.
Proof.
  intros n s Hn FS S1.
  assert (VF : Valid_exp (SpecFloat.fexp 53 1024)) by (apply (fexp_correct 53 1024); exact p64).
  assert (N31 : (0 < IZR n < bpow radix2 31)%R).
  { change (bpow radix2 31) with (IZR (2 ^ 31)). split; apply IZR_lt; lia. }
  pose proof (binary_normalize_correct 53 1024 p64 l64 mode_NE n 0 false) as C. cbv zeta in C.
  assert (E : F2R (Float radix2 n 0) = IZR n) by (unfold F2R; cbn; ring). rewrite E in C.
  assert (B1 : forall x, (0 <= x <= bpow radix2 31)%R -> (0 <= round radix2 (SpecFloat.fexp 53 1024) ZnearestE x <= bpow radix2 31)%R).
  { intros x [X1 X2]. split.
    - rewrite <- (round_0 radix2 (SpecFloat.fexp 53 1024) ZnearestE). apply round_le; [exact VF | typeclasses eauto | exact X1].
    - rewrite <- (round_generic radix2 (SpecFloat.fexp 53 1024) ZnearestE (bpow radix2 31)).
      + apply round_le; [exact VF | typeclasses eauto | exact X2].
      + apply generic_format_bpow. vm_compute. discriminate. }
  assert (B2 : (bpow radix2 31 < bpow radix2 1024)%R) by (apply bpow_lt; lia).
  cbn [round_mode] in C.
  destruct (B1 (IZR n)) as [R1 R2]; [lra|].
  rewrite Rlt_bool_true in C by (rewrite Rabs_pos_eq; lra). destruct C as (V & FN & _).
  assert (SZ : B2R s <> 0%R) by lra.
  pose proof (Bdiv_correct 53 1024 p64 l64 mode_NE (f64_ofZ n) s SZ) as D. cbn [round_mode] in D.
  assert (Q1 : (0 <= B2R (f64_ofZ n) / B2R s <= bpow radix2 31)%R).
  { unfold f64_ofZ. rewrite V. split.
    - apply Rmult_le_pos; [exact R1 | apply Rlt_le, Rinv_0_lt_compat; lra].
    - apply Rmult_le_reg_r with (B2R s); [lra|]. unfold Rdiv. rewrite Rmult_assoc, Rinv_l, Rmult_1_r by lra.
      apply Rle_trans with (bpow radix2 31 * 1)%R; [lra|]. apply Rmult_le_compat_l; [apply bpow_ge_0 | exact S1]. }
  destruct (B1 _ Q1) as [R3 R4]. rewrite Rlt_bool_true in D by (rewrite Rabs_pos_eq; lra).
  destruct D as (_ & FD & _). rewrite FD. unfold f64_ofZ. exact FN.
Qed.

(** ** Building the scheduler *)

Lemma at_least_one : forall s, is_finite s = true -> Bleb (@Bone 53 1024 p64 l64) s = true -> (1 <= B2R s)%R.
Proof.
  intros s F H. rewrite (Bleb_correct 53 1024 _ _ (is_finite_Bone _ _ p64 l64) F), Bone_correct in H.
  destruct (Rle_bool_spec 1 (B2R s)); [assumption | discriminate].
Qed.

Lemma all_same : forall {A} n (l : list A) v, List.length l = n -> (forall i, i < n -> nth_error l i = Some v) -> l = repeat v n.
Proof.
  intros A n. induction n as [|n IH]; intros l v L H.
  - destruct l; [reflexivity | discriminate].
  - destruct l as [|x l]; [discriminate|]. pose proof (H 0 ltac:(lia)) as E. injection E as ->. cbn [repeat]. f_equal.
    apply IH; [cbn in L; lia|]. intros i Hi. exact (H (S i) ltac:(lia)).
Qed.
Lemma first_same : forall {A} n (l : list A) v, (forall i, i < n -> nth_error l i = Some v) -> firstn n l = repeat v n.
Proof.
  intros A n. induction n as [|n IH]; intros l v H; [reflexivity|].
  destruct l as [|x l]; [discriminate (H 0 ltac:(lia))|]. pose proof (H 0 ltac:(lia)) as E. injection E as ->. cbn [repeat firstn]. f_equal.
  apply IH. intros i Hi. exact (H (S i) ltac:(lia)).
Qed.

Lemma found_stage : forall w d cls entries files,
  file_settings d entries false true -> found w cls entries files ->
  let a := mkFattrs cls false (256, 256) in
  let c := mkCfg (loader_for w a) (w_rng w) false true in
  file_stage w d a c (init c files (Seed 0)).
Proof.
  intros w d cls entries files FS (segs & F1 & -> & F2 & F3 & F4) a c. constructor.
  - reflexivity.
  - split; reflexivity.
  - exists entries, segs. split; [exact FS|]. split; [exact F1|]. split; [exact F2|]. split; [exact F3|]. split; [reflexivity|].
    cbn [a fa_class]. destruct cls; exact F4.
Qed.

Lemma stage_found : forall w d a c s entries, file_stage w d a c s -> file_settings d entries false true ->
  exists files, found w (fa_class a) entries files /\ s = init c files (Seed 0) /\ c_randomize c = false /\ c_loop c = true.
Proof.
  intros w d a c s entries [_ _ (fl & segs & (G1 & G2 & G3) & F1 & F2 & F3 & -> & F4)] (H1 & H2 & H3).
  assert (E1 : map PStr fl = map PStr entries).
  { pose proof (setting_unique _ _ _ _ _ G1 H1) as E. injection E as E. exact E. }
  assert (E2 : fl = entries).
  { clear - E1. revert entries E1. induction fl as [|x fl IH]; intros [|y e] H; try discriminate; [reflexivity|].
    cbn in H. injection H as -> H. f_equal. apply IH, H. }
  pose proof (setting_unique _ _ _ _ _ G2 H2) as E3. injection E3 as E3.
  pose proof (setting_unique _ _ _ _ _ G3 H3) as E4. injection E4 as E4.
  subst entries. exists (List.concat segs). split; [|auto]. exists segs. split; [exact F1|]. split; [reflexivity|]. split; [exact F2|]. split; [exact F3|].
  assert (EF : s_files (init c (List.concat segs) (Seed 0)) = List.concat segs) by (unfold init; rewrite E3; reflexivity).
  destruct (fa_class a); [exact F4 | rewrite EF in F4; exact F4..].
Qed.
