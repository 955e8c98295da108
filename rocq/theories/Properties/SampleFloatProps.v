(** Property C113: sampling the particles in float arithmetic. *)
From Coq Require Import List Arith ZArith QArith Qround Qreals Bool Reals Lia Lqa Lra.
From Flocq Require Import Core IEEE754.BinarySingleNaN.
From Verif Require Import Prelude Model.Interp Model.Geometry Model.Render Model.InterpFloat Model.HistFloat Model.DrawFloat Model.MoveFloat Model.SampleFloat.
From Verif Require Import Spec.RenderSpec Spec.InterpFloatSpec Spec.DrawFloatSpec Spec.KernelFloatSpec Spec.MoveFloatSpec Spec.SampleFloatSpec.
From Verif Require Import Proofs.InterpProofs Proofs.FloatProofs Proofs.InterpFloatProofs Proofs.InterpBinary Proofs.DrawFloatProofs Proofs.PlaceFloatProofs Proofs.DrawnPixel Proofs.KernelError Proofs.KernelFloatProofs Proofs.KernelImage Proofs.MoveFloatProofs Proofs.HistFloatProofs Proofs.SampleFloatProofs.
Import ListNotations.
Local Open Scope R_scope.

(** * C113 *)
(** A draw from a range stays in the range, with and without a fused product, and
    is the exact number up to rounding. *)
Theorem C113_range : forall fused lo hi k, finite lo -> finite hi -> real lo <= real hi ->
  Rabs (real lo) <= bpow radix2 126 -> Rabs (real hi) <= bpow radix2 126 -> bits23 k ->
  lies_in (lo, hi) (draw32 fused lo hi k) /\
  Rabs (real (draw32 fused lo hi k) - (real lo + unit_of k * (real hi - real lo))) <=
    2 / 16777216 * (real hi - real lo) + / 16777216 * Rmax (Rabs (real lo)) (Rabs (real hi)) + bpow radix2 (-149).
Proof.
  intros fused lo hi k FL FH LH BL BH K. split; [apply drawn_lies; assumption|].
  pose proof (drawn_error fused lo hi k FL FH LH BL BH K) as E. unfold u in E.
  replace (bpow radix2 (-149)) with (2 * e32) by (unfold e32; change 2 with (bpow radix2 1); rewrite <- bpow_plus; reflexivity). lra.
Qed.
Print Assumptions C113_range.

(** The upper end is not excluded. *)
Theorem C113_half_open_refuted : exists lo hi k, finite lo /\ finite hi /\ real lo < real hi /\ bits23 k /\
  forall fused, real (draw32 fused lo hi k) = real hi.
Proof.
  exists (f32_ofZ 1), (plus32 (f32_ofZ 1) (unit32 1)), 8388607%Z. split; [vm_compute; reflexivity|]. split; [vm_compute; reflexivity|].
  split; [apply Qlt_Rlt; vm_compute; reflexivity|]. split; [split; vm_compute; [discriminate | reflexivity]|].
  intros [|]; apply Qeq_eqR; vm_compute; reflexivity.
Qed.
Print Assumptions C113_half_open_refuted.

(** A position never reaches the far end of the simulated area. *)
Theorem C113_position : forall k n, bits23 k -> (1 <= n < 2 ^ 24)%Z ->
  finite (mult32 (unit32 k) (f32_ofZ n)) /\ 0 <= real (mult32 (unit32 k) (f32_ofZ n)) < IZR n /\
  Rabs (real (mult32 (unit32 k) (f32_ofZ n)) - unit_of k * IZR n) <= / 16777216 * IZR n.
Proof. intros k n K N. exact (spot_ok k n K N). Qed.
Print Assumptions C113_position.

(** The number of particles switched on: the floor of area times density or one
    more, as far as the array goes; never more than the array holds, and at most
    one less than the lowest density asks for. *)
Theorem C113_count : forall fused pb range k ql qh n, bits23 k -> (1 <= area_of pb < 2 ^ 24)%Z ->
  f_val (fst range) = Some ql -> f_val (snd range) = Some qh -> (0 <= ql)%Q -> (ql <= qh)%Q ->
  (inject_Z (area_of pb) * qh <= 8388608)%Q -> num64 pb (snd range) = Some n ->
  let d := density32 fused range k in let lit := Z.of_nat (visible pb d (Z.to_nat n)) in
  (Qfloor (inject_Z (area_of pb) * qh) <= n <= Qfloor (inject_Z (area_of pb) * qh) + 1)%Z /\
  (lit <= n)%Z /\ (Qfloor (inject_Z (area_of pb) * ql) - 1 <= lit)%Z /\ ((ql == qh)%Q -> (n - 1 <= lit)%Z) /\
  exists c, (c = Qfloor (inject_Z (area_of pb) * value d) \/ c = Qfloor (inject_Z (area_of pb) * value d) + 1)%Z /\ lit = Z.min n c.
Proof.
  intros fused pb range k ql qh n K A EL EH Q0 Q1 Q2 EN d lit.
  destruct (all_number pb (snd range) qh A EH ltac:(Lqa.lra) Q2) as (t & ET & T0 & TE & TN). rewrite EN in ET. injection ET as ->.
  assert (A1 : 1 <= IZR (area_of pb)) by (apply (IZR_le 1); lia). assert (A2 : IZR (area_of pb) <= 16777216) by (apply (IZR_le _ 16777216); lia).
  assert (QL : 0 <= Q2R ql) by (rewrite <- Q2R_0; apply Qle_Rle; exact Q0). pose proof (Qle_Rle _ _ Q1) as QLH. pose proof (Qle_Rle _ _ Q2) as QB.
  rewrite Q2R_mult, Q2R_Z in QB. change (8388608)%Q with (inject_Z 8388608) in QB. rewrite Q2R_Z in QB.
  assert (QH8 : (qh <= 8388608)%Q).
  { apply Rle_Qle. change (8388608)%Q with (inject_Z 8388608). rewrite Q2R_Z. apply Rle_trans with (IZR (area_of pb) * Q2R qh); [|exact QB].
    rewrite <- (Rmult_1_l (Q2R qh)) at 1. apply Rmult_le_compat_r; lra. }
  destruct (density_lies fused range k ql qh K EL EH Q0 Q1 QH8) as (FD & DL & DH). fold d in FD, DL, DH.
  assert (RE : forall q, 0 <= q -> Rabs (IZR (area_of pb) * rn32 q - IZR (area_of pb) * q) <= u * (IZR (area_of pb) * q) + / 1000).
  { intros q Q. rewrite <- Rmult_minus_distr_l, Rabs_mult, (Rabs_pos_eq (IZR (area_of pb))) by lra. pose proof (rn32_err q) as E. rewrite (Rabs_pos_eq q Q) in E.
    apply Rle_trans with (IZR (area_of pb) * (u * q + e32)); [apply Rmult_le_compat_l; lra|].
    assert (E0 : 16777216 * e32 <= / 1000).
    { unfold e32. change 16777216 with (bpow radix2 24). rewrite <- bpow_plus. apply Rle_trans with (bpow radix2 (-20)); [apply bpow_le; lia|]. change (bpow radix2 (-20)) with (/ 1048576). lra. }
    assert (IZR (area_of pb) * e32 <= 16777216 * e32) by (apply Rmult_le_compat_r; [apply e32_small | exact A2]). lra. }
  assert (D0 : 0 <= real d) by (eapply Rle_trans; [apply rn32_pos; exact QL | exact DL]).
  assert (AQL : 0 <= IZR (area_of pb) * Q2R ql <= 8388608).
  { split; [apply Rmult_le_pos; lra|]. apply Rle_trans with (IZR (area_of pb) * Q2R qh); [apply Rmult_le_compat_l; lra | exact QB]. }
  assert (AQH : 0 <= IZR (area_of pb) * Q2R qh) by (apply Rmult_le_pos; lra).
  assert (DU : IZR (area_of pb) * real d <= 8388610).
  { apply Rle_trans with (IZR (area_of pb) * rn32 (Q2R qh)); [apply Rmult_le_compat_l; lra|]. pose proof (RE (Q2R qh) ltac:(lra)) as E. apply Rabs_le_inv in E. unfold u in E. lra. }
  assert (DLO : IZR (area_of pb) * Q2R ql - 6 / 10 <= IZR (area_of pb) * real d).
  { apply Rle_trans with (IZR (area_of pb) * rn32 (Q2R ql)); [|apply Rmult_le_compat_l; lra]. pose proof (RE (Q2R ql) QL) as E. apply Rabs_le_inv in E. unfold u in E. lra. }
  destruct (lit_number pb d (Z.to_nat (Zfloor t)) A FD D0) as (c & C1 & C2 & C3); [apply Rle_lt_trans with 8388610; [exact DU | apply IZR_lt; reflexivity]|].
  assert (N0 : (0 <= Zfloor t)%Z) by (apply Zfloor_lub; exact T0).
  assert (LIT : lit = Z.min (Zfloor t) c) by (unfold lit; rewrite C3; lia).
  assert (FD' : Qfloor (inject_Z (area_of pb) * value d) = Zfloor (IZR (area_of pb) * real d)) by (rewrite <- floor_Q2R, Q2R_mult, Q2R_Z; reflexivity).
  assert (FL' : Qfloor (inject_Z (area_of pb) * ql) = Zfloor (IZR (area_of pb) * Q2R ql)) by (rewrite <- floor_Q2R, Q2R_mult, Q2R_Z; reflexivity).
  assert (FH' : Qfloor (inject_Z (area_of pb) * qh) = Zfloor (IZR (area_of pb) * Q2R qh)) by (rewrite <- floor_Q2R, Q2R_mult, Q2R_Z; reflexivity).
  split; [exact TN|]. split; [lia|]. split; [|split].
  - assert (M1 : (Zfloor (IZR (area_of pb) * Q2R ql) - 1 <= Zfloor (IZR (area_of pb) * real d))%Z).
    { apply Zfloor_lub. rewrite minus_IZR. pose proof (Zfloor_lb (IZR (area_of pb) * Q2R ql)). lra. }
    assert (M2 : (Zfloor (IZR (area_of pb) * Q2R ql) <= Zfloor (IZR (area_of pb) * Q2R qh))%Z) by (apply Zfloor_le; apply Rmult_le_compat_l; lra). lia.
  - intros Q. apply Qeq_eqR in Q. rewrite Q in DLO. assert (M1 : (Zfloor t - 1 <= Zfloor (IZR (area_of pb) * real d))%Z).
    { apply Zfloor_lub. rewrite minus_IZR. pose proof (Zfloor_lb t). apply Rabs_le_inv in TE. lra. }
    lia.
  - exists c. split; [exact C1 | exact LIT].
Qed.
Print Assumptions C113_count.

(** Particle number [i] shines in an image when it is switched on and its draw is
    below the chance to be shown; then its brightness is from the chosen range. *)
Theorem C113_bright : forall fused recip g sp pb n rx ry key_i d f i, fair g -> sound_spec sp -> finite (t_hide1 sp) -> finite (t_hide2 sp) ->
  exists ir, In ir (t_intensities sp) /\
  let p1 := first32p fused g sp pb n key_i d i in
  let p2 := second32p fused recip g sp pb n rx ry key_i d f i in
  ((mixed32 pb d i = true /\ unit_of (s_bits g (Child key_i 0) n i) < real (t_hide1 sp)) /\ lies_in ir (q_amp p1) \/
   (mixed32 pb d i = false \/ real (t_hide1 sp) <= unit_of (s_bits g (Child key_i 0) n i)) /\ real (q_amp p1) = 0) /\
  ((mixed32 pb d i = true /\ unit_of (s_bits g (Child key_i 1) n i) < real (t_hide2 sp)) /\ lies_in ir (q_amp p2) \/
   (mixed32 pb d i = false \/ real (t_hide2 sp) <= unit_of (s_bits g (Child key_i 1) n i)) /\ real (q_amp p2) = 0).
Proof.
  intros fused recip g sp pb n rx ry key_i d f i G SP H1 H2. eexists. split; [exact (ir_in g sp SP key_i)|]. cbv zeta.
  destruct (params_in fused g sp n G SP key_i i) as [P1 P2].
  assert (T : forall (k : key) (p x y v : f32), finite p -> real x = (if shown32 g n k p i && mixed32 pb d i then real v else 0) -> finite x ->
    lies_in (pick32 (t_intensities sp) (s_randint g (Child key_i 7) (List.length (t_intensities sp)))) v ->
    (mixed32 pb d i = true /\ unit_of (s_bits g k n i) < real p) /\ lies_in (pick32 (t_intensities sp) (s_randint g (Child key_i 7) (List.length (t_intensities sp)))) x \/
    (mixed32 pb d i = false \/ real p <= unit_of (s_bits g k n i)) /\ real x = 0).
  { intros k p x _ v FP E FX [FV RV]. pose proof (shown_iff g n k p i G FP) as S. destruct (shown32 g n k p i); destruct (mixed32 pb d i); cbn [andb] in E.
    - left. split; [split; [reflexivity | apply S; reflexivity]|]. split; [exact FX | rewrite E; exact RV].
    - right. split; [left; reflexivity | exact E].
    - right. split; [right | exact E]. destruct (Rlt_le_dec (unit_of (s_bits g k n i)) (real p)) as [L|L]; [apply S in L; discriminate L | exact L].
    - right. split; [left; reflexivity | exact E]. }
  split.
  - unfold first32p. destruct (position32 g pb n key_i i) as [y x]. destruct (fst (params32 fused g sp n key_i i)) as [[[dx dy] rho] amp]. destruct P1 as (_ & _ & _ & D). cbn [q_amp].
    destruct (amp_ok g sp SP key_i amp (shown32 g n (Child key_i 0) (t_hide1 sp) i) (mixed32 pb d i) D) as [F V]. apply (T _ _ _ amp amp H1 V F D).
  - unfold second32p. destruct (second_position32 _ _ _ _ _ _ _) as [y x]. destruct (snd (params32 fused g sp n key_i i)) as [[[dx dy] rho] amp]. destruct P2 as (_ & _ & _ & D). cbn [q_amp].
    destruct (amp_ok g sp SP key_i amp (shown32 g n (Child key_i 1) (t_hide2 sp) i) (mixed32 pb d i) D) as [F V]. apply (T _ _ _ amp amp H2 V F D).
Qed.
Print Assumptions C113_bright.

(** All particles of both images have parameters from one range of each list;
    those of the first lie inside the area, those of the second at finite places;
    their kernels are well conditioned. *)
Theorem C113_particles : forall fused recip g sp pb n rx ry key_i d f M, fair g -> sound_spec sp -> bounds_ok pb ->
  flow_within M f -> M <= bpow radix2 20 -> within (bpow radix2 20) rx -> within (bpow radix2 20) ry ->
  let ps1 := firsts32 fused g sp pb n key_i d in
  let ps2 := seconds32 fused recip g sp pb n rx ry key_i d f in
  (exists dr ir rr, In dr (t_diameters sp) /\ In ir (t_intensities sp) /\ In rr (t_rhos sp) /\
    Forall (within_ranges dr ir rr) ps1 /\ Forall (within_ranges dr ir rr) ps2) /\
  Forall (in_box pb) ps1 /\ Forall placed ps1 /\ Forall placed ps2 /\ Forall ordinary ps1 /\ Forall ordinary ps2 /\
  List.length ps1 = n /\ List.length ps2 = n.
Proof.
  intros fused recip g sp pb n rx ry key_i d f M G SP PB FW BM RX RY ps1 ps2.
  assert (A1 : forall P : particle32 -> Prop, (forall i, P (first32p fused g sp pb n key_i d i)) -> Forall P ps1) by (intros P H; apply Forall_forall; intros p I; apply in_map_iff in I; destruct I as (i & <- & _); apply H).
  assert (A2 : forall P : particle32 -> Prop, (forall i, P (second32p fused recip g sp pb n rx ry key_i d f i)) -> Forall P ps2) by (intros P H; apply Forall_forall; intros p I; apply in_map_iff in I; destruct I as (i & <- & _); apply H).
  split.
  - do 3 eexists. split; [exact (dr_in g sp SP key_i)|]. split; [exact (ir_in g sp SP key_i)|]. split; [exact (rr_in g sp SP key_i)|].
    split; [apply A1; intros i; apply first_in; assumption | apply A2; intros i; apply second_in; assumption].
  - split; [apply A1; intros i; apply first_box; assumption|].
    split; [apply A1; intros i; destruct (first_box fused g sp pb n G PB key_i d i) as (K1 & K2 & _); split; assumption|].
    split; [apply A2; intros i; apply (second_placed fused recip g sp pb n rx ry G SP PB key_i d f i M); assumption|].
    split; [apply A1; intros i; apply (ranges_ordinary g sp SP key_i); apply first_in; assumption|].
    split; [apply A2; intros i; apply (ranges_ordinary g sp SP key_i); apply second_in; assumption|].
    unfold ps1, ps2, firsts32, seconds32. rewrite !map_length, !seq_length. split; reflexivity.
Qed.
Print Assumptions C113_particles.

(** So both images are the mathematical pictures of the sampled particles up to
    rounding, whatever is drawn. *)
Theorem C113_images : forall ex eps fused recip g sp pb n rx ry key_i d f M maxd r im1 im2, 0 <= eps <= 1 -> exp_within eps ex -> exp_unit ex ->
  fair g -> sound_spec sp -> flow_within M f -> M <= bpow radix2 20 -> within (bpow radix2 20) rx -> within (bpow radix2 20) ry ->
  (0 <= maxd)%Q -> radius_of maxd r -> (1 <= r)%Z -> room (fst pb) (snd pb) r -> (Z.of_nat n <= 2 ^ 23)%Z ->
  let ps1 := firsts32 fused g sp pb n key_i d in
  let ps2 := seconds32 fused recip g sp pb n rx ry key_i d f in
  drawn32 ex ps1 (fst pb) (snd pb) maxd false im1 -> drawn32 ex ps2 (fst pb) (snd pb) maxd false im2 ->
  exists lasty lastx, far (fst pb) r lasty /\ far (snd pb) r lastx /\
    forall row col, (0 <= row < fst pb)%Z -> (0 <= col < snd pb)%Z ->
    (exists m s t a, picture eps lasty lastx r row col ps1 m s t a /\ finite (g_at im1 row col) /\
      Rabs (real (g_at im1 row col) - s) <= t + (Q2R (grow (Nat.pred m)) - 1) * a) /\
    (exists m s t a, picture eps lasty lastx r row col ps2 m s t a /\ finite (g_at im2 row col) /\
      Rabs (real (g_at im2 row col) - s) <= t + (Q2R (grow (Nat.pred m)) - 1) * a).
Proof.
  intros ex eps fused recip g sp pb n rx ry key_i d f M maxd r im1 im2 EPS EX EU G SP FW BM RX RY MD RO R1 RM N ps1 ps2 D1 D2.
  assert (PB : bounds_ok pb) by (destruct RM; split; lia).
  destruct (C113_particles fused recip g sp pb n rx ry key_i d f M G SP PB FW BM RX RY) as (_ & _ & P1 & P2 & O1 & O2 & L1 & L2). fold ps1 in P1, O1, L1. fold ps2 in P2, O2, L2.
  exists (lastc (fst pb) r), (lastc (snd pb) r). destruct (lasts (fst pb) (snd pb) maxd r MD RO RM) as [F1 F2]. split; [exact F1|]. split; [exact F2|]. intros row col A B.
  split.
  - exact (picture_pixel ex eps ps1 (fst pb) (snd pb) maxd r false im1 row col EPS EX EU MD RO R1 RM P1 O1 ltac:(rewrite L1; exact N) D1 A B).
  - exact (picture_pixel ex eps ps2 (fst pb) (snd pb) maxd r false im2 row col EPS EX EU MD RO R1 RM P2 O2 ltac:(rewrite L2; exact N) D2 A B).
Qed.
Print Assumptions C113_images.

(** A density of 0.009 on 100 by 100 pixels makes room for ninety particles, and
    eighty-nine of them are switched on. *)
Definition nine : f64 := @Bdiv 53 1024 p64 l64 mode_NE (f64_ofZ 9) (f64_ofZ 1000).
Theorem C113_count_refuted : exists pb x, num64 pb x = Some 90%Z /\
  forall fused k, bits23 k -> visible pb (density32 fused (x, x) k) 90 = 89%nat.
Proof.
  exists (100, 100)%Z, nine. split; [vm_compute; reflexivity|]. intros fused k K.
  assert (E : exists q, f_val nine = Some q) by (eexists; vm_compute; reflexivity). destruct E as [q E].
  assert (QB : (0 <= q /\ q <= 1)%Q) by (vm_compute in E; injection E as <-; split; vm_compute; discriminate).
  destruct (density_lies fused (nine, nine) k q q K E E) as (F & L & H); [apply QB | Lqa.lra | Lqa.lra |].
  destruct (single_of nine q E) as (F' & V & _); [Lqa.lra|].
  assert (EQ : (value (density32 fused (nine, nine) k) == value (to_f32 nine))%Q).
  { apply eqR_Qeq. fold (real (density32 fused (nine, nine) k)). fold (real (to_f32 nine)). lra. }
  assert (EF : (value (mult32 (f32_ofZ 10000) (density32 fused (nine, nine) k)) == value (mult32 (f32_ofZ 10000) (to_f32 nine)))%Q).
  { apply eqR_Qeq. assert (FITS : fits (rn32 (IZR 10000 * real (to_f32 nine)))).
    { apply (rn_bound _ 20); [lia|]. rewrite Rabs_mult, (Rabs_pos_eq (IZR 10000)) by lra.
      assert (Rabs (real (to_f32 nine)) <= 1).
      { rewrite V. pose proof (Qle_Rle _ _ (proj1 QB)) as Q0. pose proof (Qle_Rle _ _ (proj2 QB)) as Q1. rewrite Q2R_0 in Q0. rewrite Q2R_1 in Q1.
        rewrite Rabs_pos_eq by (apply rn32_pos; exact Q0). apply rn_le; [apply (bpow_float 0); lia | exact Q1]. }
      change (bpow radix2 20) with 1048576. lra. }
    pose proof (rep_mul _ _ _ _ (rep_ofZ 10000 ltac:(lia)) (real_rep _ F')) as M1.
    pose proof (rep_mul _ _ _ _ (rep_ofZ 10000 ltac:(lia)) (real_rep _ F)) as M2.
    replace (real (density32 fused (nine, nine) k)) with (real (to_f32 nine)) in M2 by (unfold real; symmetry; apply Qeq_eqR; exact EQ).
    destruct (rep_real _ _ (M1 FITS)) as [_ X1]. destruct (rep_real _ _ (M2 FITS)) as [_ X2]. unfold real in X1, X2 at 1. unfold mult32. rewrite X1. exact X2. }
  assert (FM : exists m, f_val (mult32 (f32_ofZ (fst (100, 100)%Z * snd (100, 100)%Z)) (density32 fused (nine, nine) k)) = Some m /\ Qfloor m = 89%Z).
  { change (fst (100, 100)%Z * snd (100, 100)%Z)%Z with 10000%Z. unfold value at 1 in EF. destruct (f_val (mult32 (f32_ofZ 10000) (density32 fused (nine, nine) k))) as [m|].
    - exists m. split; [reflexivity|]. rewrite EF. vm_compute. reflexivity.
    - exfalso. revert EF. vm_compute. discriminate. }
  destruct FM as (m & FM & FL). rewrite (visible_count _ _ m 90 FM) by lia. rewrite FL. reflexivity.
Qed.
Print Assumptions C113_count_refuted.

(** Ranges as in the examples of the project: diameters 0.8 to 1.2, brightness 80
    to 100 or 0 to 255, correlations -0.5 to 0.5. *)
Definition tenths (z : Z) : f32 := div32 (f32_ofZ z) (f32_ofZ 10).
Definition plain : spec32 :=
  mkSpec32 (f32_ofZ 1) (f32_ofZ 1) [(tenths 8, tenths 12)] (tenths 1) [(f32_ofZ 80, f32_ofZ 100); (f32_ofZ 0, f32_ofZ 255)] (f32_ofZ 1)
    [(tenths (-5), tenths 5)] (tenths 1) (f32_ofZ 1).
Definition halves : source32 := mkSource32 (fun _ _ i => Z.of_nat i mod 2 ^ 23)%Z (fun _ _ _ => tenths 3) (fun _ _ => 0%nat).

Lemma in_range : forall a b qa qb lo hi, Q2R qa = a -> Q2R qb = b -> finite lo -> finite hi -> (qa <= value lo)%Q -> (value lo <= value hi)%Q -> (value hi <= qb)%Q -> range_in a b (lo, hi).
Proof. intros a b qa qb lo hi <- <- F1 F2 A B C. unfold range_in, real. cbn [fst snd]. repeat split; try assumption; apply Qle_Rle; assumption. Qed.

Example C113_case : fair halves /\ sound_spec plain /\ finite (t_hide1 plain) /\ finite (t_hide2 plain) /\
  (exists ql n, f_val nine = Some ql /\ (0 <= ql)%Q /\ (inject_Z (area_of (100, 100)%Z) * ql <= 8388608)%Q /\ num64 (100, 100)%Z nine = Some n) /\
  let p := first32p false halves plain (100, 100)%Z 90 (Seed 0) (tenths 1) 7 in
  (value (q_amp p) == 80 + (1 # 131072) * 2)%Q /\ (value (q_x p) == (1500 # 8388608))%Q.
Proof.
  split; [split; [intros k n i; cbn [halves s_bits]; pose proof (Z.mod_pos_bound (Z.of_nat i) (2 ^ 23) ltac:(lia)); unfold bits23; lia | intros; vm_compute; reflexivity]|].
  split.
  { unfold sound_spec. cbn [plain t_diameters t_diameter_std t_intensities t_intensity_std t_rhos t_rho_std t_dt].
    assert (Q1 : Q2R (1 # 1048576) = / 1048576) by (unfold Q2R; cbn; lra). assert (Q2 : Q2R 1048576 = 1048576) by (unfold Q2R; cbn; lra).
    assert (Q3 : Q2R (1023 # 1024) = 1023 / 1024) by (unfold Q2R; cbn; lra). assert (Q4 : Q2R (- (1023 # 1024)) = - (1023 / 1024)) by (rewrite Q2R_opp, Q3; reflexivity).
    split; [discriminate|]. split; [constructor; [|constructor]; apply (in_range _ _ _ _ _ _ Q1 Q2); vm_compute; (reflexivity || discriminate)|].
    split; [discriminate|]. split; [constructor; [|constructor; [|constructor]]; apply (in_range _ _ _ _ _ _ Q2R_0 Q2); vm_compute; (reflexivity || discriminate)|].
    split; [discriminate|]. split; [constructor; [|constructor]; apply (in_range _ _ _ _ _ _ Q4 Q3); vm_compute; (reflexivity || discriminate)|].
    split; [vm_compute; reflexivity|]. split; [vm_compute; reflexivity|]. split; [vm_compute; reflexivity|].
    destruct (rep_real _ _ (rep_ofZ 1 ltac:(lia))) as [P1 P2]. split; [exact P1|]. rewrite P2, Rabs_pos_eq by lra. change (bpow radix2 20) with 1048576. lra. }
  split; [vm_compute; reflexivity|]. split; [vm_compute; reflexivity|].
  split; [do 2 eexists; split; [vm_compute; reflexivity|]; split; [vm_compute; discriminate|]; split; [vm_compute; discriminate | vm_compute; reflexivity]|].
  vm_compute. split; reflexivity.
Qed.
