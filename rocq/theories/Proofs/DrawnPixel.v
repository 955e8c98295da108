(** Pixels of images drawn in binary32. *)
From Coq Require Import List Arith ZArith QArith Qround Qreals Qabs Qminmax Bool Permutation Reals Lia Lqa Lra Psatz.
From Flocq Require Import Core IEEE754.BinarySingleNaN.
From Verif Require Import Prelude Model.Interp Model.Geometry Model.Render Model.InterpFloat Model.HistFloat Model.DrawFloat.
From Verif Require Import Spec.InterpSpec Spec.RenderSpec Spec.InterpFloatSpec Spec.HistFloatSpec Spec.DrawFloatSpec.
From Verif Require Import Proofs.InterpProofs Proofs.RenderProofs Proofs.InterpFloatProofs Proofs.InterpBinary.
From Verif Require Import Proofs.DrawFloatProofs Proofs.PlaceFloatProofs.
Import ListNotations.
Local Open Scope R_scope.

Lemma u32_Q : Q2R (1 # 16777216) = u32.
Proof. unfold Q2R, u32. cbn [Qnum Qden bpow]. change (Z.pow_pos radix2 24) with 16777216%Z. lra. Qed.

Lemma grow_R : forall n, Q2R (grow n) = (1 + u32) ^ n.
Proof.
  induction n as [|n IH]; [exact Q2R_1|]. change (grow (S n)) with ((1 + (1 # 16777216)) * grow n)%Q.
  rewrite Q2R_mult, Q2R_plus, Q2R_1, u32_Q, IH. reflexivity.
Qed.

Lemma sums_R : forall vs, Forall finite vs -> Q2R (exact_sum vs) = sumR vs /\ Q2R (sizes vs) = absR vs.
Proof.
  induction 1 as [|v vs F _ [I1 I2]]; [split; exact Q2R_0|]. unfold exact_sum, sizes, sumR, absR in *. cbn [fold_right].
  rewrite !Q2R_plus, I1, I2, (value_R v F). split; [reflexivity|]. f_equal. rewrite <- (value_R v F).
  destruct (Qlt_le_dec (value v) 0) as [N|P].
  - rewrite (Qeq_eqR _ _ (Qabs_neg _ (Qlt_le_weak _ _ N))), Q2R_opp. apply Qlt_Rlt in N. rewrite Q2R_0 in N. rewrite Rabs_left by exact N. reflexivity.
  - rewrite (Qeq_eqR _ _ (Qabs_pos _ P)). apply Qle_Rle in P. rewrite Q2R_0 in P. rewrite Rabs_pos_eq by exact P. reflexivity.
Qed.

Lemma pow_inv : forall n, (1 + u32) ^ n * (1 - INR n * u32) <= 1.
Proof.
  pose proof u32_small as [U _]. induction n as [|n IH]; [cbn; lra|]. rewrite S_INR. cbn [pow].
  pose proof (pow_1 n). pose proof (pos_INR n). 
  assert ((1 + u32) * (1 - (INR n + 1) * u32) <= 1 - INR n * u32) by nra.
  replace ((1 + u32) * (1 + u32) ^ n * (1 - (INR n + 1) * u32)) with ((1 + u32) ^ n * ((1 + u32) * (1 - (INR n + 1) * u32))) by ring.
  eapply Rle_trans; [|exact IH]. apply Rmult_le_compat_l; [lra | assumption].
Qed.

Lemma pow_two : forall n, (Z.of_nat n <= 2 ^ 23)%Z -> (1 + u32) ^ n <= 2.
Proof.
  intros n N. pose proof (pow_inv n) as P. pose proof (pow_1 n).
  assert (A : INR n * u32 <= / 2).
  { replace (/ 2) with (IZR 8388608 * u32) by (rewrite <- u32_Q; unfold Q2R; cbn [Qnum Qden]; lra).
    apply Rmult_le_compat_r; [apply u32_small|]. rewrite INR_IZR_INZ. apply IZR_le. exact N. }
  nra.
Qed.

Lemma zero32 : f32_ofZ 0 = B754_zero false.
Proof. vm_compute. reflexivity. Qed.

Lemma pad_zero : forall vs l, Permutation (f32_ofZ 0 :: vs) l -> sumR l = sumR vs /\ absR l = absR vs /\ live l = live vs.
Proof.
  intros vs l P. destruct (sum_perm _ _ P) as (A & B & C). rewrite <- A, <- B, <- C, zero32.
  unfold sumR, absR, live. cbn [fold_right filter nz B2R]. rewrite Rabs_R0, !Rplus_0_l. repeat split.
Qed.

Lemma live_le : forall vs, (live vs <= List.length vs)%nat.
Proof. unfold live. induction vs as [|v vs IH]; [apply Nat.le_refl|]. cbn [filter]. destruct (nz v); cbn [List.length]; lia. Qed.

Lemma finite_perm : forall vs l, Permutation (f32_ofZ 0 :: vs) l -> Forall finite vs -> Forall finite l.
Proof.
  intros vs l P F. apply (Permutation_Forall P). constructor; [|exact F]. rewrite zero32. reflexivity.
Qed.

Lemma summable_fits : forall vs l, summable vs -> Permutation (f32_ofZ 0 :: vs) l ->
  (1 + u32) ^ Nat.pred (live l) * absR l <= bpow radix2 127.
Proof.
  intros vs l (F & N & S) P. destruct (pad_zero vs l P) as (_ & -> & ->). destruct (sums_R vs F) as [_ E].
  apply Qle_Rle in S. rewrite E, Q2R_Z in S. change (IZR (2 ^ 126)) with (bpow radix2 126) in S.
  pose proof (pow_two (Nat.pred (live vs)) ltac:(pose proof (live_le vs); lia)) as T. pose proof (pow_1 (Nat.pred (live vs))).
  pose proof (absR_pos vs). change 127%Z with (1 + 126)%Z. rewrite bpow_plus. change (bpow radix2 1) with 2. nra.
Qed.

Lemma raw_error : forall vs l v, summable vs -> Permutation (f32_ofZ 0 :: vs) l -> sum32 l v ->
  finite v /\ Rabs (Q2R (value v) - Q2R (exact_sum vs)) <= Q2R (slack vs).
Proof.
  intros vs l v S P T. pose proof (summable_fits vs l S P) as B. destruct S as (F & N & S).
  destruct (sum_error l v T (finite_perm vs l P F) B) as (a & [FV VA] & E). split; [exact FV|].
  destruct (pad_zero vs l P) as (E1 & E2 & E3). unfold err in E. rewrite E1, E2, E3 in E. destruct (sums_R vs F) as [S1 S2].
  rewrite (value_R v FV), VA, S1. unfold slack. rewrite Q2R_mult, Q2R_minus, Q2R_1, grow_R, S2. eapply Rle_trans; [exact E|].
  apply Rmult_le_compat_r; [apply absR_pos|]. pose proof (live_le vs).
  pose proof (pow_up (Nat.pred (live vs)) (Nat.pred (List.length vs)) ltac:(lia)). lra.
Qed.

Lemma raw_same : forall vs l v l' v', summable vs -> (List.length vs <= 2)%nat ->
  Permutation (f32_ofZ 0 :: vs) l -> sum32 l v -> Permutation (f32_ofZ 0 :: vs) l' -> sum32 l' v' ->
  Q2R (value v) = Q2R (value v').
Proof.
  intros vs l v l' v' S N P T P' T'. pose proof (summable_fits vs l S P) as B. pose proof (summable_fits vs l' S P') as B'.
  destruct (pad_zero vs l P) as (E1 & _ & E3). destruct (pad_zero vs l' P') as (E1' & _ & E3'). pose proof (live_le vs).
  destruct (sum_two_live l v T (finite_perm vs l P (proj1 S)) B ltac:(lia)) as [F1 V1].
  destruct (sum_two_live l' v' T' (finite_perm vs l' P' (proj1 S)) B' ltac:(lia)) as [F2 V2].
  rewrite (value_R v F1), (value_R v' F2), V1, V2, E1, E1'. reflexivity.
Qed.

Lemma clip_255 : forall v, finite v -> finite (f32_clip (f32_ofZ 0) (f32_ofZ 255) v) /\
  Q2R (value (f32_clip (f32_ofZ 0) (f32_ofZ 255) v)) = Rmin (Rmax (Q2R (value v)) 0) 255.
Proof.
  intros v F. destruct (rep_clip (f32_ofZ 0) (f32_ofZ 255) v 0 255) as [A B].
  - rewrite Q2R_0. apply (rep_ofZ 0). lia.
  - change (Q2R 255) with (Q2R (inject_Z 255)). rewrite Q2R_Z. apply rep_ofZ. lia.
  - discriminate.
  - exact F.
  - split; [exact A|]. rewrite (value_R _ A), B, clip_Q2R by discriminate. rewrite Q2R_0. change (Q2R 255) with (Q2R (inject_Z 255)).
    rewrite Q2R_Z. reflexivity.
Qed.

Definition clampR (clip : bool) (t : R) : R := if clip then Rmin (Rmax t 0) 255 else t.

Lemma clamp_R : forall clip q, Q2R (clamp clip q) = clampR clip (Q2R q).
Proof.
  intros [|] q; [|reflexivity]. unfold clamp, clampR. assert (E5 : Q2R 255 = 255) by exact (Q2R_Z 255). rewrite <- E5, <- Q2R_0 at 1.
  destruct (Qlt_le_dec q 0) as [A|A].
  - rewrite (Qeq_eqR _ _ (Q.min_r 255 (Qmax 0 q) ltac:(rewrite (Q.max_l 0 q) by lra; discriminate))).
    rewrite (Qeq_eqR _ _ (Q.max_l 0 q ltac:(lra))). apply Qlt_Rlt in A. rewrite Rmax_right by lra. rewrite E5, Q2R_0. rewrite Rmin_left by lra. reflexivity.
  - assert (M : (Qmax 0 q == q)%Q) by (apply Q.max_r; exact A). destruct (Qlt_le_dec 255 q) as [B|B].
    + rewrite (Qeq_eqR _ _ (Q.min_l 255 (Qmax 0 q) ltac:(rewrite M; lra))). apply Qle_Rle in A. apply Qlt_Rlt in B.
      rewrite Rmax_left by lra. rewrite Rmin_right by lra. reflexivity.
    + rewrite (Qeq_eqR _ _ (Q.min_r 255 (Qmax 0 q) ltac:(rewrite M; lra))), (Qeq_eqR _ _ M). apply Qle_Rle in A, B.
      rewrite Rmax_left by lra. rewrite Rmin_left by lra. reflexivity.
Qed.

Lemma clampR_lip : forall clip a b, Rabs (clampR clip a - clampR clip b) <= Rabs (a - b).
Proof.
  intros [|] a b; [|apply Rle_refl]. apply Rabs_le. pose proof (Rle_abs (a - b)) as A. pose proof (Rle_abs (- (a - b))) as B.
  rewrite Rabs_Ropp in B. unfold clampR, Rmin, Rmax.
  destruct (Rle_dec a 0); destruct (Rle_dec b 0); repeat destruct (Rle_dec _ _); lra.
Qed.

Lemma Rabs_Qabs : forall a b c, Rabs (Q2R a - Q2R b) <= Q2R c -> (Qabs (a - b) <= c)%Q.
Proof.
  intros a b c H. apply Rabs_le_inv in H. apply Qabs_Qle_condition. rewrite !Q2R_le, Q2R_opp, Q2R_minus. exact H.
Qed.

Section Drawn.
Variables (ex : f32 -> f32) (ps : list particle32) (H W : Z) (maxd : Q) (r : Z).
Hypothesis MD : (0 <= maxd)%Q.
Hypothesis RO : radius_of maxd r.
Hypothesis RM : room H W r.
Hypothesis PL : Forall placed ps.

Let vs (row col : Z) : list f32 := hits H W (flat_map (scatter_one32 ex H W r) ps) row col.

Lemma r_pos : (0 <= r)%Z. Proof. exact (radius_pos maxd r MD RO). Qed.

Lemma lasts : far H r (lastc H r) /\ far W r (lastc W r).
Proof. destruct RM as [A B]. split; [apply (last_far H r r_pos A) | apply (last_far W r r_pos B)]. Qed.

Lemma vs_lights : forall row col, (0 <= row < H)%Z -> (0 <= col < W)%Z -> lights ex (lastc H r) (lastc W r) r ps row col (vs row col).
Proof. intros row col A B. exact (all_hits ex H W r r_pos RM ps row col PL A B). Qed.

Lemma drawn_pixel : forall clip im row col, drawn32 ex ps H W maxd clip im -> (0 <= row < H)%Z -> (0 <= col < W)%Z ->
  g_rows im = H /\ g_cols im = W /\
  exists l v, Permutation (f32_ofZ 0 :: vs row col) l /\ sum32 l v /\
    @eq f32 (g_at im row col) (if clip then f32_clip (f32_ofZ 0) (f32_ofZ 255) v else v).
Proof.
  intros clip im row col (raw & (G1 & G2 & G) & E) A B. apply (radius_spec maxd r MD) in RO. rewrite <- RO in G.
  destruct (G row col A B) as (l & P & S). destruct clip; rewrite E.
  - split; [reflexivity|]. split; [reflexivity|]. exists l, (g_at raw row col). split; [exact P|]. split; [exact S | reflexivity].
  - split; [exact G1|]. split; [exact G2|]. exists l, (g_at raw row col). split; [exact P|]. split; [exact S | reflexivity].
Qed.

Lemma value_clamp : forall (clip : bool) v, finite v -> finite (if clip then f32_clip (f32_ofZ 0) (f32_ofZ 255) v else v) /\
  Q2R (value (if clip then f32_clip (f32_ofZ 0) (f32_ofZ 255) v else v)) = clampR clip (Q2R (value v)).
Proof. intros [|] v F; [apply clip_255; exact F | split; [exact F | reflexivity]]. Qed.

Lemma pixel_error : forall clip im row col, drawn32 ex ps H W maxd clip im -> (0 <= row < H)%Z -> (0 <= col < W)%Z ->
  summable (vs row col) ->
  finite (g_at im row col) /\ (Qabs (value (g_at im row col) - clamp clip (exact_sum (vs row col))) <= slack (vs row col))%Q.
Proof.
  intros clip im row col D A B S. destruct (drawn_pixel clip im row col D A B) as (_ & _ & l & v & P & T & ->).
  destruct (raw_error _ _ _ S P T) as (F & E). destruct (value_clamp clip v F) as (F' & V). split; [exact F'|].
  apply Rabs_Qabs. rewrite V, clamp_R. eapply Rle_trans; [apply clampR_lip | exact E].
Qed.

Lemma pixel_same : forall clip im im' row col, drawn32 ex ps H W maxd clip im -> drawn32 ex ps H W maxd clip im' ->
  (0 <= row < H)%Z -> (0 <= col < W)%Z -> summable (vs row col) -> (List.length (vs row col) <= 2)%nat ->
  (value (g_at im row col) == value (g_at im' row col))%Q.
Proof.
  intros clip im im' row col D D' A B S N. destruct (drawn_pixel clip im row col D A B) as (_ & _ & l & v & P & T & ->).
  destruct (drawn_pixel clip im' row col D' A B) as (_ & _ & l' & v' & P' & T' & ->).
  apply eqR_Qeq. destruct (value_clamp clip v (proj1 (raw_error _ _ _ S P T))) as (_ & ->).
  destruct (value_clamp clip v' (proj1 (raw_error _ _ _ S P' T'))) as (_ & ->). f_equal. exact (raw_same _ _ _ _ _ S N P T P' T').
Qed.

(** Whole grey levels: up to 1024 particles on a pixel. *)
Lemma pos_sizes : forall ws, Forall finite ws -> Forall (fun v => (0 <= value v)%Q) ws -> sumR ws = absR ws.
Proof.
  induction 1 as [|v ws F _ IH]; intros P; [reflexivity|]. inversion P as [|? ? P1 P2]; subst. unfold sumR, absR in *. cbn [fold_right].
  rewrite IH by exact P2. f_equal. symmetry. apply Rabs_pos_eq. rewrite <- (value_R v F). rewrite <- Q2R_0. apply Qle_Rle. exact P1.
Qed.

Lemma pixel_grey : forall im row col, drawn32 ex ps H W maxd true im -> (0 <= row < H)%Z -> (0 <= col < W)%Z ->
  summable (vs row col) -> Forall (fun v => (0 <= value v)%Q) (vs row col) -> (List.length (vs row col) <= 1024)%nat ->
  (Qabs (value (g_at im row col) - clamp true (exact_sum (vs row col))) <= 1 # 64)%Q.
Proof.
  intros im row col D A B S P N. destruct (drawn_pixel true im row col D A B) as (_ & _ & l & v & PM & T & ->).
  destruct (raw_error _ _ _ S PM T) as (F & E). destruct (value_clamp true v F) as (F' & V).
  apply Rabs_Qabs. rewrite V, clamp_R. unfold slack in E. rewrite Q2R_mult, Q2R_minus, Q2R_1, grow_R in E.
  destruct (sums_R _ (proj1 S)) as [S1 S2]. rewrite S2, S1, <- (pos_sizes _ (proj1 S) P) in E. rewrite S1.
  set (s := sumR (vs row col)) in *. set (k := Nat.pred (List.length (vs row col))) in *.
  assert (S0 : 0 <= s) by (unfold s; rewrite (pos_sizes _ (proj1 S) P); apply absR_pos).
  assert (KB : INR k <= 1023) by (rewrite INR_IZR_INZ; apply IZR_le; unfold k; lia).
  pose proof (pow_inv k) as PI. pose proof (pow_1 k) as P1. pose proof (pos_INR k) as K0.
  assert (U : u32 = / 16777216) by (rewrite <- u32_Q; unfold Q2R; cbn [Qnum Qden]; lra). 
  assert (G : (1 + u32) ^ k - 1 <= / 16384).
  { set (g := (1 + u32) ^ k) in *. rewrite U in PI.
    assert (INR k * / 16777216 <= 1023 * / 16777216) by (apply Rmult_le_compat_r; lra).
    assert (g * (1 - 1023 * / 16777216) <= 1) by (eapply Rle_trans; [|exact PI]; apply Rmult_le_compat_l; lra). lra. }
  replace (Q2R (1 # 64)) with (/ 64) by (unfold Q2R; cbn [Qnum Qden]; lra).
  destruct (Rle_or_lt s 256) as [C|C].
  - eapply Rle_trans; [apply clampR_lip|]. eapply Rle_trans; [exact E|].
    assert (((1 + u32) ^ k - 1) * s <= / 16384 * 256) by (apply Rmult_le_compat; lra). lra.
  - assert (((1 + u32) ^ k - 1) * s <= / 16384 * s) by (apply Rmult_le_compat_r; lra).
    apply Rabs_le_inv in E. assert (255 < Q2R (value v)) by lra. unfold clampR.
    rewrite !Rmax_left by lra. rewrite !Rmin_right by lra. rewrite Rminus_diag_eq, Rabs_R0 by reflexivity. lra.
Qed.
End Drawn.
