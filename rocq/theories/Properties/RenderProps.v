(** Properties C52-C60, C78-C80: drawing, noise, masks, histograms, parameters. *)
From Coq Require Import List Arith ZArith QArith Qround Qabs Qminmax Bool Reals Lia Lqa.
From Verif Require Import Prelude Model.Interp Model.Apply Model.Geometry Model.Render Model.Hist Model.DataGen.
From Verif Require Import Spec.InterpSpec Spec.WarpSpec Spec.GeometrySpec Spec.RenderSpec Spec.HistSpec.
From Verif Require Import Proofs.InterpProofs Proofs.RenderProofs Proofs.KernelProofs Proofs.HistProofs Proofs.DataGenProofs Proofs.ShiftProofs.
Import ListNotations.
Local Open Scope Q_scope.

(** * Concrete data *)
Definition toy_ex (a : Q) : Q := 1 / (1 - a).
Definition toy_gen : generator := mkGenerator
  (fun k n i => Qmake (Z.of_nat ((i * 3 + 2) mod 7)) 7) (fun k n i => inject_Z (Z.of_nat i) - 2) (fun k n => 0%nat).
Definition toy_spec : gspec := mkGspec 2 (16, 16)%Z (12, 12)%Z (3 # 1600, 6 # 1600) (1 # 10) (1 # 10)
  [(1 # 2, 1); (3 # 4, 2)] 1 [(50, 200)] 1 [(-(9 # 10), 9 # 10)] (1 # 10) 1 3 1 2.
Definition toy_particle : particle := mkParticle (27 # 2) (41 # 3) 1 (3 # 2) (1 # 4) 80.
Definition zero_flow : flow := mkFlow 20 20 (fun _ _ => 0) (fun _ _ => 0).

Lemma toy_lawful : lawful toy_gen.
Proof.
  split; [|intros; assumption]. intros k n i. cbn [g_unit toy_gen]. pose proof (Nat.mod_upper_bound (i * 3 + 2) 7 ltac:(lia)).
  unfold Qle, Qlt. cbn [Qnum Qden]. lia.
Qed.
Lemma toy_valid : valid_ranges toy_spec.
Proof.
  unfold valid_ranges. cbn [toy_spec sp_density sp_diameters sp_intensities sp_rhos fst snd].
  split; [lra|]. repeat split; try discriminate; intros; cbn [In] in *;
    repeat match goal with H : _ \/ _ |- _ => destruct H as [<-|H] | H : False |- _ => destruct H end; cbn [fst snd]; lra.
Qed.
Lemma toy_exp_like : exp_like toy_ex.
Proof.
  split.
  - intros a b E. unfold toy_ex. rewrite E. reflexivity.
  - intros a A. unfold toy_ex. split.
    + unfold Qdiv. rewrite Qmult_1_l. apply Qlt_le_weak, Qinv_lt_0_compat. lra.
    + apply Qle_shift_div_r; lra.
Qed.
Lemma toy_proper : proper_particle toy_particle.
Proof. unfold proper_particle. cbn. lra. Qed.

(** ** C52: the kernel (real exponential) *)
Local Open Scope R_scope.
Theorem C52_bounds : forall x y x0 y0 sx sy rho amp, 0 < sx -> 0 < sy -> -1 < rho < 1 -> 0 <= amp ->
  0 <= gaussian realK x y x0 y0 sx sy rho amp <= amp.
Proof. exact gauss_bounds. Qed.
Print Assumptions C52_bounds.

Theorem C52_peak : forall x y x0 y0 sx sy rho amp, 0 < sx -> 0 < sy -> -1 < rho < 1 -> 0 < amp ->
  (gaussian realK x y x0 y0 sx sy rho amp = amp <-> x = x0 /\ y = y0).
Proof. exact gauss_peak. Qed.
Print Assumptions C52_peak.

(** It decreases along every ray from the centre. *)
Theorem C52_ray : forall a b s t x0 y0 sx sy rho amp, 0 < sx -> 0 < sy -> -1 < rho < 1 -> 0 <= amp -> 0 <= s <= t ->
  gaussian realK (x0 + t * a) (y0 + t * b) x0 y0 sx sy rho amp <= gaussian realK (x0 + s * a) (y0 + s * b) x0 y0 sx sy rho amp.
Proof. exact gauss_ray. Qed.
Print Assumptions C52_ray.

(** It is the Gaussian whose covariance matrix has the variances sx^2, sy^2 and
    the correlation rho: its exponent is minus half of w . S^-1 w. *)
Theorem C52_covariance : forall X Y a b x0 y0 sx sy rho amp, 0 < sx -> 0 < sy -> -1 < rho < 1 ->
  sx * sx * a + rho * sx * sy * b = X -> rho * sx * sy * a + sy * sy * b = Y ->
  gaussian realK (x0 + X) (y0 + Y) x0 y0 sx sy rho amp = amp * exp (- ((a * X + b * Y) / 2)).
Proof. exact gauss_covariance. Qed.
Print Assumptions C52_covariance.

Example C52_case : (0 < 2 /\ 0 < 3 /\ -1 < 1/2 < 1) /\
  2 * 2 * 1 + 1 / 2 * 2 * 3 * 1 = 7 /\ 1 / 2 * 2 * 3 * 1 + 3 * 3 * 1 = 12 /\
  gaussian realK (1 + 7) (1 + 12) 1 1 2 3 (1 / 2) 5 = 5 * exp (- ((1 * 7 + 1 * 12) / 2)).
Proof.
  split; [Lra.lra|]. split; [Lra.lra|]. split; [Lra.lra|]. apply C52_covariance; Lra.lra.
Qed.
Local Open Scope Q_scope.

(** With any rounded exponential, as used when drawing. *)
Theorem C52_rounded : forall ex p dy dx, exp_like ex -> proper_particle p -> 0 <= p_amp p ->
  0 <= gaussian (ratK ex) dx dy 0 0 (p_dx p / 2) (p_dy p / 2) (p_rho p) (p_amp p) <= p_amp p.
Proof.
  intros ex p dy dx EL PP A. pose proof (gaussian_bump ex p dx dy dy dx (proj1 EL) PP (Qeq_refl _) (Qeq_refl _)) as E.
  pose proof (bump_bounds ex p dy dx EL PP A). lra.
Qed.
Print Assumptions C52_rounded.

Example C52_rounded_case : exp_like toy_ex /\ proper_particle toy_particle /\
  ~ gaussian (ratK toy_ex) (1 # 2) 1 0 0 (p_dx toy_particle / 2) (p_dy toy_particle / 2) (p_rho toy_particle) (p_amp toy_particle) == 0.
Proof. split; [exact toy_exp_like|]. split; [exact toy_proper|]. vm_compute. discriminate. Qed.

(** ** C53: patches stay inside *)
Theorem C53_inside : forall ex H W maxd r p u, 0 <= maxd -> radius_of maxd r -> (2 * r + 1 <= H)%Z -> (2 * r + 1 <= W)%Z ->
  In u (scatter_one ex H W (patch_radius maxd) p) -> let '(row, col, _) := u in (0 <= row < H)%Z /\ (0 <= col < W)%Z.
Proof.
  intros ex H W maxd r p u M RO A B I. pose proof (radius_pos _ _ M RO) as R. apply (radius_spec maxd r M) in RO. rewrite <- RO in I.
  pose proof (scatter_one_lands ex H W r p R A B) as F. rewrite Forall_forall in F. exact (F u I).
Qed.
Print Assumptions C53_inside.

(** If the image is smaller than a patch, every particle is written through a
    negative index. *)
Theorem C53_small_refuted : forall ex H W maxd r p, 0 <= maxd -> radius_of maxd r -> (H <= 2 * r)%Z ->
  exists row col v, In (row, col, v) (scatter_one ex H W (patch_radius maxd) p) /\ (row < 0)%Z.
Proof.
  intros ex H W maxd r p M RO A. pose proof (radius_pos _ _ M RO) as R. apply (radius_spec maxd r M) in RO. rewrite <- RO.
  pose proof (top_left_negative H r (p_y p) A) as N. eexists _, _, _. split.
  - unfold scatter_one. apply in_flat_map. exists 0%Z. split; [apply in_zrange; lia|]. apply in_map_iff. exists 0%Z.
    split; [reflexivity | apply in_zrange; lia].
  - cbn [Z.add]. exact N.
Qed.
Print Assumptions C53_small_refuted.

(** In the arithmetic actually used the bound n - r - 1e-6 rounds to n - r, so
    patches of particles at the far border reach one pixel outside. *)
Theorem C53_float_refuted : exists n r p, (2 * r + 1 <= n)%Z /\ (0 <= r)%Z /\
  exists t, top_left32 n r p = Some t /\ (n <= t + 2 * r)%Z.
Proof. exists 256%Z, 1%Z, (f32_ofZ 256). split; [lia|]. split; [lia|]. exists 254%Z. split; [vm_compute; reflexivity | lia]. Qed.
Print Assumptions C53_float_refuted.

Example C53_case : 0 <= 2 /\ radius_of 2 3 /\ List.length (scatter_one toy_ex 40 40 3 toy_particle) = 49%nat.
Proof. split; [lra|]. split; [unfold radius_of; change (inject_Z 3) with 3; lra | vm_compute; reflexivity]. Qed.

(** ** C54: an image is the sum of its particles, each drawn at the nearest
    position whose patch fits *)
Theorem C54_sum : forall ex ps H W maxd r row col, respects ex -> Forall proper_particle ps ->
  0 <= maxd -> radius_of maxd r -> (2 * r + 1 <= H)%Z -> (2 * r + 1 <= W)%Z ->
  exists vs, Forall2 (fun p v => contributes ex H W r p row col v) ps vs /\
    at_ (img_gen ex ps H W maxd false) row col == sum vs.
Proof. exact img_gen_sum. Qed.
Print Assumptions C54_sum.

Theorem C54_centered : forall n r p, first_center r <= p <= last_center n r -> center n r p == p.
Proof. exact center_in. Qed.
Print Assumptions C54_centered.

Theorem C54_displaced : forall n r p, (2 * r + 1 <= n)%Z ->
  (p < first_center r -> center n r p == inject_Z r) /\ (last_center n r < p -> center n r p == last_center n r).
Proof.
  intros n r p H. pose proof (center_range n r p H) as C. unfold center, first_center in *.
  pose proof (Q.max_spec (inject_Z r) p) as M. pose proof (Q.min_spec (last_center n r) (Qmax (inject_Z r) p)) as N. split; intros; lra.
Qed.
Print Assumptions C54_displaced.

(** Displaced particles can be visible: the simulated area is not extended at
    the bottom and the right. *)
Theorem C54_visible_refuted : exists c g maxd r p,
  construct exact c = Ok g /\ g_maxd c = maxd /\ radius_of maxd r /\ g_hide c = true /\
  0 <= p < inject_Z (fst (o_pb g)) /\
  (inject_Z (fst (o_off g)) <= p < inject_Z (fst (o_off g) + fst (g_image c))) /\
  (let q := center (fst (o_pb g)) r p in inject_Z (fst (o_off g)) <= q < inject_Z (fst (o_off g) + fst (g_image c)) /\ 4 < p - q).
Proof.
  set (c := mkGcfg exact (64, 64)%Z (8, 8) 1 (100, 100) (100, 100)%Z 1 1 4 (1, 1) (-(1), -(1)) true).
  set (g := match construct exact c with Ok g => g | Err _ => mkGeom exact (0, 0) (0, 0)%Z (0, 0)%Z (0, 0) (0, 0)%Z (0, 0)%Z (0, 0) (0, 0) end).
  exists c, g, 4, 6%Z, (769 # 10).
  split; [vm_compute; reflexivity|]. split; [reflexivity|]. split; [unfold radius_of; change (inject_Z 6) with 6; lra|].
  split; [reflexivity|]. replace (o_off g) with (13, 13)%Z by (vm_compute; reflexivity). replace (o_pb g) with (78, 78)%Z by (vm_compute; reflexivity).
  replace (g_image c) with (64, 64)%Z by reflexivity. cbn [fst snd]. cbv zeta.
  change (inject_Z 78) with 78. change (inject_Z 13) with 13. change (inject_Z (13 + 64)) with 77.
  split; [split; [discriminate | reflexivity]|]. split; [split; [discriminate | reflexivity]|].
  assert (E : center 78 6 (769 # 10) == 71999999 # 1000000) by (vm_compute; reflexivity). rewrite E.
  split; [split; [discriminate | reflexivity] | reflexivity].
Qed.
Print Assumptions C54_visible_refuted.

Example C54_case : Forall proper_particle [toy_particle; toy_particle] /\ radius_of 2 3 /\
  (first_center 3 <= p_y toy_particle <= last_center 40 3) /\
  ~ at_ (img_gen toy_ex [toy_particle; toy_particle] 40 40 2 false) 14 13 == 0.
Proof.
  split; [repeat constructor; apply toy_proper|]. split; [unfold radius_of; change (inject_Z 3) with 3; lra|].
  split; [unfold first_center, last_center; vm_compute; split; discriminate | vm_compute; discriminate].
Qed.

(** ** C55: pixel values and image sizes *)
Theorem C55_range : forall ex sq g sp pb rx ry mask histogram k flows o,
  (forall m, mask = Some m -> forall r c, (0 <= r < fst (sp_image sp))%Z -> (0 <= c < snd (sp_image sp))%Z -> 0 <= at_ m r c <= 1) ->
  In o (generate ex sq g sp pb rx ry mask histogram k flows) ->
  bounded 0 255 (out1 o) /\ bounded 0 255 (out2 o).
Proof.
  intros ex sq g sp pb rx ry mask histogram k flows o M I. unfold generate in I. cbn [split2] in I. apply in_map_iff in I.
  destruct I as (i & <- & _). cbn [scan_body out1 out2].
  assert (F : forall k' im, bounded 0 255 (finish g sp mask histogram k' im)).
  { intros k' im. unfold finish. apply equalized_bounded, masked_bounded; [intros; apply noisy_bounded|].
    intros m E r c [P1 P2]. apply (M m E); cbn [noisy add_noise crop rows cols] in P1, P2; unfold slice_len in P1, P2; lia. }
  split; apply F.
Qed.
Print Assumptions C55_range.

Theorem C55_size : forall ex sq g sp pb rx ry mask histogram k flows o,
  (0 <= fst (sp_offset sp))%Z -> (0 <= snd (sp_offset sp))%Z -> (0 <= fst (sp_image sp))%Z -> (0 <= snd (sp_image sp))%Z ->
  (fst (sp_offset sp) + fst (sp_image sp) <= fst pb)%Z -> (snd (sp_offset sp) + snd (sp_image sp) <= snd pb)%Z ->
  In o (generate ex sq g sp pb rx ry mask histogram k flows) ->
  rows (out1 o) = fst (sp_image sp) /\ cols (out1 o) = snd (sp_image sp) /\
  rows (out2 o) = fst (sp_image sp) /\ cols (out2 o) = snd (sp_image sp).
Proof.
  intros ex sq g sp pb rx ry mask histogram k flows o A B C D E F I. unfold generate in I. cbn [split2] in I. apply in_map_iff in I.
  destruct I as (i & <- & _). cbn [scan_body out1 out2].
  assert (G : forall k' ps maxd, rows (finish g sp mask histogram k' (img_gen ex ps (fst pb) (snd pb) maxd false)) = fst (sp_image sp) /\
                            cols (finish g sp mask histogram k' (img_gen ex ps (fst pb) (snd pb) maxd false)) = snd (sp_image sp)).
  { intros k' ps maxd. destruct (finish_size g sp mask histogram k' (img_gen ex ps (fst pb) (snd pb) maxd false)) as [-> ->].
    destruct (img_gen_size ex ps (fst pb) (snd pb) maxd false) as [S1 S2]. apply crop_size; rewrite ?S1, ?S2; assumption. }
  repeat split; apply G.
Qed.
Print Assumptions C55_size.

(** As many pairs as requested. *)
Theorem C55_batch : forall ex sq g sp pb rx ry mask histogram k flows,
  List.length (generate ex sq g sp pb rx ry mask histogram k flows) = sp_batch sp.
Proof. intros. unfold generate. cbn [split2]. rewrite map_length, seq_length. reflexivity. Qed.
Print Assumptions C55_batch.

Definition toy_mask : image := mkImage 16 16 (fun r c => if (r <? 4)%Z then 0 else 1).
Definition toy_run (mask : option image) (h : option (list Q)) : list pair_out :=
  generate toy_ex (fun a => a) toy_gen toy_spec (40, 40)%Z 1 1 mask h (Seed 5) [zero_flow].

Example C55_case :
  (forall m, Some toy_mask = Some m -> forall r c, (0 <= r < 16)%Z -> (0 <= c < 16)%Z -> 0 <= at_ m r c <= 1) /\
  List.length (toy_run (Some toy_mask) None) = 2%nat.
Proof.
  split; [|vm_compute; reflexivity]. intros m E r c _ _. injection E as <-. cbn [toy_mask at_]. destruct (r <? 4)%Z; lra.
Qed.

(** ** C56: masks *)
Theorem C56_mask : forall ex sq g sp pb rx ry m k flows,
  Forall2 (fun a b => forall r c,
      (at_ m r c == 0 -> at_ (out1 a) r c == 0 /\ at_ (out2 a) r c == 0) /\
      (at_ m r c == 1 -> at_ (out1 a) r c == at_ (out1 b) r c /\ at_ (out2 a) r c == at_ (out2 b) r c))
    (generate ex sq g sp pb rx ry (Some m) None k flows) (generate ex sq g sp pb rx ry None None k flows).
Proof.
  intros ex sq g sp pb rx ry m k flows. unfold generate. cbn [split2]. apply Forall2_map_same. intros i _ r c.
  cbn [scan_body out1 out2 finish equalized masked at_]. split; intros E; rewrite E; split; ring.
Qed.
Print Assumptions C56_mask.

(** With a histogram a masked pixel need not be black. *)
Theorem C56_histogram_refuted : exists ex sq g sp pb rx ry m h k flows o,
  lawful g /\ valid_ranges sp /\ target h /\ sum h == all_pixels m /\
  In o (generate ex sq g sp pb rx ry (Some m) (Some h) k flows) /\
  exists r c, pixel (out1 o) r c /\ at_ m r c == 0 /\ ~ at_ (out1 o) r c == 0.
Proof.
  exists toy_ex, (fun a => a), toy_gen,
    (mkGspec 1 (2, 2)%Z (0, 0)%Z (0, 0) 0 0 [(1, 1)] 0 [(50, 200)] 0 [(0, 0)] 0 1 0 0 0), (4, 4)%Z, 1, 1,
    (mkImage 2 2 (fun _ _ => 0)), (repeat 0 7 ++ [4] ++ repeat 0 248), (Seed 0), [zero_flow].
  eexists. split; [exact toy_lawful|]. split.
  { unfold valid_ranges. cbn [sp_density sp_diameters sp_intensities sp_rhos fst snd].
    split; [lra|]. repeat split; try discriminate; intros; cbn [In] in *;
    repeat match goal with H : _ \/ _ |- _ => destruct H as [<-|H] | H : False |- _ => destruct H end; cbn [fst snd]; lra. }
  split.
  { split; [reflexivity|]. split; [|vm_compute; reflexivity]. intros x I. apply in_app_or in I. destruct I as [I|I].
    - apply repeat_spec in I. rewrite I. lra.
    - destruct I as [<-|I]; [lra|]. apply repeat_spec in I. rewrite I. lra. }
  split; [vm_compute; reflexivity|]. split; [left; reflexivity|]. exists 0%Z, 0%Z.
  split; [cbn; unfold pixel; cbn; lia|]. split; [reflexivity | vm_compute; discriminate].
Qed.
Print Assumptions C56_histogram_refuted.

(** ** C57: histogram matching *)
Theorem C57_levels : forall im h r c, exists k, (0 <= k <= 255)%Z /\ at_ (match_histogram im h) r c == inject_Z k.
Proof. intros im h r c. exists (out_level im h r c). split; [apply out_level_range | reflexivity]. Qed.
Print Assumptions C57_levels.

Theorem C57_monotone : forall im h r c r' c', nonempty im -> bounded 0 255 im -> target h -> pixel im r c -> pixel im r' c' ->
  at_ im r c <= at_ im r' c' -> at_ (match_histogram im h) r c <= at_ (match_histogram im h) r' c'.
Proof. intros. rewrite !match_at. apply inj_le. apply out_level_mono; assumption. Qed.
Print Assumptions C57_monotone.

Theorem C57_quantile : forall im h r c k, nonempty im -> bounded 0 255 im -> target h -> pixel im r c -> (0 <= k < 255)%Z ->
  (at_ (match_histogram im h) r c <= inject_Z k <-> share im (Qfloor (at_ im r c)) <= wanted h k).
Proof.
  intros im h r c k NE B T P K. rewrite match_at, <- Zle_Qle. apply out_level_galois; assumption.
Qed.
Print Assumptions C57_quantile.

Theorem C57_distribution : forall im h k, nonempty im -> bounded 0 255 im -> target h -> (0 <= k <= 255)%Z ->
  up_to (match_histogram im h) k <= wanted h k * all_pixels im.
Proof. exact match_count. Qed.
Print Assumptions C57_distribution.

(** ** C58: matching an image to its own histogram *)
Theorem C58_identity : forall a im h, nonempty im -> 0 < a -> own_histogram a im h ->
  (forall r c, pixel im r c -> exists k, (0 <= k <= 255)%Z /\ at_ im r c == inject_Z k) ->
  same_image (match_histogram im h) im.
Proof.
  intros a im h NE A O I. split; [reflexivity|]. split; [reflexivity|]. intros r c P. apply (match_own a im h r c NE A I O P).
Qed.
Print Assumptions C58_identity.

Definition ramp : image := mkImage 2 3 (fun r c => inject_Z (3 * r + 40 * c)).
Definition ramp_hist : list Q := map (fun k => count ramp (fun x => Qeq_bool x (inject_Z (Z.of_nat k)))) (seq 0 256).
Example C57_C58_case : nonempty ramp /\ bounded 0 255 ramp /\ target ramp_hist /\ own_histogram 1 ramp ramp_hist /\
  at_ (match_histogram ramp ramp_hist) 1 2 == 83 /\ wanted ramp_hist 42 == 1 / 2.
Proof.
  split; [split; cbn; lia|]. split.
  { intros r c [P1 P2]. cbn in P1, P2. cbn [ramp at_]. change 0 with (inject_Z 0). change 255 with (inject_Z 255).
    split; apply inj_le; nia. }
  split.
  { split; [reflexivity|]. split; [|vm_compute; reflexivity]. intros x I. apply in_map_iff in I. destruct I as (k & <- & _).
    unfold count. change 0 with (inject_Z 0). apply inj_le. lia. }
  split; [|split; vm_compute; reflexivity].
  split; [reflexivity|]. intros k K. unfold ramp_hist.
  set (f := fun k0 => count ramp (fun x => Qeq_bool x (inject_Z (Z.of_nat k0)))).
  rewrite (nth_indep _ 0 (f 0%nat)) by (rewrite map_length, seq_length; lia). rewrite map_nth, seq_nth by lia. unfold f.
  cbn [plus]. rewrite Z2Nat.id by lia. rewrite Qmult_1_l. reflexivity.
Qed.

(** ** C59: particle parameters stay in the reported ranges *)
Definition in_ranges (o : pair_out) (p : particle) : Prop :=
  within (out_diameters o) (p_dx p) /\ within (out_diameters o) (p_dy p) /\ within (out_rhos o) (p_rho p) /\
  (p_amp p == 0 \/ within (out_intensities o) (p_amp p)).

Lemma gated : forall a s m, a * bool_Q s * bool_Q m == 0 \/ a * bool_Q s * bool_Q m == a.
Proof. intros a [] []; cbn [bool_Q]; [right | left | left | left]; ring. Qed.

Theorem C59_ranges : forall ex sq g sp pb rx ry mask histogram k dk flows i j, lawful g -> valid_ranges sp ->
  let o := scan_body ex sq g sp pb rx ry mask histogram k dk flows i in
  let f := nth (i mod List.length flows) flows (mkFlow 0 0 (fun _ _ => 0) (fun _ _ => 0)) in
  In (out_diameters o) (sp_diameters sp) /\ In (out_intensities o) (sp_intensities sp) /\ In (out_rhos o) (sp_rhos sp) /\
  within (sp_density sp) (out_density o) /\
  in_ranges o (first_particle sq g sp pb (Child k i) (out_density o) j) /\
  in_ranges o (second_particle sq g sp pb rx ry (Child k i) (out_density o) f j).
Proof.
  intros ex sq g sp pb rx ry mask histogram k dk flows i j LAW VAL o f.
  pose proof VAL as (_ & (D0 & _) & (I0 & _) & (R0 & _)).
  split; [apply pick_in, D0|]. split; [apply pick_in, I0|]. split; [apply pick_in, R0|]. split; [apply density_within; assumption|].
  pose proof (params_within sq g sp pb LAW VAL (Child k i) j) as PW. cbv zeta in PW. destruct PW as [P1 P2].
  split; unfold in_ranges.
  - unfold first_particle. destruct (position g sp pb (Child k i) j) as [y x].
    destruct (fst (particle_params sq g sp pb (Child k i) j)) as [[[dx dy] rho] amp]. destruct P1 as (W1 & W2 & W3 & W4).
    cbn [p_dx p_dy p_rho p_amp]. split; [exact W1|]. split; [exact W2|]. split; [exact W3|].
    match goal with |- ?a * bool_Q ?s * bool_Q ?m == 0 \/ _ => destruct (gated a s m) as [E|E] end;
      [left; exact E | right; unfold within; rewrite E; exact W4].
  - unfold second_particle. destruct (second_position pb f (sp_dt sp) rx ry (position g sp pb (Child k i) j)) as [y x].
    destruct (snd (particle_params sq g sp pb (Child k i) j)) as [[[dx dy] rho] amp]. destruct P2 as (W1 & W2 & W3 & W4).
    cbn [p_dx p_dy p_rho p_amp]. split; [exact W1|]. split; [exact W2|]. split; [exact W3|].
    match goal with |- ?a * bool_Q ?s * bool_Q ?m == 0 \/ _ => destruct (gated a s m) as [E|E] end;
      [left; exact E | right; unfold within; rewrite E; exact W4].
Qed.
Print Assumptions C59_ranges.

(** ** C60: the number of particles *)
Definition lit (p : particle) : bool := negb (Qle_bool (p_amp p) 0).

Lemma lit_first : forall sq g sp pb key_i d j, lawful g -> valid_ranges sp ->
  lit (first_particle sq g sp pb key_i d j) = bernoulli g (Child key_i 0) (num_particles sp pb) (1 - sp_hide1 sp) j && mixed pb d j.
Proof.
  intros sq g sp pb key_i d j LAW VAL. pose proof (params_within sq g sp pb LAW VAL key_i j) as PW. cbv zeta in PW. destruct PW as [PW _].
  pose proof VAL as (_ & _ & (I0 & I1) & _). pose proof (I1 _ (pick_in _ (g_randint g (Child key_i 7) (List.length (sp_intensities sp))) I0)) as PI.
  unfold lit, first_particle. destruct (position g sp pb key_i j) as [y x].
  destruct (fst (particle_params sq g sp pb key_i j)) as [[[dx dy] rho] amp]. destruct PW as (_ & _ & _ & [W _]). cbn [p_amp].
  destruct (bernoulli g (Child key_i 0) (num_particles sp pb) (1 - sp_hide1 sp) j), (mixed pb d j); cbn [andb bool_Q];
    [apply negb_true_iff, not_true_iff_false | apply negb_false_iff | apply negb_false_iff | apply negb_false_iff]; rewrite Qle_bool_iff; lra.
Qed.

Lemma lit_second : forall sq g sp pb rx ry f key_i d j, lawful g -> valid_ranges sp ->
  lit (second_particle sq g sp pb rx ry key_i d f j) = bernoulli g (Child key_i 1) (num_particles sp pb) (1 - sp_hide2 sp) j && mixed pb d j.
Proof.
  intros sq g sp pb rx ry f key_i d j LAW VAL. pose proof (params_within sq g sp pb LAW VAL key_i j) as PW. cbv zeta in PW. destruct PW as [_ PW].
  pose proof VAL as (_ & _ & (I0 & I1) & _). pose proof (I1 _ (pick_in _ (g_randint g (Child key_i 7) (List.length (sp_intensities sp))) I0)) as PI.
  unfold lit, second_particle. destruct (second_position pb f (sp_dt sp) rx ry (position g sp pb key_i j)) as [y x].
  destruct (snd (particle_params sq g sp pb key_i j)) as [[[dx dy] rho] amp]. destruct PW as (_ & _ & _ & [W _]). cbn [p_amp].
  destruct (bernoulli g (Child key_i 1) (num_particles sp pb) (1 - sp_hide2 sp) j), (mixed pb d j); cbn [andb bool_Q];
    [apply negb_true_iff, not_true_iff_false | apply negb_false_iff | apply negb_false_iff | apply negb_false_iff]; rewrite Qle_bool_iff; lra.
Qed.

(** At most floor(area * density) particles are drawn, exactly that many before
    hiding; the allocation suffices for every density of the range. *)
Theorem C60_count : forall sq g sp pb rx ry f key_i d, lawful g -> valid_ranges sp ->
  (0 <= fst pb)%Z -> (0 <= snd pb)%Z -> within (sp_density sp) d ->
  let all := seq 0 (num_particles sp pb) in
  let n := Qfloor (inject_Z (fst pb) * inject_Z (snd pb) * d) in
  let lit1 := List.length (filter lit (map (first_particle sq g sp pb key_i d) all)) in
  let lit2 := List.length (filter lit (map (second_particle sq g sp pb rx ry key_i d f) all)) in
  (Z.of_nat lit1 <= n)%Z /\ (Z.of_nat lit2 <= n)%Z /\
  (sp_hide1 sp == 0 -> Z.of_nat lit1 = n) /\ (sp_hide2 sp == 0 -> Z.of_nat lit2 = n).
Proof.
  intros sq g sp pb rx ry f key_i d LAW VAL A B W all n lit1 lit2.
  assert (D : 0 <= d <= snd (sp_density sp)) by (destruct VAL as ((V1 & V2) & _); unfold within in W; lra).
  pose proof (mixed_count sp pb d A B D) as C. fold all in C. unfold area in C. fold n in C.
  assert (L : forall {T} (F : T -> bool) (h : nat -> T) l, List.length (filter F (map h l)) = List.length (filter (fun i => F (h i)) l)).
  { intros T F h l. induction l as [|a l IH]; [reflexivity|]. cbn [map filter]. destruct (F (h a)); cbn [List.length]; congruence. }
  unfold lit1, lit2. rewrite !L. repeat split.
  - rewrite <- C. apply Nat2Z.inj_le, filter_le. intros j _. rewrite lit_first by assumption. rewrite andb_true_iff. tauto.
  - rewrite <- C. apply Nat2Z.inj_le, filter_le. intros j _. rewrite lit_second by assumption. rewrite andb_true_iff. tauto.
  - intros H0. rewrite <- C. f_equal. f_equal. apply filter_ext_in. intros j _. rewrite lit_first by assumption.
    rewrite (bernoulli_always g _ _ j _ LAW H0). reflexivity.
  - intros H0. rewrite <- C. f_equal. f_equal. apply filter_ext_in. intros j _. rewrite lit_second by assumption.
    rewrite (bernoulli_always g _ _ j _ LAW H0). reflexivity.
Qed.
Print Assumptions C60_count.

Example C59_C60_case : lawful toy_gen /\ valid_ranges toy_spec /\ within (sp_density toy_spec) (4 # 1600) /\
  num_particles toy_spec (40, 40)%Z = 6%nat /\ Qfloor (inject_Z 40 * inject_Z 40 * (4 # 1600)) = 4%Z.
Proof.
  split; [exact toy_lawful|]. split; [exact toy_valid|]. split; [unfold within; cbn; lra|]. split; vm_compute; reflexivity.
Qed.

(** ** C78: hiding every particle leaves a black image (before noise) *)
Theorem C78_all_hidden : forall ex sq g sp pb rx ry h k flows o r c, lawful g -> valid_ranges sp ->
  sp_noise_uniform sp == 0 -> sp_noise_mean sp == 0 -> sp_noise_std sp == 0 ->
  In o (generate ex sq g sp pb rx ry h None k flows) ->
  (sp_hide1 sp == 1 -> at_ (out1 o) r c == 0) /\ (sp_hide2 sp == 1 -> at_ (out2 o) r c == 0).
Proof.
  intros ex sq g sp pb rx ry h k flows o r c LAW VAL N1 N2 N3 I. unfold generate in I. cbn [split2] in I. apply in_map_iff in I.
  destruct I as (i & <- & _). cbn [scan_body out1 out2].
  assert (F : forall k' ps maxd, (forall p, In p ps -> p_amp p == 0) ->
    at_ (finish g sp h None k' (img_gen ex ps (fst pb) (snd pb) maxd false)) r c == 0).
  { intros k' ps maxd D. unfold finish, equalized.
    assert (Z0 : at_ (noisy g sp k' (img_gen ex ps (fst pb) (snd pb) maxd false)) r c == 0).
    { unfold noisy, add_noise. cbn [at_]. rewrite (clipQ_compat 0 255 _ 0); [reflexivity|].
      set (im := crop _ _ _). assert (U : forall n i0, uniform_in g (Child k' 0) n 0 (sp_noise_uniform sp) i0 == 0).
      { intros n i0. pose proof (uniform_range g (Child k' 0) n 0 (sp_noise_uniform sp) i0 LAW ltac:(lra)). lra. }
      rewrite U, N2, N3. unfold im, crop. cbn [at_]. rewrite (img_gen_dark ex ps _ _ maxd _ _ D). ring. }
    destruct h as [m|]; cbn [masked at_]; rewrite Z0; [ring | reflexivity]. }
  split; intros H1; apply F; intros p P; apply in_map_iff in P; destruct P as (j & <- & _).
  - unfold first_particle. destruct (position g sp pb (Child (Child k 0) i) j) as [y x].
    destruct (fst (particle_params sq g sp pb (Child (Child k 0) i) j)) as [[[dx dy] rho] amp]. cbn [p_amp].
    rewrite (bernoulli_never g _ _ j _ LAW H1). cbn [bool_Q]. ring.
  - unfold second_particle. destruct (second_position _ _ _ _ _ _) as [y x].
    destruct (snd (particle_params sq g sp pb (Child (Child k 0) i) j)) as [[[dx dy] rho] amp]. cbn [p_amp].
    rewrite (bernoulli_never g _ _ j _ LAW H1). cbn [bool_Q]. ring.
Qed.
Print Assumptions C78_all_hidden.

(** ** C79: whole-pixel displacements shift the image *)
Definition displaced_by (sp : gspec) (pb : Z * Z) (rx ry u v : Q) (f : flow) (dy dx : Z) : Prop :=
  v * ry * sp_dt sp * inject_Z (fst pb) / inject_Z (fH f) == inject_Z dy /\
  u * rx * sp_dt sp * inject_Z (snd pb) / inject_Z (fW f) == inject_Z dx.

(** Pixel ([r], [c]) of the cropped image, away from the borders of the simulated area. *)
Definition deep_pixel (sp : gspec) (pb : Z * Z) (rad r c : Z) : Prop :=
  deep (fst pb) rad (r + fst (sp_offset sp)) /\ deep (snd pb) rad (c + snd (sp_offset sp)).

Theorem C79_shift : forall ex sq g sp pb rx ry k flows o u v dy dx rad, lawful g -> valid_ranges sp -> noiseless sp ->
  respects ex -> sqrt_like sq -> radius_of (max_snd (sp_diameters sp)) rad ->
  (2 * rad + 1 <= fst pb)%Z -> (2 * rad + 1 <= snd pb)%Z -> flows <> [] ->
  (forall f, In f flows -> uniform u v f /\ (1 <= fH f)%Z /\ (1 <= fW f)%Z /\ displaced_by sp pb rx ry u v f dy dx) ->
  In o (generate ex sq g sp pb rx ry None None k flows) ->
  forall r c, deep_pixel sp pb rad r c -> deep_pixel sp pb rad (r + dy) (c + dx) ->
  at_ (out2 o) (r + dy) (c + dx) == at_ (out1 o) r c.
Proof.
  intros ex sq g sp pb rx ry k flows o u v dy dx rad LAW VAL NL RE SQ RO S1 S2 NE FL I r c [D1 D2] [D3 D4].
  unfold generate in I. cbn [split2] in I. apply in_map_iff in I. destruct I as (i & <- & _). cbn [scan_body out1 out2 finish equalized masked].
  rewrite !(still_noise g sp _ _ _ _ LAW NL). apply clipQ_compat.
  assert (M : 0 <= max_snd (sp_diameters sp)).
  { destruct VAL as (_ & (D0 & DD) & _). destruct (sp_diameters sp) as [|d l]; [congruence|]. cbn [max_snd].
    assert (G : forall (l : list (Q * Q)) m, 0 <= m -> 0 <= fold_left (fun (m : Q) (e : Q * Q) => if Qle_bool (snd e) m then m else snd e) l m).
    { clear. induction l as [|e l IH]; intros m H; [exact H|]. cbn [fold_left]. apply IH. destruct (Qle_bool (snd e) m) eqn:E; [exact H|].
      apply Qle_bool_false in E. lra. }
    apply G. pose proof (DD d (or_introl eq_refl)). lra. }
  assert (R := radius_pos _ _ M RO).
  set (f := nth (i mod List.length flows) flows _).
  assert (FI : In f flows) by (apply nth_In, Nat.mod_upper_bound; destruct flows; [congruence | cbn [List.length]; lia]).
  destruct (FL f FI) as (U & F1 & F2 & [B1 B2]).
  symmetry.
  replace (r + dy + fst (sp_offset sp))%Z with (r + fst (sp_offset sp) + dy)%Z in * by lia.
  replace (c + dx + snd (sp_offset sp))%Z with (c + snd (sp_offset sp) + dx)%Z in * by lia.
  apply (img_gen_shift ex _ _ _ _ _ rad dy dx); try assumption.
  - apply Forall_forall. intros p P. apply in_map_iff in P. destruct P as (j & <- & _). apply first_proper; assumption.
  - apply Forall2_map_same. intros j _. apply (second_moved sq g sp pb rx ry LAW VAL SQ (Child (Child k 0) i) _ f u v dy dx j); try assumption; lia.
Qed.
Print Assumptions C79_shift.

(** ** C80: without flow, variation and noise the two images coincide *)
Theorem C80_static : forall ex sq g sp pb rx ry mask h k flows o, lawful g -> valid_ranges sp -> noiseless sp ->
  respects ex -> sqrt_like sq -> (1 <= fst pb)%Z -> (1 <= snd pb)%Z -> flows <> [] ->
  (forall f, In f flows -> uniform 0 0 f /\ (1 <= fH f)%Z /\ (1 <= fW f)%Z) ->
  In o (generate ex sq g sp pb rx ry mask h k flows) -> same_image (out1 o) (out2 o).
Proof.
  intros ex sq g sp pb rx ry mask h k flows o LAW VAL NL RE SQ P1 P2 NE FL I.
  unfold generate in I. cbn [split2] in I. apply in_map_iff in I. destruct I as (i & <- & _). cbn [scan_body out1 out2].
  set (f := nth (i mod List.length flows) flows _).
  assert (FI : In f flows) by (apply nth_In, Nat.mod_upper_bound; destruct flows; [congruence | cbn [List.length]; lia]).
  destruct (FL f FI) as (U & F1 & F2).
  set (d := density g sp _ i).
  assert (PW : pointwise (img_gen ex (map (first_particle sq g sp pb (Child (Child k 0) i) d) (seq 0 (num_particles sp pb))) (fst pb) (snd pb) (max_snd (sp_diameters sp)) false)
                         (img_gen ex (map (second_particle sq g sp pb rx ry (Child (Child k 0) i) d f) (seq 0 (num_particles sp pb))) (fst pb) (snd pb) (max_snd (sp_diameters sp)) false)).
  { apply img_gen_proper; [assumption|]. apply Forall2_map_same. intros j _.
    assert (Z1 : forall a b n m, 0 * a * b * n / m == inject_Z 0) by (intros; unfold Qdiv; change (inject_Z 0) with 0; ring).
    pose proof (second_moved sq g sp pb rx ry LAW VAL SQ (Child (Child k 0) i) d f 0 0 0%Z 0%Z j NL U F1 F2 P1 P2 (Z1 _ _ _ _) (Z1 _ _ _ _)) as (M1 & M2 & M3 & M4 & M5 & M6).
    change (inject_Z 0) with 0 in M1, M2. unfold same_particle. rewrite M1, M2, M3, M4, M5, M6. repeat split; try reflexivity; ring. }
  match type of PW with pointwise ?a ?b => set (im1 := a) in *; set (im2 := b) in * end.
  destruct PW as (R & C & E).
  assert (N : forall k1 k2, same_image (masked mask (noisy g sp k1 im1)) (masked mask (noisy g sp k2 im2))).
  { intros k1 k2. assert (NN : forall r c, at_ (noisy g sp k1 im1) r c == at_ (noisy g sp k2 im2) r c).
    { intros r c. rewrite !(still_noise g sp _ _ _ _ LAW NL). apply clipQ_compat. apply E. }
    unfold masked. destruct mask as [m|]; (split; [|split]); cbn [rows cols at_ noisy add_noise crop]; try (rewrite R || rewrite C; reflexivity);
      intros r c _; [specialize (NN r c); cbn [noisy add_noise at_ crop] in NN; rewrite NN; reflexivity | apply NN]. }
  unfold finish, equalized. destruct h as [h|]; [apply match_proper, N | apply N].
Qed.
Print Assumptions C80_static.

Definition still_spec : gspec := mkGspec 2 (16, 16)%Z (12, 12)%Z (3 # 1600, 6 # 1600) 0 0
  [(1 # 2, 1); (3 # 4, 2)] 0 [(50, 200)] 0 [(-(9 # 10), 9 # 10)] 0 1 0 0 0.
Definition drift : flow := mkFlow 20 20 (fun _ _ => 1 # 2) (fun _ _ => 1).
Definition still_run : list pair_out := generate toy_ex (fun a => a) toy_gen still_spec (40, 40)%Z 1 1 None None (Seed 5) [drift].
Definition lit_pixel (o : pair_out) : option (Z * Z) :=
  find (fun rc => negb (Qle_bool (at_ (out1 o) (fst rc) (snd rc)) 0)) (list_prod (zrange 0 16) (zrange 0 16)).

Example C79_C80_case : lawful toy_gen /\ valid_ranges still_spec /\ noiseless still_spec /\ respects toy_ex /\ sqrt_like (fun a => a) /\
  radius_of (max_snd (sp_diameters still_spec)) 3 /\ uniform (1 # 2) 1 drift /\
  displaced_by still_spec (40, 40)%Z 1 1 (1 # 2) 1 drift 2 1 /\
  deep_pixel still_spec (40, 40)%Z 3 4 5 /\ deep_pixel still_spec (40, 40)%Z 3 (4 + 2) (5 + 1) /\
  exists o r c, In o still_run /\ lit_pixel o = Some (r, c) /\ deep_pixel still_spec (40, 40)%Z 3 r c.
Proof.
  split; [exact toy_lawful|]. split; [exact toy_valid|]. split; [repeat split; vm_compute; reflexivity|]. split; [exact (proj1 toy_exp_like)|].
  split; [intros a A; exact A|]. split; [vm_compute; split; [discriminate | reflexivity]|].
  split; [intros r c; split; reflexivity|]. split; [split; vm_compute; reflexivity|].
  split; [split; unfold deep; cbn; lia|]. split; [split; unfold deep; cbn; lia|].
  eexists _, _, _. split; [left; reflexivity|]. split; [vm_compute; reflexivity|]. split; unfold deep; cbn; lia.
Qed.

(** The same run with the first image's particles hidden: its second image is still lit. *)
Definition hidden_spec : gspec := mkGspec 2 (16, 16)%Z (12, 12)%Z (3 # 1600, 6 # 1600) 1 0
  [(1 # 2, 1); (3 # 4, 2)] 0 [(50, 200)] 0 [(-(9 # 10), 9 # 10)] 0 1 0 0 0.
Example C78_case : lawful toy_gen /\ valid_ranges hidden_spec /\ sp_hide1 hidden_spec == 1 /\
  exists o, In o (generate toy_ex (fun a => a) toy_gen hidden_spec (40, 40)%Z 1 1 None None (Seed 5) [drift]) /\ ~ at_ (out2 o) 2 14 == 0.
Proof.
  split; [exact toy_lawful|]. split; [exact toy_valid|]. split; [reflexivity|].
  eexists. split; [left; reflexivity|]. vm_compute. discriminate.
Qed.
