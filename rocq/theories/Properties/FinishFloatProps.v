(** Property C114: generated images in float arithmetic. *)
From Coq Require Import List Arith ZArith QArith Qreals Bool Reals Lia Lqa Lra.
From Flocq Require Import Core IEEE754.BinarySingleNaN.
From Verif Require Import Prelude Model.Interp Model.Geometry Model.Render Model.DataGen Model.InterpFloat Model.Hist Model.HistFloat Model.DrawFloat Model.MoveFloat Model.SampleFloat Model.FinishFloat.
From Verif Require Import Spec.RenderSpec Spec.InterpFloatSpec Spec.HistFloatSpec Spec.DrawFloatSpec Spec.KernelFloatSpec Spec.MoveFloatSpec Spec.SampleFloatSpec Spec.FinishFloatSpec.
From Verif Require Import Proofs.InterpProofs Proofs.FloatProofs Proofs.InterpFloatProofs Proofs.InterpBinary Proofs.DrawFloatProofs Proofs.PlaceFloatProofs Proofs.DrawnPixel Proofs.KernelError Proofs.KernelFloatProofs Proofs.KernelImage Proofs.MoveFloatProofs Proofs.HistFloatProofs Proofs.SampleFloatProofs Proofs.FinishFloatProofs.
From Verif Require Import Properties.HistFloatProps Properties.DrawFloatProps Properties.SampleFloatProps.
Import ListNotations.
Local Open Scope R_scope.

(** * C114 *)
(** A pixel with noise is a grey level, whatever the draws and however large the
    deviation; while nothing overflows it is the exact number up to rounding. *)
Theorem C114_noise : forall fused nu mean std z x k, within (bpow radix2 100) nu -> 0 <= real nu -> within (bpow radix2 100) mean ->
  finite std -> finite z -> within (bpow radix2 100) x -> bits23 k ->
  let y := noise32 fused mean std (draw32 fused (f32_ofZ 0) nu k) z x in
  let size := Rabs (real x) + real nu + Rabs (real mean) + Rabs (real z * real std) in
  grey y /\
  (size <= bpow radix2 101 ->
   Rabs (real y - clipped true (real x + (unit_of k * real nu + real mean + real z * real std))) <= 8 / 16777216 * size + bpow radix2 (-147)).
Proof.
  intros fused nu mean std z x k WU NU WM FS FZ WX K y size. split; [apply noise_grey; assumption|]. intros S.
  pose proof (noise_error fused nu mean std z x k WU NU WM FS FZ WX K S) as E. fold y in E. fold size in E. unfold u in E. lra.
Qed.
Print Assumptions C114_noise.

(** Without noise only the clipping remains, exactly. *)
Theorem C114_quiet : forall fused nu mean std z x k, finite nu -> finite mean -> finite std -> finite z ->
  real nu = 0 -> real mean = 0 -> real std = 0 -> within (bpow radix2 100) x -> bits23 k ->
  real (noise32 fused mean std (draw32 fused (f32_ofZ 0) nu k) z x) = clipped true (real x).
Proof.
  intros fused nu mean std z x k FU FM FS FZ EU EM ES [FX BX] K.
  assert (B0 : forall v, real v = 0 -> Rabs (real v) <= bpow radix2 100) by (intros v ->; rewrite Rabs_R0; apply bpow_ge_0).
  destruct (uniform_noise fused nu k (conj FU (B0 nu EU)) ltac:(lra) K) as (FW & RW & _). set (w := draw32 _ _ _ _) in *.
  assert (EW : real w = 0) by lra. pose proof (real_float x FX) as TX.
  assert (RX : rn32 (real x) = real x) by (apply round_generic; [apply valid_rnd_N | exact TX]).
  assert (FI : fits (real x)) by (apply small_fits; eapply Rle_trans; [exact BX | apply bpow_le; lia]).
  assert (A : forall a b, rep a (real x) -> finite b -> real b = 0 -> rep (plus32 a b) (real x)).
  { intros a b RA FB EB. pose proof (rep_add a b (real x) (real b) RA (real_rep b FB)) as P. rewrite EB, Rplus_0_r, RX in P. exact (P FI). }
  pose proof (A _ _ (A _ _ (real_rep x FX) FW EW) FM EM) as R2.
  assert (R3 : rep (madd32 fused z std (plus32 (plus32 x w) mean)) (real x)).
  { pose proof (rep_madd fused z std _ _ _ _ (real_rep z FZ) (real_rep std FS) R2) as P.
    assert (M0 : moved_by fused (real z) (real std) = 0) by (unfold moved_by; rewrite ES, Rmult_0_r; destruct fused; [reflexivity | apply rn32_0]).
    rewrite M0, Rplus_0_l, RX in P. apply P; [|exact FI]. rewrite ES, Rmult_0_r, rn32_0. apply small_fits. rewrite Rabs_R0. apply bpow_ge_0. }
  destruct (rep_real _ _ R3) as [F3 E3]. destruct (clip_255 _ F3) as [_ C]. unfold noise32, real at 1. rewrite C. fold (real (madd32 fused z std (plus32 (plus32 x w) mean))). rewrite E3. reflexivity.
Qed.
Print Assumptions C114_quiet.

Section Generator.
Variables (eps : R) (ex : f32 -> f32) (fused recip : bool) (g : source32) (sp : spec32) (re : rest32) (pb : Z * Z) (rx ry : f32) (flows : list flow32) (rad : Z).
Hypothesis S : setup eps ex g sp re pb rx ry flows rad.

Lemma one_image : forall ps k im out, Forall placed ps -> Forall ordinary ps -> (Z.of_nat (List.length ps) <= 2 ^ 23)%Z ->
  drawn32 ex ps (fst pb) (snd pb) (v_max_diameter re) false im -> finished32 fused g re k im out ->
  grey_image (v_image re) out /\
  exists pre, grey_image (v_image re) pre /\ delivered re pre out /\
    forall r c, (0 <= r < fst (v_image re))%Z -> (0 <= c < snd (v_image re))%Z -> shows eps g re (lastc (fst pb) rad) (lastc (snd pb) rad) rad k ps pre r c.
Proof.
  intros ps k im out P O L D F. destruct S as (EPS & EX & EU & G & SP & NO & MO & IA & MD & RO & R1 & RM & RX & RY & FW & NN).
  pose proof (fun row col A B => picture_pixel_all ex eps ps (fst pb) (snd pb) (v_max_diameter re) rad false im row col EPS EX EU MD RO R1 RM P O L D A B) as PP.
  assert (SH : g_rows im = fst pb /\ g_cols im = snd pb) by (destruct D as (raw & (E1 & E2 & _) & ->); split; assumption).
  assert (T : 2 * bpow radix2 43 = bpow radix2 44) by (change 2 with (bpow radix2 1); rewrite <- bpow_plus; reflexivity).
  assert (WI : forall r c, (0 <= r < fst pb)%Z -> (0 <= c < snd pb)%Z -> within (bpow radix2 44) (g_at im r c)).
  { intros r c A B. destruct (PP r c A B) as (m & s & t & a & _ & F1 & _ & F2 & F3). split; [exact F1|]. unfold real. lra. }
  destruct (finished_grey fused g re pb k im G NO MO IA (proj1 SH) (proj2 SH) WI out F) as [G1 G2]. split; [exact G1|].
  eexists. split; [exact (before_grey fused g re pb k im G NO MO IA (proj1 SH) (proj2 SH) WI)|]. split; [exact G2|].
  intros r c A B. destruct IA as (I1 & I2 & I3 & I4 & I5 & I6).
  destruct (PP (r + fst (v_offset re))%Z (c + snd (v_offset re))%Z ltac:(lia) ltac:(lia)) as (m & s & t & a & PI & F1 & F2 & F3 & F4).
  exists m, s, t, a. split; [exact PI|]. intros NS.
  apply (before_error fused g re pb k im G NO MO (conj I1 (conj I2 (conj I3 (conj I4 (conj I5 I6))))) (proj1 SH) (proj2 SH) WI r c s _ a A B); [exact F2 | exact F3 | lra | exact NS].
Qed.

Lemma generated_images : forall k outs, generated32 ex fused recip g sp re pb rx ry k flows outs ->
  List.length outs = v_batch re /\
  exists n, num64 pb (snd (v_density re)) = Some n /\
  forall i o1 o2, nth_error outs i = Some (o1, o2) ->
    exists f lasty lastx pre1 pre2, nth_error flows (i mod List.length flows) = Some f /\ far (fst pb) rad lasty /\ far (snd pb) rad lastx /\
      let key_i := Child (Child k 0) i in
      let d := density32 fused (v_density re) (s_bits g (Child k 1) (v_batch re) i) in
      let ps1 := firsts32 fused g sp pb (Z.to_nat n) key_i d in
      let ps2 := seconds32 fused recip g sp pb (Z.to_nat n) rx ry key_i d f in
      grey_image (v_image re) o1 /\ grey_image (v_image re) o2 /\ grey_image (v_image re) pre1 /\ grey_image (v_image re) pre2 /\
      delivered re pre1 o1 /\ delivered re pre2 o2 /\
      forall r c, (0 <= r < fst (v_image re))%Z -> (0 <= c < snd (v_image re))%Z ->
        shows eps g re lasty lastx rad (Child key_i 4) ps1 pre1 r c /\ shows eps g re lasty lastx rad (Child key_i 5) ps2 pre2 r c.
Proof.
  intros k outs GE. unfold generated32, split2 in GE. destruct GE as (n & EN & LE & GE). split; [exact LE|]. exists n. split; [exact EN|].
  intros i o1 o2 EO. destruct (GE i (o1, o2) EO) as (f & EF & im1 & im2 & D1 & D2 & F1 & F2). cbn [fst snd] in F1, F2.
  destruct S as (EPS & EX & EU & G & SP & NO & MO & IA & MD & RO & R1 & RM & RX & RY & FW & NN). specialize (NN n EN).
  assert (PB : bounds_ok pb) by (destruct RM; split; lia).
  assert (FF : flow_within (bpow radix2 20) f) by (rewrite Forall_forall in FW; apply FW; eapply nth_error_In; exact EF).
  destruct (lasts (fst pb) (snd pb) _ rad MD RO RM) as [L1 L2].
  destruct (C113_particles fused recip g sp pb (Z.to_nat n) rx ry (Child (Child k 0) i) (density32 fused (v_density re) (s_bits g (Child k 1) (v_batch re) i)) f (bpow radix2 20) G SP PB FF (Rle_refl _) RX RY)
    as (_ & _ & P1 & P2 & O1 & O2 & N1 & N2).
  destruct (one_image _ _ _ _ P1 O1 ltac:(rewrite N1; lia) D1 F1) as (G1 & pre1 & K1 & K2 & K3).
  destruct (one_image _ _ _ _ P2 O2 ltac:(rewrite N2; lia) D2 F2) as (G2 & pre2 & M1 & M2 & M3).
  exists f, (lastc (fst pb) rad), (lastc (snd pb) rad), pre1, pre2. split; [exact EF|]. split; [exact L1|]. split; [exact L2|].
  cbv zeta. split; [exact G1|]. split; [exact G2|]. split; [exact K1|]. split; [exact M1|]. split; [exact K2|]. split; [exact M2|].
  intros r c A B. split; [apply K3 | apply M3]; assumption.
Qed.
End Generator.

(** The generator delivers as many pairs as asked for; in each, both images have
    the asked shape and only grey levels; they come from images that show the
    particles of the pair and the noise, each image with noise of its own, up to
    rounding. *)
Theorem C114_images : forall eps ex fused recip g sp re pb rx ry flows rad, setup eps ex g sp re pb rx ry flows rad ->
  forall k outs, generated32 ex fused recip g sp re pb rx ry k flows outs ->
  List.length outs = v_batch re /\
  exists n, num64 pb (snd (v_density re)) = Some n /\
  forall i o1 o2, nth_error outs i = Some (o1, o2) ->
    exists f lasty lastx pre1 pre2, nth_error flows (i mod List.length flows) = Some f /\ far (fst pb) rad lasty /\ far (snd pb) rad lastx /\
      let key_i := Child (Child k 0) i in
      let d := density32 fused (v_density re) (s_bits g (Child k 1) (v_batch re) i) in
      let ps1 := firsts32 fused g sp pb (Z.to_nat n) key_i d in
      let ps2 := seconds32 fused recip g sp pb (Z.to_nat n) rx ry key_i d f in
      grey_image (v_image re) o1 /\ grey_image (v_image re) o2 /\ grey_image (v_image re) pre1 /\ grey_image (v_image re) pre2 /\
      delivered re pre1 o1 /\ delivered re pre2 o2 /\
      forall r c, (0 <= r < fst (v_image re))%Z -> (0 <= c < snd (v_image re))%Z ->
        shows eps g re lasty lastx rad (Child key_i 4) ps1 pre1 r c /\ shows eps g re lasty lastx rad (Child key_i 5) ps2 pre2 r c.
Proof. exact generated_images. Qed.
Print Assumptions C114_images.

Lemma half_grey : forall eps g re lasty lastx rad k ps im r c, 0 <= eps <= / 1048576 -> Forall ordinary ps ->
  Forall (moderate lasty lastx rad (r + fst (v_offset re)) (c + snd (v_offset re))) ps -> shows eps g re lasty lastx rad k ps im r c ->
  noise_size g re k r c <= 1000 ->
  exists m s t a, picture eps lasty lastx rad (r + fst (v_offset re)) (c + snd (v_offset re)) ps m s t a /\
    ((m <= 16)%nat -> Rabs (real (g_at im r c) - open_at re r c * clipped true (s + noise_at g re k r c)) <= / 2).
Proof.
  intros eps g re lasty lastx rad k ps im r c EPS OR MO (m & s & t & a & PI & E) NS. exists m, s, t, a. split; [exact PI|]. intros M16.
  destruct (picture_moderate _ _ _ _ _ _ _ _ _ _ _ EPS PI OR MO) as [T A]. pose proof (grow_small m M16) as GS.
  assert (I16 : INR m <= 16) by (replace 16 with (INR 16) by (cbn; lra); apply le_INR; exact M16).
  assert (B100 : 1000 <= bpow radix2 100) by (apply Rle_trans with (bpow radix2 10); [change (bpow radix2 10) with 1024; lra | apply bpow_le; lia]).
  assert (TI : bpow radix2 (-147) <= / 1024) by (change (/ 1024) with (bpow radix2 (-10)); apply bpow_le; lia).
  specialize (E ltac:(lra)). eapply Rle_trans; [exact E|].
  assert ((Q2R (grow (Nat.pred m)) - 1) * a <= / 1000000 * a) by (apply Rmult_le_compat_r; lra). lra.
Qed.

(** For a tame specification, an exponential good to 2^-20 and noise up to 1000, a
    pixel under at most sixteen particles is within half a grey level. *)
Theorem C114_grey : forall eps ex fused recip g sp re pb rx ry flows rad, setup eps ex g sp re pb rx ry flows rad -> eps <= / 1048576 -> tame sp rad ->
  v_histogram re = None ->
  forall k outs, generated32 ex fused recip g sp re pb rx ry k flows outs ->
  exists n, num64 pb (snd (v_density re)) = Some n /\
  forall i o1 o2, nth_error outs i = Some (o1, o2) ->
    exists f lasty lastx, nth_error flows (i mod List.length flows) = Some f /\ far (fst pb) rad lasty /\ far (snd pb) rad lastx /\
      let key_i := Child (Child k 0) i in
      let d := density32 fused (v_density re) (s_bits g (Child k 1) (v_batch re) i) in
      let ps1 := firsts32 fused g sp pb (Z.to_nat n) key_i d in
      let ps2 := seconds32 fused recip g sp pb (Z.to_nat n) rx ry key_i d f in
      let close (k : key) (ps : list particle32) (o : fimage) := forall r c, (0 <= r < fst (v_image re))%Z -> (0 <= c < snd (v_image re))%Z -> noise_size g re k r c <= 1000 ->
        exists m s t a, picture eps lasty lastx rad (r + fst (v_offset re)) (c + snd (v_offset re)) ps m s t a /\
          ((m <= 16)%nat -> Rabs (real (g_at o r c) - open_at re r c * clipped true (s + noise_at g re k r c)) <= / 2) in
      close (Child key_i 4) ps1 o1 /\ close (Child key_i 5) ps2 o2.
Proof.
  intros eps ex fused recip g sp re pb rx ry flows rad S EP TA HN k outs GE.
  destruct (C114_images _ _ _ _ _ _ _ _ _ _ _ _ S k outs GE) as (_ & n & EN & GI). exists n. split; [exact EN|].
  intros i o1 o2 EO. destruct (GI i o1 o2 EO) as (f & lasty & lastx & pre1 & pre2 & EF & L1 & L2 & GI'). exists f, lasty, lastx. split; [exact EF|]. split; [exact L1|]. split; [exact L2|].
  cbv zeta in GI' |- *. destruct GI' as (_ & _ & _ & _ & D1 & D2 & SH). unfold delivered in D1, D2. rewrite HN in D1, D2. subst pre1 pre2.
  destruct S as (EPS & EX & EU & G & SP & NO & MO & IA & MD & RO & R1 & RM & RX & RY & FW & NN).
  assert (PB : bounds_ok pb) by (destruct RM; split; lia).
  assert (FF : flow_within (bpow radix2 20) f) by (rewrite Forall_forall in FW; apply FW; eapply nth_error_In; exact EF).
  destruct (C113_particles fused recip g sp pb (Z.to_nat n) rx ry (Child (Child k 0) i) (density32 fused (v_density re) (s_bits g (Child k 1) (v_batch re) i)) f (bpow radix2 20) G SP PB FF (Rle_refl _) RX RY)
    as ((dr & ir & rr & I1 & I2 & I3 & W1 & W2) & _ & P1 & P2 & O1 & O2 & N1 & N2).
  assert (MM : forall ps r c, Forall (within_ranges dr ir rr) ps -> Forall (moderate lasty lastx rad r c) ps).
  { intros ps r c W. rewrite Forall_forall in *. intros p I. apply (tame_moderate sp rad dr ir rr); auto. }
  split; intros r c A B NS; destruct (SH r c A B) as [SH1 SH2].
  - apply half_grey; [lra | exact O1 | apply MM; exact W1 | exact SH1 | exact NS].
  - apply half_grey; [lra | exact O2 | apply MM; exact W2 | exact SH2 | exact NS].
Qed.
Print Assumptions C114_grey.

(** There always is a result. *)
Definition finish (fused : bool) (g : source32) (re : rest32) (k : key) (im : fimage) : fimage :=
  let x := masked32 re (noisy32 fused g re k im) in match v_histogram re with Some h => match32 x h | None => x end.
Theorem C114_total : forall ex fused recip g sp re pb rx ry flows k n, num64 pb (snd (v_density re)) = Some n -> flows <> [] ->
  exists outs, generated32 ex fused recip g sp re pb rx ry k flows outs.
Proof.
  intros ex fused recip g sp re pb rx ry flows k n EN NE. unfold generated32, split2.
  assert (FI : forall k' im, finished32 fused g re k' im (finish fused g re k' im)).
  { intros k' im. unfold finished32, finish. cbv zeta. destruct (v_histogram re); [apply match32_matched | reflexivity]. }
  assert (DR : forall ps, drawn32 ex ps (fst pb) (snd pb) (v_max_diameter re) false (forwards (fst pb) (snd pb) (flat_map (scatter_one32 ex (fst pb) (snd pb) (patch_radius (v_max_diameter re))) ps))).
  { intros ps. eexists. split; [apply forwards_scattered | reflexivity]. }
  assert (ONE : forall i, exists o f, nth_error flows (i mod List.length flows) = Some f /\
    pair32 ex fused recip g sp re pb rx ry (Z.to_nat n) (Child (Child k 0) i) (density32 fused (v_density re) (s_bits g (Child k 1) (v_batch re) i)) f o).
  { intros i. destruct (nth_error flows (i mod List.length flows)) as [f|] eqn:E.
    - eexists (_, _). exists f. split; [reflexivity|]. eexists. eexists. split; [apply DR|]. split; [apply DR|]. cbn [fst snd]. split; apply FI.
    - exfalso. apply nth_error_None in E. assert (L : (List.length flows <> 0)%nat) by (destruct flows; [congruence | discriminate]).
      pose proof (Nat.mod_upper_bound i _ L). lia. }
  assert (ALL : forall b, exists outs, List.length outs = b /\ forall i o, nth_error outs i = Some o -> exists f, nth_error flows (i mod List.length flows) = Some f /\
    pair32 ex fused recip g sp re pb rx ry (Z.to_nat n) (Child (Child k 0) i) (density32 fused (v_density re) (s_bits g (Child k 1) (v_batch re) i)) f o).
  { induction b as [|b (outs & L & H)]; [exists []; split; [reflexivity|]; intros [|i] o E; discriminate E|].
    destruct (ONE b) as (o & f & O). exists (outs ++ [o]). split; [rewrite app_length; cbn [List.length]; lia|].
    intros i o' E. destruct (Nat.lt_ge_cases i (List.length outs)) as [I|I].
    - rewrite nth_error_app1 in E by exact I. exact (H i o' E).
    - rewrite nth_error_app2 in E by exact I. destruct (i - List.length outs)%nat as [|j] eqn:J; [|destruct j; discriminate E].
      injection E as <-. replace i with b by lia. exists f. exact O. }
  destruct (ALL (v_batch re)) as (outs & L & H). exists outs, n. auto.
Qed.
Print Assumptions C114_total.

(** Two pairs of images of 8 by 6 inside an area of 12 by 10, with noise and a mask. *)
Definition checker : fimage := @mkGimage binary32 8 6 (fun r c => f32_ofZ (Z.modulo (r + c) 2)).
Definition usual (h : option (list f32)) : rest32 :=
  mkRest32 2 (8, 6)%Z (1, 2)%Z (@Bdiv 53 1024 p64 l64 mode_NE (f64_ofZ 1) (f64_ofZ 10), @Bdiv 53 1024 p64 l64 mode_NE (f64_ofZ 2) (f64_ofZ 10)) (6 # 5)
    (f32_ofZ 5) (f32_ofZ 2) (tenths 15) (Some checker) h.
Definition gust : flow32 := mkFlow32 6 5 (fun r c => f32_ofZ (r - c)) (fun r c => f32_ofZ 1).

Lemma one_within : forall z B, (Z.abs z < 2 ^ 24)%Z -> IZR (Z.abs z) <= B -> within B (f32_ofZ z).
Proof. intros z B Z1 Z2. destruct (rep_real _ _ (rep_ofZ z ltac:(lia))) as [F E]. split; [exact F|]. rewrite E, <- abs_IZR. exact Z2. Qed.

Example C114_case : forall h, setup (/ 8388608) ex_rn halves plain (usual h) (12, 10)%Z (f32_ofZ 1) (f32_ofZ 1) [gust] 1 /\ tame plain 1 /\
  (exists outs, generated32 ex_rn true false halves plain (usual h) (12, 10)%Z (f32_ofZ 1) (f32_ofZ 1) (Seed 3) [gust] outs) /\
  num64 (12, 10)%Z (snd (v_density (usual h))) = Some 24%Z /\ counts_of (pixels_of (usual h)) (two_bins 20 28) /\
  noise_size halves (usual h) (Seed 0) 1 1 <= 1000 /\ open_at (usual h) 1 2 = 1 /\ open_at (usual h) 1 1 = 0.
Proof.
  intros h. destruct ex_rn_ok as [E1 E2]. destruct C113_case as (FA & SO & _).
  assert (B100 : 1000 <= bpow radix2 100) by (apply Rle_trans with (bpow radix2 10); [change (bpow radix2 10) with 1024; lra | apply bpow_le; lia]).
  assert (B20 : bpow radix2 20 = 1048576) by reflexivity.
  assert (V5 : real (f32_ofZ 5) = 5) by apply (rep_real _ _ (rep_ofZ 5 ltac:(lia))). assert (V2 : real (f32_ofZ 2) = 2) by apply (rep_real _ _ (rep_ofZ 2 ltac:(lia))).
  assert (N24 : num64 (12, 10)%Z (snd (v_density (usual h))) = Some 24%Z) by (vm_compute; reflexivity).
  split; [|split; [|split; [|split; [|split; [|split; [|split]]]]]].
  - split; [lra|]. split; [exact E1|]. split; [exact E2|]. split; [exact FA|]. split; [exact SO|]. split.
    { split; [|split; [|split]]; cbn [usual v_uniform v_mean v_std].
      - apply one_within; [lia|]. change (IZR (Z.abs 5)) with 5. lra.
      - rewrite V5. lra.
      - apply one_within; [lia|]. change (IZR (Z.abs 2)) with 2. lra.
      - vm_compute. reflexivity. }
    split.
    { intros m E r c _ _. cbn [usual v_mask] in E. injection E as <-. cbn [checker g_at]. pose proof (Z.mod_pos_bound (r + c) 2 ltac:(lia)) as M.
      destruct (rep_real _ _ (rep_ofZ ((r + c) mod 2) ltac:(lia))) as [F V]. split; [exact F|]. rewrite V. assert (C : ((r + c) mod 2 = 0 \/ (r + c) mod 2 = 1)%Z) by lia.
      destruct C as [-> | ->]; [left | right]; reflexivity. }
    split; [unfold inside_area; cbn; lia|]. split; [cbn; Lqa.lra|]. split; [unfold radius_of; cbn [usual v_max_diameter]; change (inject_Z 1) with 1%Q; Lqa.lra|]. split; [lia|]. split; [unfold room; cbn; lia|].
    split; [apply one_within; [lia|]; rewrite B20; change (IZR (Z.abs 1)) with 1; lra|]. split; [apply one_within; [lia|]; rewrite B20; change (IZR (Z.abs 1)) with 1; lra|].
    split; [|intros n E; rewrite N24 in E; injection E as <-; lia].
    constructor; [|constructor]. split; [cbn; lia|]. split; [cbn; lia|]. cbn [gust h_H h_W h_u h_v]. intros r c R C.
    split; (apply one_within; [lia|]; rewrite B20; apply (IZR_le _ 1048576); lia).
  - assert (Q1 : Q2R (5 # 7) = 5 / 14 * (1 + 1)) by (unfold Q2R; cbn; lra). assert (Q2 : Q2R 1048576 = 1048576) by (unfold Q2R; cbn; lra).
    assert (Q3 : Q2R (1 # 2) = / 2) by (unfold Q2R; cbn; lra). assert (Q4 : Q2R (- (1 # 2)) = - / 2) by (rewrite Q2R_opp, Q3; reflexivity). assert (Q5 : Q2R 255 = 255) by exact (Q2R_Z 255).
    unfold tame. cbn [plain t_diameters t_intensities t_rhos].
    split; [constructor; [|constructor]; apply (in_range _ _ _ _ _ _ Q1 Q2); vm_compute; (reflexivity || discriminate)|].
    split; [constructor; [|constructor; [|constructor]]; apply (in_range _ _ _ _ _ _ Q2R_0 Q5); vm_compute; (reflexivity || discriminate)|].
    constructor; [|constructor]; apply (in_range _ _ _ _ _ _ Q4 Q3); vm_compute; (reflexivity || discriminate).
  - apply (C114_total _ _ _ _ _ _ _ _ _ _ _ 24%Z N24). discriminate.
  - exact N24.
  - exact (two_bins_ok 20 28 ltac:(lia) ltac:(lia)).
  - unfold noise_size. cbn [usual v_uniform v_mean v_std]. rewrite V5, V2. unfold bell_at. cbn [halves s_normal].
    assert (T : Rabs (real (tenths 3) * real (tenths 15)) <= 1).
    { assert (W3 : Rabs (real (tenths 3)) <= / 2) by (assert (Q3 : Q2R (1 # 2) = / 2) by (unfold Q2R; cbn; lra); apply Rabs_le; rewrite <- Q3, <- Q2R_opp; split; apply Qle_Rle; vm_compute; discriminate).
      assert (W15 : Rabs (real (tenths 15)) <= 2) by (rewrite <- Q2R_2; apply Rabs_le; rewrite <- Q2R_opp; split; apply Qle_Rle; vm_compute; discriminate).
      rewrite Rabs_mult. pose proof (Rabs_pos (real (tenths 3))). pose proof (Rabs_pos (real (tenths 15))). apply Rle_trans with (/ 2 * 2); [apply Rmult_le_compat; lra | lra]. }
    rewrite (Rabs_pos_eq 2) by lra. lra.
  - unfold open_at. cbn [usual v_mask checker g_at]. exact (proj2 (rep_real _ _ (rep_ofZ 1 ltac:(lia)))).
  - unfold open_at. cbn [usual v_mask checker g_at]. exact (proj2 (rep_real _ _ (rep_ofZ 0 ltac:(lia)))).
Qed.
