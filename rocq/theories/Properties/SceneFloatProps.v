(** Property C116: images and reported flow of a batch in float arithmetic. *)
From Coq Require Import List Arith ZArith QArith Qround Qreals Qabs Qminmax Bool Reals Lia Lqa Lra.
From Flocq Require Import Core IEEE754.BinarySingleNaN.
From Verif Require Import Prelude Model.Interp Model.Apply Model.Geometry Model.DataGen Model.Render Model.InterpFloat Model.HistFloat Model.DrawFloat Model.MoveFloat Model.SampleFloat Model.FinishFloat Model.AdaptFloat Model.SceneFloat.
From Verif Require Import Spec.InterpSpec Spec.RenderSpec Spec.InterpFloatSpec Spec.LipschitzSpec Spec.DrawFloatSpec Spec.KernelFloatSpec Spec.MoveFloatSpec Spec.SampleFloatSpec Spec.FinishFloatSpec Spec.AdaptFloatSpec Spec.SceneFloatSpec.
From Verif Require Import Proofs.InterpFloatProofs Proofs.InterpBinary Proofs.KernelImage Proofs.HistFloatProofs Proofs.MoveFloatProofs Proofs.SampleFloatProofs Proofs.AdaptFloatProofs Proofs.SceneFloatProofs.
From Verif Require Import Properties.SampleFloatProps Properties.FinishFloatProps Properties.AdaptFloatProps.
From Verif Require Import Spec.AdaptFloatSpec.
Import ListNotations.
Local Open Scope R_scope.

(** * C116 *)
Lemma Forall2_same : forall (A B C : Type) (P : B -> C -> Prop) (f : A -> B) (g : A -> C) l, (forall i, P (f i) (g i)) -> Forall2 P (map f l) (map g l).
Proof. intros A B C P f g l H. induction l as [|i l IH]; cbn; constructor; auto. Qed.

Lemma Forall2_weaken : forall (A B : Type) (P Q : A -> B -> Prop) l m, (forall x y, P x y -> Q x y) -> Forall2 P l m -> Forall2 Q l m.
Proof. intros A B P Q l m H F. induction F; constructor; auto. Qed.

Section Scene.
Variables (eps : R) (ex : f32 -> f32) (w : ways) (fused recip : bool) (g : source32) (sp : spec32) (re : rest32) (a : adapter64) (rad : Z) (B M : R) (fs : list flow32).
Hypothesis U : usual a.
Hypothesis RB : reach B a.
Hypothesis CY : (fst (covered a) <= 8388608)%Q.
Hypothesis CX : (snd (covered a) <= 8388608)%Q.
Hypothesis NE : fs <> [].
Hypothesis FW : Forall (fun f => flow_within M f /\ pad_room a f) fs.
Hypothesis ST : setup eps ex g (spec_for a sp) (rest_for a re) (b_pb a) (to_f32 (b_rx a)) (to_f32 (b_ry a)) [] rad.

(** What is common to all flows: the pairs, the particles and their images, given
    that the flows for the particles are of ordinary size. *)
Lemma scene_pairs : forall k pairs reps, scene32 ex w fused recip g sp re a k fs pairs reps ->
  (forall h v f, count_ok h -> count_ok v -> In f fs -> flow_within (bpow radix2 20) (cropped32 w a h v f)) ->
  List.length pairs = b_batch a /\ List.length reps = b_batch a /\
  exists h v, size64 (fst (b_pb a)) (b_res a) (b_ry a) = Ok h /\ size64 (snd (b_pb a)) (b_res a) (b_rx a) = Ok v /\
  forall i o1 o2, nth_error pairs i = Some (o1, o2) ->
    exists f ps1 ps2, nth_error fs (i mod List.length fs) = Some f /\ nth_error reps i = Some (reported32 w a f) /\
      sampled fused recip g (spec_for a sp) (rest_for a re) (b_pb a) (to_f32 (b_rx a)) (to_f32 (b_ry a)) k i ps1 ps2 /\
      let key_i := Child (Child k 0) i in
      pictured eps g (rest_for a re) (b_pb a) rad (Child key_i 4) ps1 o1 /\ pictured eps g (rest_for a re) (b_pb a) rad (Child key_i 5) ps2 o2 /\
      Forall (in_box (b_pb a)) ps1 /\
      Forall2 (fun p1 p2 => in_box (b_pb a) p1 /\ (q_y p2, q_x p2) = second_position32 recip (b_pb a) (cropped32 w a h v f) (to_f32 (b_dt a)) (to_f32 (b_rx a)) (to_f32 (b_ry a)) (q_y p1, q_x p1)) ps1 ps2.
Proof.
  intros k pairs reps (crops & EA & GE) CO. destruct (adapter_lists w a fs U CY CX NE) as (h & v & reps' & crops' & E & E1 & E2 & H1 & H2 & L1 & L2 & N1 & N2).
  rewrite EA in E. injection E as <- <-.
  assert (S : setup eps ex g (spec_for a sp) (rest_for a re) (b_pb a) (to_f32 (b_rx a)) (to_f32 (b_ry a)) crops rad).
  { destruct ST as (S1 & S2 & S3 & S4 & S5 & S6 & S7 & S8 & S9 & S10 & S11 & S12 & S13 & S14 & _ & S15). repeat (split; [assumption|]). split; [|exact S15].
    apply Forall_forall. intros c IC. apply In_nth_error in IC. destruct IC as [i IC]. rewrite N2 in IC. destruct (nth_error fs i) as [f|] eqn:EF; [|discriminate]. injection IC as <-. apply CO; try assumption. apply nth_error_In in EF. exact EF. }
  destruct (C114_images eps ex fused recip g (spec_for a sp) (rest_for a re) (b_pb a) (to_f32 (b_rx a)) (to_f32 (b_ry a)) crops rad S k pairs GE) as (LP & n & EN & IM).
  cbn [rest_for v_batch] in LP. split; [exact LP|]. split; [exact L1|]. exists h, v. split; [exact E1|]. split; [exact E2|].
  intros i o1 o2 EO. destruct (IM i o1 o2 EO) as (c & lasty & lastx & pre1 & pre2 & EC & F1 & F2 & G1 & G2 & P1 & P2 & D1 & D2 & SH).
  assert (I : (i < b_batch a)%nat) by (rewrite <- LP; apply nth_error_Some; rewrite EO; discriminate).
  rewrite L2 in EC. rewrite N2 in EC. destruct (nth_error fs (i mod List.length fs)) as [f|] eqn:EF; [|discriminate]. injection EC as <-.
  set (key_i := Child (Child k 0) i) in *. set (d := density32 fused _ _) in *.
  exists f, (firsts32 fused g (spec_for a sp) (b_pb a) (Z.to_nat n) key_i d), (seconds32 fused recip g (spec_for a sp) (b_pb a) (Z.to_nat n) (to_f32 (b_rx a)) (to_f32 (b_ry a)) key_i d (cropped32 w a h v f)).
  split; [reflexivity|]. split; [rewrite N1, EF by exact I; reflexivity|]. split; [exists n, (cropped32 w a h v f); split; [exact EN|]; split; reflexivity|]. cbv zeta.
  split; [split; [exact G1|]; exists pre1, lasty, lastx; repeat (split; [assumption|]); intros r c R C; apply (SH r c R C)|].
  split; [split; [exact G2|]; exists pre2, lasty, lastx; repeat (split; [assumption|]); intros r c R C; apply (SH r c R C)|].
  destruct ST as (_ & _ & _ & S4 & S5 & _). pose proof U as (_ & _ & _ & _ & PB & _).
  assert (BX : forall j, in_box (b_pb a) (first32p fused g (spec_for a sp) (b_pb a) (Z.to_nat n) key_i d j)) by (intros j; apply first_box; assumption).
  split; [apply Forall_forall; intros p IP; apply in_map_iff in IP; destruct IP as (j & <- & _); apply BX|].
  apply Forall2_same. intros j. split; [apply BX|]. unfold first32p, second32p. destruct (position32 g (b_pb a) (Z.to_nat n) key_i j) as [y x].
  destruct (fst (params32 fused g (spec_for a sp) (Z.to_nat n) key_i j)) as [[[dx dy] rho] amp].
  cbn [q_y q_x]. cbn [spec_for t_dt]. destruct (second_position32 recip (b_pb a) (cropped32 w a h v f) (to_f32 (b_dt a)) (to_f32 (b_rx a)) (to_f32 (b_ry a)) (y, x)) as [y' x'].
  destruct (snd (params32 fused g (spec_for a sp) (Z.to_nat n) key_i j)) as [[[dx2 dy2] rho2] amp2]. reflexivity.
Qed.

Lemma crop_within : forall e Mx f gg h v, count_ok h -> count_ok v -> flow_near e (cropped32 w a h v f) gg ->
  (forall i j, (0 <= i < h)%Z -> (0 <= j < v)%Z -> Rabs (Q2R (fu gg i j)) <= Mx /\ Rabs (Q2R (fv gg i j)) <= Mx) -> Mx + e <= bpow radix2 20 ->
  flow_within (bpow radix2 20) (cropped32 w a h v f).
Proof.
  intros e Mx f gg h v H V (N1 & N2 & N) A L. split; [exact H|]. split; [exact V|]. cbn [cropped32 h_H h_W] in *. rewrite <- N1, <- N2 in N. intros i j I J.
  destruct (N i j I J) as [[F1 X1] [F2 X2]]. destruct (A i j I J) as [Y1 Y2].
  assert (T : forall q s, Rabs (q - s) <= e -> Rabs s <= Mx -> Rabs q <= bpow radix2 20) by (intros q s P Q; replace q with (s + (q - s)) by ring; eapply Rle_trans; [apply Rabs_triang | lra]).
  split; (split; [assumption|]); eapply T; eassumption.
Qed.

Lemma covering_within : forall Dx Dy f h v i j, flow_within M f -> varies Dx Dy f -> pad_room a f ->
  Rabs (Q2R (fu (covering (numbers a) h v (flow_of f)) i j)) <= M /\ Rabs (Q2R (fv (covering (numbers a) h v (flow_of f)) i j)) <= M.
Proof.
  intros Dx Dy f h v i j F V [P1 P2]. destruct (flow_chans M Dx Dy f F V) as [C0 C1]. pose proof U as (_ & _ & _ & _ & _ & _ & _ & PY & PX).
  assert (G : forall at0 qx qy, chan_ok M Dx Dy (h_H f) (h_W f) at0 -> Rabs (Q2R (bilinear (values (padded (fst (b_pad a)) (snd (b_pad a)) (h_H f) (h_W f) at0)) qx qy)) <= M).
  { intros at0 qx qy C. destruct (chan_ready M Dx Dy _ _ at0 _ _ C PY PX P1 P2) as (SZ & PM & _). apply Rabs_le. apply exact_between; [destruct SZ; split; cbn [values rows cols]; lia|].
    intros r c R CC. apply neighbour_in in R, CC. cbn [values rows cols at_] in *. destruct (PM r c R CC) as [FF E]. rewrite (value_R _ FF). apply Rabs_le_inv. exact E. }
  split; [apply (G (h_u f)); exact C0 | apply (G (h_v f)); exact C1].
Qed.
End Scene.

Lemma size_about : forall a, usual a -> (fst (covered a) <= 8388608)%Q -> (snd (covered a) <= 8388608)%Q -> forall h v,
  size64 (fst (b_pb a)) (b_res a) (b_ry a) = Ok h -> size64 (snd (b_pb a)) (b_res a) (b_rx a) = Ok v ->
  about_floor (inject_Z (fst (b_pb a)) / double (b_res a)) (fst (covered a)) h /\ about_floor (inject_Z (snd (b_pb a)) / double (b_res a)) (snd (covered a)) v.
Proof.
  intros a U C1 C2 h v E1 E2.
  assert (E : adapter32 (mkWays false None) a [mkFlow32 1 1 (fun _ _ => f32_ofZ 0) (fun _ _ => f32_ofZ 0)] =
    Ok (firstn (b_batch a) (List.concat (repeat (map (reported32 (mkWays false None) a) [mkFlow32 1 1 (fun _ _ => f32_ofZ 0) (fun _ _ => f32_ofZ 0)]) ((b_batch a + 1 - 1) / 1)%nat)), [cropped32 (mkWays false None) a h v (mkFlow32 1 1 (fun _ _ => f32_ofZ 0) (fun _ _ => f32_ofZ 0))])).
  { unfold adapter32. rewrite E1, E2. reflexivity. }
  exact (C115_size _ a _ _ _ U C1 C2 E _ (or_introl eq_refl)).
Qed.

(** Any flows: the images of a pair show particles that move as in exact
    arithmetic, in the flow whose exact crop is reported with the pair. *)
Theorem C116_carried : forall eps ex w fused recip g sp re a rad B M Dx Dy fs, usual a -> reach B a ->
  (fst (covered a) <= 8388608)%Q -> (snd (covered a) <= 8388608)%Q -> fs <> [] ->
  Forall (fun f => flow_within M f /\ varies Dx Dy f /\ pad_room a f) fs -> M + blur M Dx Dy B <= bpow radix2 19 ->
  setup eps ex g (spec_for a sp) (rest_for a re) (b_pb a) (to_f32 (b_rx a)) (to_f32 (b_ry a)) [] rad ->
  forall k pairs reps, scene32 ex w fused recip g sp re a k fs pairs reps ->
  List.length pairs = b_batch a /\ List.length reps = b_batch a /\
  exists h v, about_floor (inject_Z (fst (b_pb a)) / double (b_res a)) (fst (covered a)) h /\ about_floor (inject_Z (snd (b_pb a)) / double (b_res a)) (snd (covered a)) v /\
  forall i o1 o2, nth_error pairs i = Some (o1, o2) ->
    exists f o ps1 ps2, nth_error fs (i mod List.length fs) = Some f /\ nth_error reps i = Some o /\
      sampled fused recip g (spec_for a sp) (rest_for a re) (b_pb a) (to_f32 (b_rx a)) (to_f32 (b_ry a)) k i ps1 ps2 /\
      let key_i := Child (Child k 0) i in
      pictured eps g (rest_for a re) (b_pb a) rad (Child key_i 4) ps1 o1 /\ pictured eps g (rest_for a re) (b_pb a) rad (Child key_i 5) ps2 o2 /\
      Forall (in_box (b_pb a)) ps1 /\
      Forall2 (carried (3 * blur M Dx Dy B) (numbers a) (covering (numbers a) h v (flow_of f))) ps1 ps2 /\
      flow_near (factor a * blur M Dx Dy B + bpow radix2 (-100)) o (fst (process_single (numbers a) (flow_of f))).
Proof.
  intros eps ex w fused recip g sp re a rad B M Dx Dy fs U RB CY CX NE FW MB ST k pairs reps SC. rewrite Forall_forall in FW.
  assert (M40 : forall f, In f fs -> 0 <= M <= bpow radix2 40 /\ 0 <= blur M Dx Dy B).
  { intros f IF. destruct (FW f IF) as (F1 & (D0 & D1 & _) & _). destruct F1 as (H1 & H2 & A). destruct (A 0%Z 0%Z ltac:(lia) ltac:(lia)) as [[_ X] _]. pose proof (Rabs_pos (real (h_u f 0 0))) as X0.
    apply Qle_Rle in D0, D1. rewrite Q2R_0 in D0, D1.
    assert (B0 : 0 <= B).
    { destruct RB as (_ & _ & RY & _). pose proof U as ((O & OX & OY) & (SY & _) & _ & _ & (BY & _) & _). rewrite Q2R_plus, span_Q in RY by exact O. pose proof (shift_R _ _ SY OY) as P. rewrite <- Q2R_mult in P.
      unfold count_ok in BY. destruct (span_range (fst (b_pb a)) _ _ ltac:(lia) O OY) as [[S0 _] _]. lra. }
    assert (0 <= blur M Dx Dy B). { unfold blur. pose proof (bpow_gt_0 radix2 (-20)). assert (0 <= bpow radix2 (-20) * M) by (apply Rmult_le_pos; lra). assert (0 <= (Q2R Dx + Q2R Dy) * B) by (apply Rmult_le_pos; lra). lra. }
    split; [|assumption]. split; [lra|]. apply Rle_trans with (bpow radix2 19); [lra | apply bpow_le; lia]. }
  assert (CO : forall h v f, count_ok h -> count_ok v -> In f fs -> flow_within (bpow radix2 20) (cropped32 w a h v f)).
  { intros h v f H V IF. destruct (FW f IF) as (F1 & F2 & F3). destruct (M40 f IF) as [M4 B4].
    apply (crop_within w a (blur M Dx Dy B + bpow radix2 (-100)) M f (covering (numbers a) h v (flow_of f))); [exact H | exact V | apply cropped_near; try assumption; lra | |].
    - intros i j _ _. apply (covering_within a M U Dx Dy); assumption.
    - assert (T : bpow radix2 (-100) <= 1) by (change 1 with (bpow radix2 0); apply bpow_le; lia). change (bpow radix2 20) with 1048576. change (bpow radix2 19) with 524288 in MB. lra. }
  destruct (scene_pairs eps ex w fused recip g sp re a rad fs U CY CX NE ST k pairs reps SC CO) as (L1 & L2 & h & v & E1 & E2 & PA).
  split; [exact L1|]. split; [exact L2|]. exists h, v. destruct (size_about a U CY CX h v E1 E2) as [A1 A2]. split; [exact A1|]. split; [exact A2|].
  intros i o1 o2 EO. destruct (PA i o1 o2 EO) as (f & ps1 & ps2 & EF & ER & SA & P1 & P2 & BX & MV). pose proof (nth_error_In _ _ EF) as IF. destruct (FW f IF) as (F1 & F2 & F3).
  exists f, (reported32 w a f), ps1, ps2. split; [exact EF|]. split; [exact ER|]. split; [exact SA|]. split; [exact P1|]. split; [exact P2|]. split; [exact BX|].
  split; [|apply reported_near; try assumption; apply (M40 f IF)].
  eapply Forall2_weaken; [|exact MV]. cbv beta. intros p1 p2 [X1 X2]. exact (particle_carried recip w a B M f h v p1 p2 U RB CY CX E1 E2 F1 F3 X1 X2 Dx Dy F2 MB).
Qed.
Print Assumptions C116_carried.

(** Uniform flows, reported in pixels: every particle moves what is reported, but
    for one factor per axis that is the same for all particles, and rounding. *)
Theorem C116_uniform : forall eps ex w fused recip g sp re a rad B M fs, usual a -> reach B a -> b_pixels a = true ->
  (1 <= fst (covered a) <= 8388608)%Q -> (1 <= snd (covered a) <= 8388608)%Q -> fs <> [] ->
  Forall (fun f => flow_within M f /\ (exists u v, uniform32 u v f) /\ pad_room a f) fs -> M <= bpow radix2 19 ->
  setup eps ex g (spec_for a sp) (rest_for a re) (b_pb a) (to_f32 (b_rx a)) (to_f32 (b_ry a)) [] rad ->
  forall k pairs reps, scene32 ex w fused recip g sp re a k fs pairs reps ->
  exists rho_y rho_x, stretch (inject_Z (fst (b_pb a)) / double (b_res a)) (fst (covered a)) rho_y /\ stretch (inject_Z (snd (b_pb a)) / double (b_res a)) (snd (covered a)) rho_x /\
  forall i o1 o2, nth_error pairs i = Some (o1, o2) ->
    exists o ps1 ps2, nth_error reps i = Some o /\ h_H o = fst (b_new a) /\ h_W o = snd (b_new a) /\
      sampled fused recip g (spec_for a sp) (rest_for a re) (b_pb a) (to_f32 (b_rx a)) (to_f32 (b_ry a)) k i ps1 ps2 /\
      let key_i := Child (Child k 0) i in
      pictured eps g (rest_for a re) (b_pb a) rad (Child key_i 4) ps1 o1 /\ pictured eps g (rest_for a re) (b_pb a) rad (Child key_i 5) ps2 o2 /\
      Forall2 (follows rho_y rho_x o) ps1 ps2.
Proof.
  intros eps ex w fused recip g sp re a rad B M fs U RB PX [CY1 CY] [CX1 CX] NE FW M19 ST k pairs reps SC. rewrite Forall_forall in FW.
  assert (D19 : bpow radix2 19 = 524288) by reflexivity. assert (D20 : bpow radix2 20 = 1048576) by reflexivity.
  assert (CO : forall h v f, count_ok h -> count_ok v -> In f fs -> flow_within (bpow radix2 20) (cropped32 w a h v f)).
  { intros h v f H V IF. destruct (FW f IF) as ((HH & HW & FA) & (u0 & v0 & UN) & P1 & P2).
    assert (T : bpow radix2 (-100) <= / 2) by (change (/ 2) with (bpow radix2 (-1)); apply bpow_le; lia). assert (E20 : bpow radix2 (-20) = / 1048576) by reflexivity.
    assert (N : forall at0 s, (forall r c, (0 <= r < h_H f)%Z -> (0 <= c < h_W f)%Z -> finite (at0 r c) /\ real (at0 r c) = real s) -> Rabs (real s) <= bpow radix2 19 ->
      forall i j, (0 <= i < h)%Z -> (0 <= j < v)%Z ->
      let x := bilinear32 (padded (fst (b_pad a)) (snd (b_pad a)) (h_H f) (h_W f) at0) (par32 w (snd (b_pbo a)) (b_res a) (b_rx a) (snd (b_pb a)) v j) (par32 w (fst (b_pbo a)) (b_res a) (b_ry a) (fst (b_pb a)) h i) in
      finite x /\ Rabs (real x) <= bpow radix2 20).
    { intros at0 s A BS i j I J x. destruct (uniform_cropped w a B s at0 (h_H f) (h_W f) h v i j U RB ltac:(eapply Rle_trans; [exact BS | apply bpow_le; lia]) ltac:(lia) ltac:(lia) A P1 P2 H V I J) as [F E]. fold x in F, E. split; [exact F|].
      replace (real x) with (real s + (real x - real s)) by ring. eapply Rle_trans; [apply Rabs_triang|]. rewrite E20 in E. rewrite D20. rewrite D19 in BS. lra. }
    split; [exact H|]. split; [exact V|]. cbn [cropped32 h_H h_W]. intros i j I J. destruct (FA 0%Z 0%Z ltac:(lia) ltac:(lia)) as [[_ X0] [_ X1]]. destruct (UN 0%Z 0%Z ltac:(lia) ltac:(lia)) as [Y0 Y1]. rewrite Y0 in X0. rewrite Y1 in X1.
    split; [apply (N (h_u f) u0); try assumption; [|lra] | apply (N (h_v f) v0); try assumption; [|lra]]; intros r c R C; (split; [apply (FA r c R C) | apply (UN r c R C)]). }
  destruct (scene_pairs eps ex w fused recip g sp re a rad fs U CY CX NE ST k pairs reps SC CO) as (_ & _ & h & v & E1 & E2 & PA).
  pose proof U as ((O & OX & OY) & _ & _ & _ & (BY & BX) & _).
  exists (Q2R (fst (covered a)) / IZR h), (Q2R (snd (covered a)) / IZR v).
  split; [exact (stretched _ _ _ _ BY O OY (conj CY1 CY) E1)|]. split; [exact (stretched _ _ _ _ BX O OX (conj CX1 CX) E2)|].
  intros i o1 o2 EO. destruct (PA i o1 o2 EO) as (f & ps1 & ps2 & EF & ER & SA & P1 & P2 & _ & MV). destruct (FW f (nth_error_In _ _ EF)) as (F1 & (u0 & v0 & F2) & F3).
  exists (reported32 w a f), ps1, ps2. split; [exact ER|]. split; [reflexivity|]. split; [reflexivity|]. split; [exact SA|]. split; [exact P1|]. split; [exact P2|].
  eapply Forall2_weaken; [|exact MV]. cbv beta. intros p1 p2 [X1 X2]. exact (particle_follows recip w a B M f h v p1 p2 U RB CY CX E1 E2 F1 F3 X1 X2 u0 v0 M19 F2 PX CY1 CX1).
Qed.
Print Assumptions C116_uniform.

(** When pixels and grid steps are commensurate, a particle in an area of up to
    4096 pixels moves what is reported to a four-hundredth of a pixel, for
    displacements of up to 128 pixels. *)
Theorem C116_faithful : forall eps ex w fused recip g sp re a rad B M fs, usual a -> reach B a -> b_pixels a = true ->
  (1 <= fst (covered a) <= 8388608)%Q -> (1 <= snd (covered a) <= 8388608)%Q -> fs <> [] ->
  Forall (fun f => flow_within M f /\ (exists u v, uniform32 u v f) /\ pad_room a f) fs -> M <= bpow radix2 19 ->
  setup eps ex g (spec_for a sp) (rest_for a re) (b_pb a) (to_f32 (b_rx a)) (to_f32 (b_ry a)) [] rad ->
  (exists zy zx, fst (covered a) == inject_Z zy /\ snd (covered a) == inject_Z zx)%Q ->
  is_double (inject_Z (fst (b_pb a)) / double (b_res a)) -> is_double (inject_Z (snd (b_pb a)) / double (b_res a)) -> is_double (fst (covered a)) -> is_double (snd (covered a)) ->
  forall k pairs reps, scene32 ex w fused recip g sp re a k fs pairs reps ->
  forall i o1 o2, nth_error pairs i = Some (o1, o2) ->
    exists o ps1 ps2, nth_error reps i = Some o /\
      sampled fused recip g (spec_for a sp) (rest_for a re) (b_pb a) (to_f32 (b_rx a)) (to_f32 (b_ry a)) k i ps1 ps2 /\
      let key_i := Child (Child k 0) i in
      pictured eps g (rest_for a re) (b_pb a) rad (Child key_i 4) ps1 o1 /\ pictured eps g (rest_for a re) (b_pb a) rad (Child key_i 5) ps2 o2 /\
      Forall2 (fun p1 p2 => forall r c, (0 <= r < fst (b_new a))%Z -> (0 <= c < snd (b_new a))%Z ->
        Rabs (real (q_y p1)) <= 4096 -> Rabs (real (q_x p1)) <= 4096 -> Rabs (real (h_u o r c)) <= 128 -> Rabs (real (h_v o r c)) <= 128 ->
        Rabs (real (q_y p2) - real (q_y p1) - real (h_v o r c)) <= / 400 /\ Rabs (real (q_x p2) - real (q_x p1) - real (h_u o r c)) <= / 400) ps1 ps2.
Proof.
  intros eps ex w fused recip g sp re a rad B M fs U RB PX CY CX NE FW M19 ST (zy & zx & WY & WX) I1 I2 I3 I4 k pairs reps SC i o1 o2 EO.
  destruct (C116_uniform eps ex w fused recip g sp re a rad B M fs U RB PX CY CX NE FW M19 ST k pairs reps SC) as (ry & rx & (_ & _ & SY) & (_ & _ & SX) & PA).
  rewrite (SY I1 I3 (ex_intro _ zy WY)), (SX I2 I4 (ex_intro _ zx WX)) in PA. destruct (PA i o1 o2 EO) as (o & ps1 & ps2 & ER & H1 & H2 & SA & P1 & P2 & FO).
  exists o, ps1, ps2. split; [exact ER|]. split; [exact SA|]. split; [exact P1|]. split; [exact P2|]. eapply Forall2_weaken; [|exact FO]. cbv beta.
  intros p1 p2 F r c R C Y X DU DV. rewrite <- H1 in R. rewrite <- H2 in C. destruct (F r c R C) as [F1 F2].
  assert (E17 : bpow radix2 (-17) = / 131072) by reflexivity. assert (T : bpow radix2 (-50) <= / 1048576) by (change (/ 1048576) with (bpow radix2 (-20)); apply bpow_le; lia). rewrite E17 in *.
  rewrite Rmult_1_l in F1, F2. split; lra.
Qed.
Print Assumptions C116_faithful.

(** A batch is generated whenever the area has a number of particles. *)
Theorem C116_total : forall ex w fused recip g sp re a k fs n, usual a -> (fst (covered a) <= 8388608)%Q -> (snd (covered a) <= 8388608)%Q -> fs <> [] ->
  num64 (b_pb a) (snd (v_density re)) = Some n -> exists pairs reps, scene32 ex w fused recip g sp re a k fs pairs reps.
Proof.
  intros ex w fused recip g sp re a k fs n U CY CX NE EN. destruct (adapter_lists w a fs U CY CX NE) as (h & v & reps & crops & E & _ & _ & _ & _ & _ & L2 & _).
  destruct (C114_total ex fused recip g (spec_for a sp) (rest_for a re) (b_pb a) (to_f32 (b_rx a)) (to_f32 (b_ry a)) crops k n EN) as [pairs G].
  - intros ->. destruct fs; [congruence | discriminate L2].
  - exists pairs, reps, crops. split; [exact E | exact G].
Qed.
Print Assumptions C116_total.

(** The images are made with the settings of the adapter: its number of pairs,
    image shape, offset and time step, and everything else as given. *)
Theorem C116_same_settings : forall ex w fused recip g sp re a k fs pairs reps, scene32 ex w fused recip g sp re a k fs pairs reps ->
  exists crops, adapter32 w a fs = Ok (reps, crops) /\
  forall sp' re',
    v_batch re' = b_batch a -> v_image re' = b_image a -> v_offset re' = b_off a -> t_dt sp' = to_f32 (b_dt a) ->
    v_density re' = v_density re -> v_max_diameter re' = v_max_diameter re -> v_uniform re' = v_uniform re ->
    v_mean re' = v_mean re -> v_std re' = v_std re -> v_mask re' = v_mask re -> v_histogram re' = v_histogram re ->
    t_hide1 sp' = t_hide1 sp -> t_hide2 sp' = t_hide2 sp -> t_diameters sp' = t_diameters sp -> t_diameter_std sp' = t_diameter_std sp ->
    t_intensities sp' = t_intensities sp -> t_intensity_std sp' = t_intensity_std sp -> t_rhos sp' = t_rhos sp -> t_rho_std sp' = t_rho_std sp ->
    generated32 ex fused recip g sp' re' (b_pb a) (to_f32 (b_rx a)) (to_f32 (b_ry a)) k crops pairs.
Proof.
  intros ex w fused recip g sp re a k fs pairs reps (crops & E & G). exists crops. split; [exact E|].
  intros sp' re' H1 H2 H3 H4 H5 H6 H7 H8 H9 H10 H11 H12 H13 H14 H15 H16 H17 H18 H19.
  replace sp' with (spec_for a sp); [replace re' with (rest_for a re); [exact G|]|].
  - unfold rest_for. rewrite <- H1, <- H2, <- H3, <- H5, <- H6, <- H7, <- H8, <- H9, <- H10, <- H11. destruct re'; reflexivity.
  - unfold spec_for. rewrite <- H4, <- H12, <- H13, <- H14, <- H15, <- H16, <- H17, <- H18, <- H19. destruct sp'; reflexivity.
Qed.
Print Assumptions C116_same_settings.

(** The call of C115 with the noise and the mask of C114: three pairs from a sheared
    and a uniform flow, and from the uniform one alone. *)
Example C116_case :
  usual call /\ reach 24 call /\ (1 <= fst (covered call) <= 8388608)%Q /\ (1 <= snd (covered call) <= 8388608)%Q /\ b_pixels call = true /\
  Forall (fun f => flow_within 108 f /\ varies 2 1 f /\ pad_room call f) [shear; steady32] /\ 108 + blur 108 2 1 24 <= bpow radix2 19 /\
  Forall (fun f => flow_within 108 f /\ (exists u v, uniform32 u v f) /\ pad_room call f) [steady32] /\
  setup (/ 8388608) ex_rn halves (spec_for call plain) (rest_for call (FinishFloatProps.usual None)) (b_pb call) (to_f32 (b_rx call)) (to_f32 (b_ry call)) [] 1 /\
  (exists zy zx, fst (covered call) == inject_Z zy /\ snd (covered call) == inject_Z zx)%Q /\
  is_double (inject_Z (fst (b_pb call)) / double (b_res call)) /\ is_double (inject_Z (snd (b_pb call)) / double (b_res call)) /\ is_double (fst (covered call)) /\ is_double (snd (covered call)) /\
  forall w fs, fs <> [] -> exists pairs reps, scene32 ex_rn w true false halves plain (FinishFloatProps.usual None) call (Seed 3) fs pairs reps.
Proof.
  destruct C115_case as (U & RB & C5 & C18 & FW & UN & D1 & D2 & _). destruct (C114_case None) as ((S1 & S2 & S3 & S4 & S5 & S6 & S7 & S8 & S9 & S10 & S11 & _) & _).
  assert (L1 : (1 <= fst (covered call) <= 8388608)%Q) by (rewrite C5; split; discriminate). assert (L2 : (1 <= snd (covered call) <= 8388608)%Q) by (rewrite C18; split; discriminate).
  assert (N18 : num64 (b_pb call) (snd (v_density (FinishFloatProps.usual None))) = Some 18%Z) by (vm_compute; reflexivity).
  assert (TW : forall x, finite x -> (- 4 <= value x)%Q -> (value x <= 4)%Q -> within (bpow radix2 20) x).
  { intros x F A B. split; [exact F|]. unfold real. apply Qle_Rle in A, B. change (- 4)%Q with (inject_Z (-4)) in A. change 4%Q with (inject_Z 4) in B. rewrite Q2R_Z in A, B.
    change (bpow radix2 20) with 1048576. apply Rabs_le. lra. }
  split; [exact U|]. split; [exact RB|]. split; [exact L1|]. split; [exact L2|]. split; [reflexivity|]. split; [exact FW|]. split.
  { unfold blur. change (bpow radix2 (-20)) with (/ 1048576). change (bpow radix2 19) with 524288. change 2%Q with (inject_Z 2). change 1%Q with (inject_Z 1). rewrite !Q2R_Z. lra. }
  split; [constructor; [|constructor]; split; [apply steady32_ok|]; split; [eexists; eexists; exact UN | apply steady32_ok]|].
  split.
  { split; [exact S1|]. split; [exact S2|]. split; [exact S3|]. split; [exact S4|]. split.
    - destruct S5 as (P1 & P2 & P3 & P4 & P5 & P6 & P7 & P8 & P9 & _). repeat (split; [assumption|]). apply TW; [vm_compute; reflexivity | vm_compute; discriminate | vm_compute; discriminate].
    - split; [exact S6|]. split; [exact S7|]. split; [unfold inside_area; cbn; lia|]. split; [exact S9|]. split; [exact S10|]. split; [exact S11|]. split; [unfold room; cbn; lia|].
      split; [apply TW; [vm_compute; reflexivity | vm_compute; discriminate | vm_compute; discriminate]|].
      split; [apply TW; [vm_compute; reflexivity | vm_compute; discriminate | vm_compute; discriminate]|].
      split; [constructor|]. intros n E. cbn [rest_for v_density] in E. rewrite N18 in E. injection E as <-. lia. }
  assert (IH : forall q m e, (Z.abs m < 2 ^ 53)%Z -> (-1074 <= e)%Z -> Q2R q = F2R (Float radix2 m e) -> is_double q).
  { intros q m e ZM ZE E. unfold is_double. rewrite E. apply generic_format_FLT. exists (Float radix2 m e); [reflexivity | exact ZM | exact ZE]. }
  split; [exists 5%Z, 18%Z; split; assumption|]. split; [exact D1|].
  split; [apply (IH _ 9%Z (-1)%Z); [lia | lia |]|].
  { transitivity (Q2R (9 # 2)); [apply Qeq_eqR; vm_compute; reflexivity|]. unfold F2R, Q2R. cbn. lra. }
  split; [exact D2|]. split; [apply (IH _ 18%Z 0%Z); [lia | lia |]|].
  { rewrite (Qeq_eqR _ _ C18). change 18%Q with (inject_Z 18). rewrite Q2R_Z. unfold F2R. cbn [Fnum Fexp bpow]. ring. }
  intros w fs NE. exact (C116_total ex_rn w true false halves plain (FinishFloatProps.usual None) call (Seed 3) fs 18%Z U (proj2 L1) (proj2 L2) NE N18).
Qed.
