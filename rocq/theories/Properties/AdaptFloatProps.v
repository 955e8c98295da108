(** Property C115: the flow field adapter in float arithmetic. *)
From Coq Require Import List Arith ZArith QArith Qround Qreals Qabs Qminmax Bool Reals Lia Lqa Lra.
From Flocq Require Import Core IEEE754.BinarySingleNaN.
From Verif Require Import Prelude Model.Interp Model.Geometry Model.Render Model.InterpFloat Model.HistFloat Model.DrawFloat Model.MoveFloat Model.AdaptFloat Model.Shipped.
From Verif Require Import Spec.InterpSpec Spec.InterpFloatSpec Spec.LipschitzSpec Spec.MoveFloatSpec Spec.AdaptFloatSpec.
From Verif Require Import Proofs.InterpProofs Proofs.FloatProofs Proofs.InterpFloatProofs Proofs.InterpBinary Proofs.KernelImage Proofs.HistFloatProofs Proofs.MoveFloatProofs Proofs.SampleFloatProofs Proofs.AdaptFloatProofs.
From Verif Require Import Properties.GeometryProps.
Import ListNotations.
Local Open Scope R_scope.

(** * C115 *)
Lemma first_in : forall (A : Type) n (l : list A) x, In x (firstn n l) -> In x l.
Proof. intros A n l x H. rewrite <- (firstn_skipn n l). apply in_or_app. left. exact H. Qed.

(** For every flow of a list: the flow reported for it, and the part of it that the
    particles move in, next to those of exact arithmetic. *)
Theorem C115_adapter : forall w a fs B M Dx Dy, usual a -> reach B a -> (fst (covered a) <= 8388608)%Q -> (snd (covered a) <= 8388608)%Q ->
  fs <> [] -> M <= bpow radix2 40 -> Forall (fun f => flow_within M f /\ varies Dx Dy f /\ pad_room a f) fs ->
  exists h v reps crops, adapter32 w a fs = Ok (reps, crops) /\
    List.length reps = b_batch a /\ List.length crops = List.length fs /\
    (forall i, (i < b_batch a)%nat -> exists f o, nth_error fs (i mod List.length fs)%nat = Some f /\ nth_error reps i = Some o /\
       flow_near (factor a * blur M Dx Dy B + bpow radix2 (-100)) o (fst (process_single (numbers a) (flow_of f)))) /\
    (forall i f, nth_error fs i = Some f -> exists o, nth_error crops i = Some o /\
       flow_near (blur M Dx Dy B + bpow radix2 (-100)) o (covering (numbers a) h v (flow_of f)) /\
       (par_h (numbers a) = h -> par_w (numbers a) = v ->
        flow_near (blur M Dx Dy B + bpow radix2 (-100)) o (snd (process_single (numbers a) (flow_of f))))).
Proof.
  intros w a fs B M Dx Dy U R C1 C2 NE M40 A. destruct (adapter_lists w a fs U C1 C2 NE) as (h & v & reps & crops & E & _ & _ & H1 & H2 & L1 & L2 & N1 & N2).
  rewrite Forall_forall in A. exists h, v, reps, crops. split; [exact E|]. split; [exact L1|]. split; [exact L2|]. split.
  - intros i I. assert (L : (List.length fs <> 0)%nat) by (destruct fs; [contradiction | discriminate]).
    destruct (nth_error fs (i mod List.length fs)%nat) as [f|] eqn:EF; [|apply nth_error_None in EF; pose proof (Nat.mod_upper_bound i _ L); lia].
    exists f, (reported32 w a f). split; [reflexivity|]. split; [rewrite N1 by exact I; rewrite EF; reflexivity|].
    destruct (A f (nth_error_In _ _ EF)) as (F1 & F2 & F3). apply reported_near; assumption.
  - intros i f EF. exists (cropped32 w a h v f). split; [rewrite N2, EF; reflexivity|]. destruct (A f (nth_error_In _ _ EF)) as (F1 & F2 & F3).
    assert (N : flow_near (blur M Dx Dy B + bpow radix2 (-100)) (cropped32 w a h v f) (covering (numbers a) h v (flow_of f))) by (apply cropped_near; assumption).
    split; [exact N|]. intros <- <-. exact N.
Qed.
Print Assumptions C115_adapter.

(** A uniform flow is reported as it is, to a millionth of itself, wherever the
    grid lies. *)
Theorem C115_uniform : forall w a f B M u v reps crops, usual a -> reach B a -> flow_within M f -> M <= bpow radix2 40 -> pad_room a f -> uniform32 u v f ->
  adapter32 w a [f] = Ok (reps, crops) ->
  let shown (s : R) := if b_pixels a then s * Q2R (double (b_res a) * double (b_dt a)) else s in
  let close k s x := finite x /\ Rabs (real x - s) <= bpow radix2 (-20) * (k * Rabs (real u)) + bpow radix2 (-100) in
  let close' k s x := finite x /\ Rabs (real x - s) <= bpow radix2 (-20) * (k * Rabs (real v)) + bpow radix2 (-100) in
  (forall o i j, In o reps -> (0 <= i < fst (b_new a))%Z -> (0 <= j < snd (b_new a))%Z ->
     close (factor a) (shown (real u)) (h_u o i j) /\ close' (factor a) (shown (real v)) (h_v o i j)) /\
  (forall o i j, In o crops -> (h_H o < 2 ^ 24)%Z -> (h_W o < 2 ^ 24)%Z -> (0 <= i < h_H o)%Z -> (0 <= j < h_W o)%Z ->
     close 1 (real u) (h_u o i j) /\ close' 1 (real v) (h_v o i j)).
Proof.
  intros w a f B M u v reps crops U R FW M40 [P1 P2] UN E shown close close'. destruct FW as (HH & HW & FA).
  assert (AU : forall r c, (0 <= r < h_H f)%Z -> (0 <= c < h_W f)%Z -> finite (h_u f r c) /\ real (h_u f r c) = real u) by (intros r c X Y; split; [apply (FA r c X Y) | apply (UN r c X Y)]).
  assert (AV : forall r c, (0 <= r < h_H f)%Z -> (0 <= c < h_W f)%Z -> finite (h_v f r c) /\ real (h_v f r c) = real v) by (intros r c X Y; split; [apply (FA r c X Y) | apply (UN r c X Y)]).
  assert (BU : Rabs (real u) <= bpow radix2 40) by (destruct (FA 0%Z 0%Z ltac:(lia) ltac:(lia)) as [[_ X] _]; rewrite (proj2 (AU 0%Z 0%Z ltac:(lia) ltac:(lia))) in X; lra).
  assert (BV : Rabs (real v) <= bpow radix2 40) by (destruct (FA 0%Z 0%Z ltac:(lia) ltac:(lia)) as [_ [_ X]]; rewrite (proj2 (AV 0%Z 0%Z ltac:(lia) ltac:(lia))) in X; lra).
  unfold adapter32, bind in E. destruct (size64 (fst (b_pb a)) (b_res a) (b_ry a)) as [h|] eqn:E1; [|discriminate]. destruct (size64 (snd (b_pb a)) (b_res a) (b_rx a)) as [w'|] eqn:E2; [|discriminate].
  injection E as ER EC. split.
  - intros o i j IN I J. assert (EO : o = reported32 w a f).
    { assert (X : forall n, In o (List.concat (repeat (map (reported32 w a) [f]) n)) -> o = reported32 w a f).
      { induction n as [|n IH]; [intros []|]. intros [X|X]; [symmetry; exact X | exact (IH X)]. }
      rewrite <- ER in IN. exact (X _ (first_in _ _ _ _ IN)). }
    subst o. split.
    + exact (uniform_reported w a B u (h_u f) (h_H f) (h_W f) i j U R BU ltac:(lia) ltac:(lia) AU P1 P2 I J).
    + exact (uniform_reported w a B v (h_v f) (h_H f) (h_W f) i j U R BV ltac:(lia) ltac:(lia) AV P1 P2 I J).
  - intros o i j IN S1 S2 I J. rewrite <- EC in IN. destruct IN as [<-|[]]. cbn [cropped32 h_H h_W] in *. assert (HC : count_ok h) by (unfold count_ok; lia). assert (WC : count_ok w') by (unfold count_ok; lia). split.
    + destruct (uniform_cropped w a B u (h_u f) (h_H f) (h_W f) h w' i j U R BU ltac:(lia) ltac:(lia) AU P1 P2 HC WC I J) as [F X]. split; [exact F|]. rewrite Rmult_1_l. exact X.
    + destruct (uniform_cropped w a B v (h_v f) (h_H f) (h_W f) h w' i j U R BV ltac:(lia) ltac:(lia) AV P1 P2 HC WC I J) as [F X]. split; [exact F|]. rewrite Rmult_1_l. exact X.
Qed.
Print Assumptions C115_uniform.

(** The number of rows and columns the particles' flow is sampled on: the integer
    below the number of grid steps, or one next to it; the former when no integer
    is near, or when both operations are exact. *)
Theorem C115_size : forall w a fs reps crops, usual a -> (fst (covered a) <= 8388608)%Q -> (snd (covered a) <= 8388608)%Q ->
  adapter32 w a fs = Ok (reps, crops) ->
  let fair (x quo : Q) (n : Z) :=
    (Z.max 1 (Qfloor x) - 1 <= n <= Z.max 1 (Qfloor x) + 1)%Z /\
    (clear_of_integers x \/ (is_double quo /\ is_double x) -> n = Z.max 1 (Qfloor x)) in
  forall o, In o crops ->
    fair (fst (covered a)) (inject_Z (fst (b_pb a)) / double (b_res a))%Q (h_H o) /\
    fair (snd (covered a)) (inject_Z (snd (b_pb a)) / double (b_res a))%Q (h_W o).
Proof.
  intros w a fs reps crops ((O & OX & OY) & _ & _ & _ & (BY & BX) & _) C1 C2 E fair o IN.
  destruct (size_near _ _ _ BY O OY C1) as (h & E1 & _ & H2 & H3 & H4). destruct (size_near _ _ _ BX O OX C2) as (v & E2 & _ & V2 & V3 & V4).
  unfold adapter32, bind in E. rewrite E1, E2 in E. injection E as _ EC. rewrite <- EC in IN. apply in_map_iff in IN. destruct IN as (f & <- & _). cbn [cropped32 h_H h_W].
  assert (QT : forall len r, ordinary r -> (1 <= len)%Z -> Qtrunc (inject_Z len / double (b_res a) * double r) = Qfloor (inject_Z len / double (b_res a) * double r)).
  { intros len r Or L. unfold Qtrunc. assert (Q0 : (0 <= inject_Z len / double (b_res a) * double r)%Q).
    { destruct O as [_ [O _]], Or as [_ [Or _]]. apply Qmult_le_0_compat; [|Lqa.lra]. unfold Qdiv. apply Qmult_le_0_compat; [change 0%Q with (inject_Z 0); rewrite <- Zle_Qle; lia|]. apply Qinv_le_0_compat. Lqa.lra. }
    apply Qle_bool_iff in Q0. rewrite Q0. reflexivity. }
  rewrite QT in H2, H3, H4 by (assumption || (destruct BY; lia)). rewrite QT in V2, V3, V4 by (assumption || (destruct BX; lia)).
  split; (split; [assumption|]); intros [C | [D1 D2]]; auto.
Qed.
Print Assumptions C115_size.

(** The sampler accepts a configuration, 25 pixels and 25 grid steps per unit of
    length, whose 116 pixels are 116 grid steps; the particles get a flow of 115
    rows and columns.  A uniform flow is reported as 8 pixels and moves the
    particles by more than 8.06. *)
Definition short_cfg : gcfg float64 :=
  mkGcfg float64 (100, 100)%Z (f64_ofZ 1, f64_ofZ 1) (f64_ofZ 1) (f64_ofZ 10, f64_ofZ 10) (250, 250)%Z (f64_ofZ 25) (f64_ofZ 1)
    (f64_ofZ 1) (f64_ofQ (32 # 100), f64_ofQ (32 # 100)) (f64_ofQ (- (32 # 100)), f64_ofQ (- (32 # 100))) false.
Definition wind : flow32 := mkFlow32 250 250 (fun _ _ => to_f32 (f64_ofQ (32 # 100))) (fun _ _ => f32_ofZ 0).

Definition x_after (recip : bool) (g : geom float64) (f : flow32) (x : Z) : Q :=
  value (snd (second_position32 recip (o_pb g) f (f32_ofZ 1) (to_f32 (snd (o_res g))) (to_f32 (fst (o_res g))) (f32_ofZ x, f32_ofZ x))).

Theorem C115_size_refuted : exists c g f, construct float64 c = Ok g /\ g_image c = (100, 100)%Z /\ o_pb g = (116, 116)%Z /\
  flow_within 1 f /\ (forall r r' cl cl', h_u f r cl = h_u f r' cl' /\ h_v f r cl = h_v f r' cl') /\
  forall w recip, exists o p, adapter32 w (adapter64_of c g 1 true) [f] = Ok ([o], [p]) /\
    (fst (covered (adapter64_of c g 1 true)) == 116)%Q /\ (snd (covered (adapter64_of c g 1 true)) == 116)%Q /\ h_H p = 115%Z /\ h_W p = 115%Z /\
    (Qabs (value (h_u o 50 50) - 8) <= 1 # 100000)%Q /\ (58 + 8 + (6 # 100) <= x_after recip g p 58)%Q.
Proof.
  pose (test := fun g : geom float64 =>
    let a := adapter64_of short_cfg g 1 true in
    ((fst (o_pb g) =? 116) && (snd (o_pb g) =? 116) && Qeq_bool (fst (covered a)) 116 && Qeq_bool (snd (covered a)) 116 &&
     forallb (fun w => match adapter32 w a [wind] with
       | Ok ([o], [p]) => (h_H p =? 115) && (h_W p =? 115) && Qle_bool (Qabs (value (h_u o 50 50) - 8)) (1 # 100000) &&
           Qle_bool (58 + 8 + (6 # 100)) (x_after true g p 58) && Qle_bool (58 + 8 + (6 # 100)) (x_after false g p 58)
       | _ => false end)
       [mkWays true None; mkWays true (Some true); mkWays true (Some false); mkWays false None; mkWays false (Some true); mkWays false (Some false)])%Z).
  destruct (ok_test (construct float64 short_cfg) test) as (g & E & T).
  { vm_cast_no_check (eq_refl true). }
  exists short_cfg, g, wind. split; [exact E|]. split; [reflexivity|]. unfold test in T. rewrite !andb_true_iff, forallb_forall in T. destruct T as ((((T1 & T2) & T3) & T4) & T).
  apply Z.eqb_eq in T1, T2. apply Qeq_bool_iff in T3, T4. split; [rewrite (surjective_pairing (o_pb g)), T1, T2; reflexivity|].
  split; [|split; [split; reflexivity|]].
  { split; [cbn [wind h_H]; lia|]. split; [cbn [wind h_W]; lia|]. intros r c _ _. cbn [wind h_u h_v].
    assert (Q1 : (Qabs (value (to_f32 (f64_ofQ (32 # 100)))) <= 1)%Q) by (apply Qle_bool_iff; vm_compute; reflexivity).
    assert (Q2 : (Qabs (value (f32_ofZ 0)) <= 1)%Q) by (apply Qle_bool_iff; vm_compute; reflexivity).
    apply Qle_Rle in Q1, Q2. rewrite Q2R_abs, Q2R_1 in Q1, Q2. split; split; try assumption; vm_compute; reflexivity. }
  intros w recip. specialize (T w). assert (IN : In w [mkWays true None; mkWays true (Some true); mkWays true (Some false); mkWays false None; mkWays false (Some true); mkWays false (Some false)]).
  { destruct w as [[|] [[|]|]]; cbn; tauto. }
  specialize (T IN). destruct (adapter32 w (adapter64_of short_cfg g 1 true) [wind]) as [[[|o [|]] [|p [|]]]|]; try discriminate T.
  rewrite !andb_true_iff in T. destruct T as ((((H1 & H2) & H3) & H4) & H5). apply Z.eqb_eq in H1, H2. apply Qle_bool_iff in H3, H4, H5.
  exists o, p. split; [reflexivity|]. split; [exact T3|]. split; [exact T4|]. split; [exact H1|]. split; [exact H2|]. split; [exact H3|]. destruct recip; assumption.
Qed.
Print Assumptions C115_size_refuted.

(** Two flow fields of 30 by 40, sheared and uniform, a resolution of 2 pixels and 4
    by 1 grid steps, padding on one side. *)
Definition shear : flow32 := mkFlow32 30 40 (fun r c => f32_ofZ (r + 2 * c)) (fun r c => f32_ofZ (50 - r)).
Definition steady32 : flow32 := mkFlow32 30 40 (fun _ _ => f32_ofZ 3) (fun _ _ => f32_ofZ (-1)).
Definition call : adapter64 :=
  mkAdapter64 (4, 5)%Z (8, 6)%Z (1, 1)%Z (f64_ofZ 2) (f64_ofZ 4) (f64_ofZ 1) (10, 9)%Z (f64_ofQ (1 # 2), f64_ofZ 0) 3 true (f64_ofZ 1) (0, 2)%Z.

Lemma real_Z : forall z, (Z.abs z < 2 ^ 24)%Z -> finite (f32_ofZ z) /\ real (f32_ofZ z) = IZR z /\ (value (f32_ofZ z) == inject_Z z)%Q.
Proof.
  intros z H. destruct (rep_real _ _ (rep_ofZ z H)) as [F V]. split; [exact F|]. split; [exact V|]. apply eqR_Qeq. rewrite Q2R_Z. exact V.
Qed.

Lemma shear_ok : flow_within 108 shear /\ varies 2 1 shear /\ pad_room call shear.
Proof.
  assert (AB : forall z n, (- n <= z <= n)%Z -> Rabs (IZR z) <= IZR n) by (intros z n H; rewrite <- abs_IZR; apply IZR_le; lia).
  split; [|split].
  - split; [cbn; lia|]. split; [cbn; lia|]. cbn [shear h_H h_W h_u h_v]. intros r c R C.
    destruct (real_Z (r + 2 * c) ltac:(lia)) as (F & V & _). destruct (real_Z (50 - r) ltac:(lia)) as (F' & V' & _).
    split; (split; [assumption|]); rewrite ?V, ?V'; apply AB; lia.
  - split; [discriminate|]. split; [discriminate|].
    assert (D : forall x y n, (Z.abs x < 2 ^ 24)%Z -> (Z.abs y < 2 ^ 24)%Z -> (Z.abs (x - y) <= n)%Z -> (Qabs (value (f32_ofZ x) - value (f32_ofZ y)) <= inject_Z n)%Q).
    { intros x y n X Y H. destruct (real_Z x X) as (_ & _ & ->). destruct (real_Z y Y) as (_ & _ & ->). apply Rle_Qle. rewrite Q2R_abs, Q2R_minus, !Q2R_Z, <- minus_IZR, <- abs_IZR. apply IZR_le. exact H. }
    repeat split; intros r c [R1 C1] [R2 C2]; cbn [flow_of chan0 chan1 shear rows cols at_ fH fW fu fv h_H h_W h_u h_v] in *; apply D; lia.
  - split; cbn; lia.
Qed.

Lemma steady32_ok : flow_within 108 steady32 /\ varies 2 1 steady32 /\ pad_room call steady32.
Proof.
  destruct (real_Z 3 ltac:(lia)) as (F & V & _). destruct (real_Z (-1) ltac:(lia)) as (F' & V' & _). split; [|split].
  - split; [cbn; lia|]. split; [cbn; lia|]. cbn [steady32 h_H h_W h_u h_v]. intros r c R C.
    split; (split; [assumption|]); rewrite ?V, ?V'; rewrite <- abs_IZR; apply IZR_le; lia.
  - split; [discriminate|]. split; [discriminate|].
    repeat split; intros r c [R1 C1] [R2 C2]; cbn [flow_of chan0 chan1 steady32 rows cols at_ fH fW fu fv h_H h_W h_u h_v] in *;
      apply Rle_Qle; rewrite Q2R_abs, Q2R_minus, Rminus_diag_eq, Rabs_R0 by reflexivity; [change 2%Q with (inject_Z 2) | change 1%Q with (inject_Z 1) | change 2%Q with (inject_Z 2) | change 1%Q with (inject_Z 1)]; rewrite Q2R_Z; apply IZR_le; lia.
  - split; cbn; lia.
Qed.

Lemma call_doubles : (double (f64_ofZ 2) == 2)%Q /\ (double (f64_ofZ 4) == 4)%Q /\ (double (f64_ofZ 1) == 1)%Q /\ (double (f64_ofQ (1 # 2)) == 1 # 2)%Q /\ (double (f64_ofZ 0) == 0)%Q.
Proof. repeat split; vm_compute; reflexivity. Qed.

Example C115_case : usual call /\ reach 24 call /\ (fst (covered call) == 5)%Q /\ (snd (covered call) == 18)%Q /\
  Forall (fun f => flow_within 108 f /\ varies 2 1 f /\ pad_room call f) [shear; steady32] /\
  uniform32 (f32_ofZ 3) (f32_ofZ (-1)) steady32 /\
  is_double (inject_Z (fst (b_pb call)) / double (b_res call)) /\ is_double (fst (covered call)) /\ clear_of_integers (10 # 3) /\
  size64 10 (f64_ofZ 2) (f64_ofZ 1) = Ok 5%Z /\ size64 9 (f64_ofZ 2) (f64_ofZ 4) = Ok 18%Z.
Proof.
  destruct call_doubles as (D2 & D4 & D1 & DH & D0).
  assert (C5 : (fst (covered call) == 5)%Q) by (vm_compute; reflexivity). assert (C18 : (snd (covered call) == 18)%Q) by (vm_compute; reflexivity).
  split; [|split; [|split; [exact C5|split; [exact C18|]]]].
  { unfold usual, ordinary, shift_ok, count_ok. cbn [call b_res b_rx b_ry b_pbo b_off b_image b_pb b_new b_dt b_pad fst snd].
    repeat split; try lia; try (vm_compute; reflexivity); try (vm_compute; discriminate). }
  { unfold reach. cbn [call b_res b_rx b_ry b_pbo b_off b_image b_pb fst snd].
    assert (RB : forall q n, Qle_bool q (inject_Z n) = true -> Q2R q + 1 <= IZR n + 1) by (intros q n H; apply Qle_bool_iff, Qle_Rle in H; rewrite Q2R_Z in H; lra).
    repeat split; (apply Rle_trans with (IZR 23 + 1); [apply RB; vm_compute; reflexivity | lra]). }
  split; [constructor; [exact shear_ok | constructor; [exact steady32_ok | constructor]]|].
  split; [intros r c _ _; split; reflexivity|].
  assert (ID : forall q z, (q == inject_Z z)%Q -> (Z.abs z < 2 ^ 53)%Z -> is_double q).
  { intros q z E Z. unfold is_double. rewrite (Qeq_eqR _ _ E), Q2R_Z. apply generic_format_FLT. exists (Float radix2 z 0); [unfold F2R; cbn [Fnum Fexp bpow]; ring | exact Z | cbn; lia]. }
  split; [apply (ID _ 5%Z); [vm_compute; reflexivity | lia]|]. split; [apply (ID _ 5%Z); [exact C5 | lia]|]. split.
  - intros z. apply Rlt_Qlt. rewrite Q2R_mult, Q2R_abs, Q2R_minus, Q2R_Z. replace (Q2R (10 # 3)) with (10 / 3) by (unfold Q2R; cbn; lra).
    replace (10 / 3 - IZR z) with (IZR (10 - 3 * z) * / 3) by (rewrite minus_IZR, mult_IZR; field). rewrite Rabs_mult, <- abs_IZR, (Rabs_pos_eq (/ 3)) by lra.
    assert (1 <= IZR (Z.abs (10 - 3 * z))) by (apply (IZR_le 1); lia). unfold Q2R. cbn [Qnum Qden]. lra.
  - split; vm_compute; reflexivity.
Qed.
