(** Property C110: images drawn in float arithmetic. *)
From Coq Require Import List Arith ZArith QArith Qround Qabs Bool Permutation Lia Lqa.
From Flocq Require Import IEEE754.BinarySingleNaN.
From Verif Require Import Prelude Model.Interp Model.Geometry Model.Render Model.InterpFloat Model.HistFloat Model.DrawFloat.
From Verif Require Import Spec.RenderSpec Spec.InterpFloatSpec Spec.DrawFloatSpec.
From Verif Require Import Proofs.DrawFloatProofs Proofs.PlaceFloatProofs Proofs.DrawnPixel.
Import ListNotations.
Local Open Scope Q_scope.

(** * C110 *)
(** A pixel is the sum of what the particles around it add, clipped if asked for,
    up to the rounding of the additions, in whatever order they are made. *)
Theorem C110_pixel : forall ex ps H W maxd r clip im, 0 <= maxd -> radius_of maxd r -> room H W r -> Forall placed ps ->
  drawn32 ex ps H W maxd clip im ->
  g_rows im = H /\ g_cols im = W /\
  exists lasty lastx, far H r lasty /\ far W r lastx /\
    forall row col, (0 <= row < H)%Z -> (0 <= col < W)%Z ->
    exists vs, lights ex lasty lastx r ps row col vs /\
      (summable vs ->
       finite (g_at im row col) /\ Qabs (value (g_at im row col) - clamp clip (exact_sum vs)) <= slack vs).
Proof.
  intros ex ps H W maxd r clip im MD RO RM PL D. pose proof (r_pos maxd r MD RO) as R0.
  destruct (drawn_pixel ex ps H W maxd r MD RO clip im 0 0 D) as (G1 & G2 & _); [destruct RM; lia | destruct RM; lia |].
  split; [exact G1|]. split; [exact G2|]. exists (lastc H r), (lastc W r).
  destruct (lasts H W maxd r MD RO RM) as [F1 F2]. split; [exact F1|]. split; [exact F2|]. intros row col A B.
  eexists. split; [exact (vs_lights ex ps H W maxd r MD RO RM PL row col A B)|].
  intros S. exact (pixel_error ex ps H W maxd r MD RO clip im row col D A B S).
Qed.
Print Assumptions C110_pixel.

(** Two drawings of the same particles: equal where at most two particles meet,
    elsewhere apart by at most twice the rounding of the additions. *)
Theorem C110_redrawn : forall ex ps H W maxd r clip im im', 0 <= maxd -> radius_of maxd r -> room H W r -> Forall placed ps ->
  drawn32 ex ps H W maxd clip im -> drawn32 ex ps H W maxd clip im' ->
  exists lasty lastx, far H r lasty /\ far W r lastx /\
    forall row col, (0 <= row < H)%Z -> (0 <= col < W)%Z ->
    exists vs, lights ex lasty lastx r ps row col vs /\
      (summable vs ->
       Qabs (value (g_at im row col) - value (g_at im' row col)) <= 2 * slack vs /\
       ((List.length vs <= 2)%nat -> value (g_at im row col) == value (g_at im' row col))).
Proof.
  intros ex ps H W maxd r clip im im' MD RO RM PL D D'. exists (lastc H r), (lastc W r).
  destruct (lasts H W maxd r MD RO RM) as [F1 F2]. split; [exact F1|]. split; [exact F2|]. intros row col A B.
  eexists. split; [exact (vs_lights ex ps H W maxd r MD RO RM PL row col A B)|]. intros S. split.
  - destruct (pixel_error ex ps H W maxd r MD RO clip im row col D A B S) as (_ & E).
    destruct (pixel_error ex ps H W maxd r MD RO clip im' row col D' A B S) as (_ & E').
    apply Qabs_Qle_condition in E, E'. apply Qabs_Qle_condition. lra.
  - intros N. exact (pixel_same ex ps H W maxd r MD RO clip im im' row col D D' A B S N).
Qed.
Print Assumptions C110_redrawn.

(** In a clipped image with at most 1024 particles on a pixel, none of them
    darkening it, the rounding is less than a sixty-fourth of a grey level. *)
Theorem C110_grey : forall ex ps H W maxd r im, 0 <= maxd -> radius_of maxd r -> room H W r -> Forall placed ps ->
  drawn32 ex ps H W maxd true im ->
  exists lasty lastx, far H r lasty /\ far W r lastx /\
    forall row col, (0 <= row < H)%Z -> (0 <= col < W)%Z ->
    exists vs, lights ex lasty lastx r ps row col vs /\
      (summable vs -> Forall (fun v => 0 <= value v) vs -> (List.length vs <= 1024)%nat ->
       Qabs (value (g_at im row col) - clamp true (exact_sum vs)) <= 1 # 64).
Proof.
  intros ex ps H W maxd r im MD RO RM PL D. exists (lastc H r), (lastc W r).
  destruct (lasts H W maxd r MD RO RM) as [F1 F2]. split; [exact F1|]. split; [exact F2|]. intros row col A B.
  eexists. split; [exact (vs_lights ex ps H W maxd r MD RO RM PL row col A B)|].
  intros S P N. exact (pixel_grey ex ps H W maxd r MD RO im row col D A B S P N).
Qed.
Print Assumptions C110_grey.

(** Two possible images: what falls on a pixel is added from the first particle to
    the last, or from the last to the first. *)
Definition forwards (H W : Z) (us : list upd32) : fimage :=
  @mkGimage binary32 H W (fun row col => fold_left plus32 (hits H W us row col) (f32_ofZ 0)).
Definition backwards (H W : Z) (us : list upd32) : fimage :=
  @mkGimage binary32 H W (fun row col => fold_left plus32 (rev (hits H W us row col)) (f32_ofZ 0)).

Lemma fold_sums : forall l pre a, sum32 pre a -> sum32 (pre ++ l) (fold_left plus32 l a).
Proof.
  induction l as [|x l IH]; intros pre a S; [rewrite app_nil_r; exact S|]. cbn [fold_left].
  replace (pre ++ x :: l)%list with ((pre ++ [x]) ++ l)%list by (rewrite <- app_assoc; reflexivity).
  apply IH. constructor; [exact S | constructor].
Qed.

Lemma forwards_scattered : forall H W us, scattered32 H W us (forwards H W us).
Proof.
  intros H W us. split; [reflexivity|]. split; [reflexivity|]. intros row col _ _.
  exists (f32_ofZ 0 :: hits H W us row col). split; [apply Permutation_refl|].
  exact (fold_sums (hits H W us row col) [f32_ofZ 0] (f32_ofZ 0) (sum_one _)).
Qed.

Lemma backwards_scattered : forall H W us, scattered32 H W us (backwards H W us).
Proof.
  intros H W us. split; [reflexivity|]. split; [reflexivity|]. intros row col _ _.
  exists (f32_ofZ 0 :: rev (hits H W us row col)). split; [apply perm_skip; apply Permutation_rev|].
  exact (fold_sums (rev (hits H W us row col)) [f32_ofZ 0] (f32_ofZ 0) (sum_one _)).
Qed.

Definition whole_or_small (m e : Z) : f32 := binary_normalize 24 128 p32 l32 mode_NE m e false.
Definition spot (amp : f32) : particle32 :=
  mkP32 (whole_or_small 3 (-1)) (whole_or_small 5 (-1)) (f32_ofZ 1) (f32_ofZ 1) (f32_ofZ 0) amp.
Definition three_spots : list particle32 := [spot (f32_ofZ 200); spot (whole_or_small 1 (-17)); spot (whole_or_small 1 (-17))].
Definition flat_ex (_ : f32) : f32 := f32_ofZ 1.
Definition three_upds : list upd32 := flat_map (scatter_one32 flat_ex 4 4 0) three_spots.

(** Where three particles meet the order can make a difference. *)
Theorem C110_order_refuted : exists ex ps H W maxd r im im', 0 <= maxd /\ radius_of maxd r /\ room H W r /\ Forall placed ps /\
  drawn32 ex ps H W maxd false im /\ drawn32 ex ps H W maxd false im' /\
  exists row col, (0 <= row < H)%Z /\ (0 <= col < W)%Z /\ ~ (value (g_at im row col) == value (g_at im' row col)).
Proof.
  exists flat_ex, three_spots, 4%Z, 4%Z, (1 # 2), 0%Z, (forwards 4 4 three_upds), (backwards 4 4 three_upds).
  split; [lra|]. split; [unfold radius_of; change (inject_Z 0) with 0; lra|]. split; [unfold room; lia|].
  split; [repeat (constructor; [split; vm_compute; reflexivity|]); constructor|].
  split; [exists (forwards 4 4 three_upds); split; [apply forwards_scattered | reflexivity]|].
  split; [exists (backwards 4 4 three_upds); split; [apply backwards_scattered | reflexivity]|].
  exists 1%Z, 2%Z. split; [lia|]. split; [lia|]. vm_compute. discriminate.
Qed.
Print Assumptions C110_order_refuted.

(** The particles of that image meet the conditions of the theorems: three of them
    light the pixel, and two drawings are 2^-16 apart. *)
Example C110_case : exists lasty lastx vs, far 4 0 lasty /\ far 4 0 lastx /\ lights flat_ex lasty lastx 0 three_spots 1 2 vs /\
  summable vs /\ Forall (fun v => 0 <= value v) vs /\ List.length vs = 3%nat /\
  exact_sum vs == 200 + (1 # 65536) /\
  value (g_at (forwards 4 4 three_upds) 1 2) == 200 /\ value (g_at (backwards 4 4 three_upds) 1 2) == 200 + (1 # 65536).
Proof.
  assert (MD : 0 <= 1 # 2) by lra. assert (RO : radius_of (1 # 2) 0) by (unfold radius_of; change (inject_Z 0) with 0; lra).
  assert (RM : room 4 4 0) by (unfold room; lia).
  assert (PL : Forall placed three_spots) by (repeat (constructor; [split; vm_compute; reflexivity|]); constructor).
  pose proof (vs_lights flat_ex three_spots 4 4 (1 # 2) 0 MD RO RM PL 1 2 ltac:(lia) ltac:(lia)) as L. fold three_upds in L.
  assert (E : map (fun v : f32 => (is_finite v, value v)) (hits 4 4 three_upds 1 2) =
    [(true, 13107200 # 65536); (true, 8388608 # 1099511627776); (true, 8388608 # 1099511627776)]) by (vm_compute; reflexivity).
  destruct (lasts 4 4 (1 # 2) 0 MD RO RM) as [F1 F2].
  exists (lastc 4 0), (lastc 4 0), (hits 4 4 three_upds 1 2).
  assert (V1 : value (g_at (forwards 4 4 three_upds) 1 2) == 200) by (vm_compute; reflexivity).
  assert (V2 : value (g_at (backwards 4 4 three_upds) 1 2) == 200 + (1 # 65536)) by (vm_compute; reflexivity).
  split; [exact F1|]. split; [exact F2|]. split; [exact L|].
  clear L. generalize dependent (hits 4 4 three_upds 1 2). intros vs E. destruct vs as [|a [|b [|c [|]]]]; try discriminate E.
  cbn [map] in E. injection E as A1 A2 B1 B2 C1 C2. unfold summable, exact_sum, sizes. cbn [fold_right List.length]. rewrite A2, B2, C2.
  split; [split; [repeat (constructor; [assumption|]); constructor | split; vm_compute; discriminate]|].
  split; [repeat (constructor; [rewrite ?A2, ?B2, ?C2; vm_compute; discriminate|]); constructor|].
  split; [reflexivity|]. split; [vm_compute; reflexivity|]. split; [exact V1 | exact V2].
Qed.
