(** Warping an image in binary32 as JAX runs it: apply.py:11-112.  As in
    Model/Apply.v image and flow field have the same height and width. *)
From Coq Require Import List ZArith QArith Bool.
From Flocq Require Import IEEE754.BinarySingleNaN.
From Verif Require Import Prelude Model.Interp Model.Geometry Model.Render Model.InterpFloat Model.HistFloat Model.DrawFloat Model.MoveFloat Model.SampleFloat.
Import ListNotations.
Local Open Scope Z_scope.

(** What the compiler may choose: which products are fused with the sum that
    follows them.  [fuse_add] is given the offsets [dx], [dy] of the deposit. *)
Record fusing : Type := mkFusing { fuse_x : bool; fuse_y : bool; fuse_add : Z -> Z -> bool }.

(** [n + d * dt], apply.py:37-38: an index of the grid and a product of floats. *)
Definition goes_to32 (fused : bool) (n : Z) (d dt : f32) : f32 := madd32 fused d dt (f32_ofZ n).

(** [n - d * dt], apply.py:104-105. *)
Definition comes_from32 (fused : bool) (n : Z) (d dt : f32) : f32 :=
  if fused then @Bfma 24 128 p32 l32 mode_NE (@Bopp 24 128 d) dt (f32_ofZ n) else minus32 (f32_ofZ n) (mult32 d dt).

(** [img.at[r, c].add(val * weight)] for an index in range, apply.py:61. *)
Definition add_at32 (fused : bool) (im : fimage) (r c : Z) (val weight : f32) : fimage :=
  @mkGimage binary32 (g_rows im) (g_cols im)
    (fun r' c' => if (r' =? r) && (c' =? c) then madd32 fused val weight (g_at im r' c') else g_at im r' c').

(** [deposit_pixel], apply.py:42-66.  The sum [x0 + 1] cannot leave the 32-bit
    integers and come back into the image, so it is taken in Z. *)
Definition deposit_pixel32 (fz : fusing) (im : fimage) (x_src y_src val : f32) : fimage :=
  let x0 := f32_floor x_src in
  let y0 := f32_floor y_src in
  let wx := minus32 x_src (f32_ofZ x0) in
  let wy := minus32 y_src (f32_ofZ y0) in
  let one := f32_ofZ 1 in
  let in_bounds x y := (0 <=? x) && (x <? g_cols im) && (0 <=? y) && (y <? g_rows im) in
  fold_left
    (fun im '(dx, dy, weight) =>
       let xi := x0 + dx in
       let yi := y0 + dy in
       if in_bounds xi yi then add_at32 (fuse_add fz dx dy) im yi xi val weight else im)
    [ (0, 0, mult32 (minus32 one wx) (minus32 one wy)); (1, 0, mult32 wx (minus32 one wy));
      (0, 1, mult32 (minus32 one wx) wy); (1, 1, mult32 wx wy) ] im.

(** [apply_flow_to_image_forward], apply.py:11-74. *)
Definition forward32 (fz : fusing) (im : fimage) (f : flow32) (dt : f32) : fimage :=
  let H := g_rows im in
  let W := g_cols im in
  let x_d y x := goes_to32 (fuse_x fz) x (h_u f y x) dt in
  let y_d y x := goes_to32 (fuse_y fz) y (h_v f y x) dt in
  fold_left
    (fun acc i =>
       let y := Z.of_nat i / W in
       let x := Z.of_nat i mod W in
       deposit_pixel32 fz acc (x_d y x) (y_d y x) (g_at im y x))
    (seq 0 (Z.to_nat (H * W))) (@mkGimage binary32 H W (fun _ _ => f32_ofZ 0)).

(** [apply_flow_to_image_backward], apply.py:77-112. *)
Definition backward32 (fz : fusing) (im : fimage) (f : flow32) (dt : f32) : fimage :=
  @mkGimage binary32 (g_rows im) (g_cols im)
    (fun y x => bilinear32 im (comes_from32 (fuse_x fz) x (h_u f y x) dt) (comes_from32 (fuse_y fz) y (h_v f y x) dt)).
