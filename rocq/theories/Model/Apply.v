(** Model of src/synthpix/apply.py over exact rationals.  Images and flow
    fields are assumed to have the same height and width, as documented; other
    shapes (broadcasting) are not modelled. *)
From Coq Require Import List Arith ZArith QArith Qround Bool.
From Verif Require Import Prelude Model.Interp.
Import ListNotations.
Local Open Scope Z_scope.

(** [img.at[r, c].add(v)] for an index in range. *)
Definition add_at (im : image) (r c : Z) (v : Q) : image :=
  mkImage (rows im) (cols im)
    (fun r' c' => if andb (r' =? r) (c' =? c) then (at_ im r' c' + v)%Q else at_ im r' c').

(** [deposit_pixel], apply.py:42-66. *)
Definition deposit_pixel (im : image) (x_src y_src val : Q) : image :=
  let x0 := Qfloor x_src in
  let y0 := Qfloor y_src in
  let wx := (x_src - inject_Z x0)%Q in
  let wy := (y_src - inject_Z y0)%Q in
  let in_bounds x y := (0 <=? x) && (x <? cols im) && (0 <=? y) && (y <? rows im) in
  fold_left
    (fun im '(dx, dy, weight) =>
       let xi := x0 + dx in
       let yi := y0 + dy in
       if in_bounds xi yi then add_at im yi xi (val * weight)%Q else im)
    [ (0, 0, ((1 - wx) * (1 - wy))%Q); (1, 0, (wx * (1 - wy))%Q);
      (0, 1, ((1 - wx) * wy)%Q); (1, 1, (wx * wy)%Q) ] im.

(** [apply_flow_to_image_forward], apply.py:11-74. *)
Definition forward (im : image) (f : flow) (dt : Q) : image :=
  let H := rows im in
  let W := cols im in
  let x_d y x := (inject_Z x + fu f y x * dt)%Q in
  let y_d y x := (inject_Z y + fv f y x * dt)%Q in
  fold_left
    (fun acc i =>
       let y := Z.of_nat i / W in
       let x := Z.of_nat i mod W in
       deposit_pixel acc (x_d y x) (y_d y x) (at_ im y x))
    (seq 0 (Z.to_nat (H * W))) (mkImage H W (fun _ _ => 0%Q)).

(** [apply_flow_to_image_backward], apply.py:77-112. *)
Definition backward (im : image) (f : flow) (dt : Q) : image :=
  mkImage (rows im) (cols im)
    (fun y x => bilinear im (inject_Z x - fu f y x * dt)%Q (inject_Z y - fv f y x * dt)%Q).

(** [apply_flow_to_image_callable], apply.py:115-156. *)
Definition callable_flow (flow_f : Q -> Q -> Q -> Q * Q) (t : Q) (H W : Z) : flow :=
  mkFlow H W (fun y x => fst (flow_f t (inject_Z x) (inject_Z y)))
             (fun y x => snd (flow_f t (inject_Z x) (inject_Z y))).
Definition apply_callable (im : image) (flow_f : Q -> Q -> Q -> Q * Q) (t dt : Q) (fwd : bool) : image :=
  let uv := callable_flow flow_f t (rows im) (cols im) in
  if fwd then forward im uv dt else backward im uv dt.

(** [_update_position_2d], apply.py:255-268; a position is (y, x). *)
Definition update_2d (f : flow) (dt rx ry : Q) (p : Q * Q) : Q * Q :=
  let (y, x) := p in
  let u := (bilinear (chan0 f) x y * rx)%Q in
  let v := (bilinear (chan1 f) x y * ry)%Q in
  ((y + v * dt)%Q, (x + u * dt)%Q).

(** A flow volume of shape (D, H, W, 3). *)
Record flow3 : Type := mkFlow3 { g0 : volume; g1 : volume; g2 : volume }.

(** [_update_position_3d], apply.py:274-287; a position is (z, y, x). *)
Definition update_3d (f : flow3) (dt rx ry rz : Q) (p : Q * Q * Q) : Q * Q * Q :=
  let '(z, y, x) := p in
  let u := (trilinear (g0 f) x y z * rx)%Q in
  let v := (trilinear (g1 f) x y z * ry)%Q in
  let w := (trilinear (g2 f) x y z * rz)%Q in
  ((z + w * dt)%Q, (y + v * dt)%Q, (x + u * dt)%Q).

(** The shapes on which [apply_flow_to_particles] (apply.py:218-290) works, for
    positions of shape (n, k) and a flow field of shape [f] whose last axis has
    at least [k] entries: [flow_field[..., i]] drops the last axis, then
    [bilinear_interpolate] unpacks the remaining shape into two sizes and
    [trilinear_interpolate] into three, and a position into [k] coordinates,
    raising ValueError on a wrong count. *)
Definition apply_shape (n k : nat) (f : list nat) : result (nat * nat) :=
  if Nat.eqb k 2 then if Nat.eqb (List.length f) 3 then Ok (n, 2%nat) else Err ValueError
  else if negb (Nat.eqb k 3) then Err ValueError
  else if Nat.eqb (List.length f) 4 then Ok (n, 3%nat) else Err ValueError.

(** The shape checks of [input_check_apply_flow], apply.py:183-205. *)
Definition check_shapes (k : nat) (f : list nat) : result unit :=
  if negb (Nat.eqb k 2 || Nat.eqb k 3) then Err ValueError
  else if negb (Nat.eqb (List.length f) 3 && (Nat.eqb (nth 2 f 0%nat) 2 || Nat.eqb (nth 2 f 0%nat) 3)) then Err ValueError
  else if Nat.eqb k 2 && negb (Nat.eqb (nth 2 f 0%nat) 2) then Err ValueError
  else if Nat.eqb k 3 && negb (Nat.eqb (nth 2 f 0%nat) 3) then Err ValueError
  else Ok tt.
