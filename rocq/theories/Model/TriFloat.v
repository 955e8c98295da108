(** [trilinear_interpolate], utils.py:110-169, in IEEE binary32 as JAX runs it,
    each operation rounded to nearest even. *)
From Coq Require Import ZArith QArith Qround Bool.
From Flocq Require Import IEEE754.BinarySingleNaN.
From Verif Require Import Model.Interp Model.Geometry Model.Render Model.InterpFloat.
Local Open Scope Z_scope.

(** A volume of floats of shape (D, H, W). *)
Record fvolume : Type := mkFvol { wD : Z; wH : Z; wW : Z; wat : Z -> Z -> Z -> f32 }.

(** [volume[z, y, x]], utils.py:149-156. *)
Definition wgather (v : fvolume) (d r c : Z) : f32 :=
  wat v (gather_index (wD v) d) (gather_index (wH v) r) (gather_index (wW v) c).

(** [jnp.floor] on floats, utils.py:144-146; infinities and NaN are passed on. *)
Definition floor32 (x : f32) : f32 :=
  match x with
  | B754_infinity _ | B754_nan => x
  | _ => match f_val x with Some q => f32_ofZ (Qfloor q) | None => x end
  end.

(** [jnp.ceil(_).astype(int)], utils.py:131-133: as [f32_floor] of
    Model/InterpFloat.v, int is int32 and the conversion saturates. *)
Definition f32_ceil (x : f32) : Z :=
  match x with
  | B754_infinity s => if s then - 2 ^ 31 else 2 ^ 31 - 1
  | B754_nan => 0
  | _ => match f_val x with Some q => int32 (Qceiling q) | None => 0 end
  end.

Definition fadd : f32 -> f32 -> f32 := @Bplus 24 128 p32 l32 mode_NE.
Definition fsub : f32 -> f32 -> f32 := @Bminus 24 128 p32 l32 mode_NE.
Definition fmul : f32 -> f32 -> f32 := @Bmult 24 128 p32 l32 mode_NE.

(** utils.py:124-169, in the order in which Python evaluates it. *)
Definition trilinear32 (v : fvolume) (x y z : f32) : f32 :=
  let x0 := clipZ 0 (wW v - 1) (f32_floor x) in
  let y0 := clipZ 0 (wH v - 1) (f32_floor y) in
  let z0 := clipZ 0 (wD v - 1) (f32_floor z) in
  let x1 := clipZ 0 (wW v - 1) (f32_ceil x) in
  let y1 := clipZ 0 (wH v - 1) (f32_ceil y) in
  let z1 := clipZ 0 (wD v - 1) (f32_ceil z) in
  let ax := fsub x (floor32 x) in
  let ay := fsub y (floor32 y) in
  let az := fsub z (floor32 z) in
  let Ia := wgather v z0 y0 x0 in
  let Ib := wgather v z0 y0 x1 in
  let Ic := wgather v z0 y1 x0 in
  let Id := wgather v z0 y1 x1 in
  let Ie := wgather v z1 y0 x0 in
  let If := wgather v z1 y0 x1 in
  let Ig := wgather v z1 y1 x0 in
  let Ih := wgather v z1 y1 x1 in
  let one := f32_ofZ 1 in
  let wa := fmul (fmul (fsub one ax) (fsub one ay)) (fsub one az) in
  let wb := fmul (fmul ax (fsub one ay)) (fsub one az) in
  let wc := fmul (fmul (fsub one ax) ay) (fsub one az) in
  let wd := fmul (fmul ax ay) (fsub one az) in
  let we := fmul (fmul (fsub one ax) (fsub one ay)) az in
  let wf := fmul (fmul ax (fsub one ay)) az in
  let wg := fmul (fmul (fsub one ax) ay) az in
  let wh := fmul (fmul ax ay) az in
  fadd (fadd (fadd (fadd (fadd (fadd (fadd (fmul Ia wa) (fmul Ib wb)) (fmul Ic wc)) (fmul Id wd)) (fmul Ie we))
    (fmul If wf)) (fmul Ig wg)) (fmul Ih wh).
