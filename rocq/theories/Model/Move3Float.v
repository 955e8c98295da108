(** Moving three-dimensional particles in binary32: [_update_position_3d],
    apply.py:272-287, each operation
    rounded to nearest even. *)
From Coq Require Import ZArith.
From Flocq Require Import IEEE754.BinarySingleNaN.
From Verif Require Import Model.Interp Model.Geometry Model.InterpFloat Model.TriFloat.

(** A flow field of shape (D, H, W, 3), by channel: [flow_field[..., i]],
    apply.py:280-282. *)
Record flow3_32 : Type := mkFlow3_32 { k0 : fvolume; k1 : fvolume; k2 : fvolume }.

(** [_update_position_3d], apply.py:272-285; a position is (z, y, x).  The time step and the resolutions are given as the
    floats they become when they meet the arrays. *)
Definition update3_32 (f : flow3_32) (dt rx ry rz : f32) (p : f32 * f32 * f32) : f32 * f32 * f32 :=
  let '(z, y, x) := p in
  let u := fmul (trilinear32 (k0 f) x y z) rx in
  let v := fmul (trilinear32 (k1 f) x y z) ry in
  let w := fmul (trilinear32 (k2 f) x y z) rz in
  (fadd z (fmul w dt), fadd y (fmul v dt), fadd x (fmul u dt)).
