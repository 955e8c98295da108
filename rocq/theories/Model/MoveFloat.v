(** Moving the particles in binary32 as JAX runs it: apply.py:218-290 and
    data_generate.py:75-79, 235-262. *)
From Coq Require Import List ZArith QArith Bool.
From Flocq Require Import IEEE754.BinarySingleNaN.
From Verif Require Import Prelude Model.Interp Model.Geometry Model.Render Model.InterpFloat Model.HistFloat Model.DrawFloat.
Local Open Scope Z_scope.

(** A flow field of shape (H, W, 2). *)
Record flow32 : Type := mkFlow32 { h_H : Z; h_W : Z; h_u : Z -> Z -> f32; h_v : Z -> Z -> f32 }.
Definition hchan0 (f : flow32) : fimage := @mkGimage binary32 (h_H f) (h_W f) (h_u f).
Definition hchan1 (f : flow32) : fimage := @mkGimage binary32 (h_H f) (h_W f) (h_v f).

(** [_update_position_2d], apply.py:255-268.  The time step and the resolutions
    are given as the floats they become when they meet the arrays. *)
Definition update32 (f : flow32) (dt rx ry : f32) (p : f32 * f32) : f32 * f32 :=
  let (y, x) := p in
  let u := mult32 (bilinear32 (hchan0 f) x y) rx in
  let v := mult32 (bilinear32 (hchan1 f) x y) ry in
  (plus32 y (mult32 v dt), plus32 x (mult32 u dt)).

(** [alpha1], [alpha2], data_generate.py:78-79: the quotient of two Python
    integers, a double, which becomes a single where it meets an array. *)
Definition scale32 (n b : Z) : f32 := to_f32 (@Bdiv 53 1024 p64 l64 mode_NE (f64_ofZ n) (f64_ofZ b)).

(** [_ / alpha], data_generate.py:257-258: as written, or ([recip]) as the
    product with the reciprocal by which the compiler may replace it. *)
Definition unscale32 (recip : bool) (t a : f32) : f32 :=
  if recip then mult32 t (div32 (f32_ofZ 1) a) else div32 t a.

(** The position of a particle in the second image, data_generate.py:236-262. *)
Definition second_position32 (recip : bool) (pb : Z * Z) (f : flow32) (dt rx ry : f32) (p : f32 * f32) : f32 * f32 :=
  let a1 := scale32 (h_H f) (fst pb) in
  let a2 := scale32 (h_W f) (snd pb) in
  let (y, x) := p in
  let (y', x') := update32 f dt rx ry (mult32 y a1, mult32 x a2) in
  (unscale32 recip y' a1, unscale32 recip x' a2).
