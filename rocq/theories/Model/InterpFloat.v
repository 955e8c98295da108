(** [bilinear_interpolate], utils.py:66-107, over any arithmetic: the exact
    rationals of Model/Interp.v, IEEE binary32 as JAX runs it, and real numbers
    where each operation is rounded by a function of its own. *)
From Coq Require Import List ZArith QArith Qround Bool Reals.
From Flocq Require Import Core IEEE754.BinarySingleNaN.
From Verif Require Import Prelude Model.Interp Model.Geometry Model.Render.
Local Open Scope Z_scope.

(** What the function needs of its numbers.  The operations carry the number of
    the place in the expression where they stand. *)
Record arith : Type := mkArith {
  num_t : Type;
  a_ofZ : Z -> num_t;                              (* an integer array met by a float one *)
  a_last : Z -> num_t;                             (* [n - 1.0] *)
  a_clip : num_t -> num_t -> num_t -> num_t;       (* [jnp.clip]: bounds, then the number *)
  a_floor : num_t -> Z;                            (* [jnp.floor(_).astype(jnp.int32)] *)
  a_add : nat -> num_t -> num_t -> num_t;
  a_sub : nat -> num_t -> num_t -> num_t;
  a_mul : nat -> num_t -> num_t -> num_t
}.

Record gimage (A : arith) : Type := mkGimage { g_rows : Z; g_cols : Z; g_at : Z -> Z -> num_t A }.
Arguments mkGimage {A}. Arguments g_rows {A}. Arguments g_cols {A}. Arguments g_at {A}.

Definition ggather {A} (im : gimage A) (r c : Z) : num_t A :=
  g_at im (gather_index (g_rows im) r) (gather_index (g_cols im) c).

(** utils.py:79-107, in the order in which Python evaluates it. *)
Definition bilinear_in (A : arith) (im : gimage A) (x_f y_f : num_t A) : num_t A :=
  let H := g_rows im in
  let W := g_cols im in
  let x_c := a_clip A (a_ofZ A 0) (a_last A W) x_f in
  let y_c := a_clip A (a_ofZ A 0) (a_last A H) y_f in
  let x0 := clipZ 0 (W - 1) (a_floor A x_f) in
  let x1 := clipZ 0 (W - 1) (x0 + 1) in
  let y0 := clipZ 0 (H - 1) (a_floor A y_f) in
  let y1 := clipZ 0 (H - 1) (y0 + 1) in
  let wx := a_sub A 0 x_c (a_ofZ A x0) in
  let wy := a_sub A 1 y_c (a_ofZ A y0) in
  let I00 := ggather im y0 x0 in
  let I10 := ggather im y0 x1 in
  let I01 := ggather im y1 x0 in
  let I11 := ggather im y1 x1 in
  let one := a_ofZ A 1 in
  let t00 := a_mul A 5 (a_mul A 4 (a_sub A 2 one wx) (a_sub A 3 one wy)) I00 in
  let t10 := a_mul A 8 (a_mul A 7 wx (a_sub A 6 one wy)) I10 in
  let t01 := a_mul A 11 (a_mul A 10 (a_sub A 9 one wx) wy) I01 in
  let t11 := a_mul A 13 (a_mul A 12 wx wy) I11 in
  a_add A 16 (a_add A 15 (a_add A 14 t00 t10) t01) t11.

(** Exact rationals: Model/Interp.v. *)
Definition rationals : arith :=
  mkArith Q inject_Z (fun n => inject_Z n - 1)%Q clipQ Qfloor (fun _ => Qplus) (fun _ => Qminus) (fun _ => Qmult).
Definition as_gimage (im : image) : gimage rationals := @mkGimage rationals (rows im) (cols im) (at_ im).

(** IEEE binary32, round to nearest even.  A non-finite coordinate: [jnp.clip]
    passes a NaN on; the conversion to int32 saturates and maps a NaN to 0. *)
Definition f32_isnan (x : f32) : bool := match x with B754_nan => true | _ => false end.
Definition f32_clip (lo hi x : f32) : f32 :=
  if f32_isnan x then x else
  let m := if f32_leb lo x then x else lo in
  if f32_leb m hi then m else hi.
Definition int32 (z : Z) : Z := clipZ (- 2 ^ 31) (2 ^ 31 - 1) z.
Definition f32_floor (x : f32) : Z :=
  match x with
  | B754_infinity s => if s then - 2 ^ 31 else 2 ^ 31 - 1
  | B754_nan => 0
  | _ => match f_val x with Some q => int32 (Qfloor q) | None => 0 end
  end.
Definition binary32 : arith :=
  mkArith f32 f32_ofZ (fun n => f32_ofZ (n - 1)) f32_clip f32_floor
    (fun _ => @Bplus 24 128 p32 l32 mode_NE) (fun _ => @Bminus 24 128 p32 l32 mode_NE)
    (fun _ => @Bmult 24 128 p32 l32 mode_NE).
Definition fimage : Type := gimage binary32.
Definition bilinear32 : fimage -> f32 -> f32 -> f32 := bilinear_in binary32.

(** Real numbers with a rounding for each place.  A place whose rounding is the
    identity stands for a product fused into the addition that follows it. *)
Definition rounded (rn : nat -> R -> R) : arith :=
  mkArith R IZR (fun n => IZR n - 1)%R (fun lo hi x => Rmin (Rmax x lo) hi) Zfloor
    (fun i a b => rn i (a + b)%R) (fun i a b => rn i (a - b)%R) (fun i a b => rn i (a * b)%R).

Lemma bilinear_in_exact : forall im x y, bilinear_in rationals (as_gimage im) x y = bilinear im x y.
Proof. reflexivity. Qed.
