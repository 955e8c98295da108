(** [flow_field_adapter], utils.py:201-331, in the arithmetic that runs: Python
    floats (binary64) up to the call of [jnp.linspace], binary32 after it. *)
From Coq Require Import List Arith ZArith QArith Bool.
From Flocq Require Import IEEE754.BinarySingleNaN.
From Verif Require Import Prelude Model.Interp Model.Geometry Model.Render Model.InterpFloat Model.HistFloat Model.DrawFloat Model.MoveFloat.
Import ListNotations.
Local Open Scope Z_scope.

Definition add64 (x y : f64) : f64 := @Bplus 53 1024 p64 l64 mode_NE x y.
Definition sub64 (x y : f64) : f64 := @Bminus 53 1024 p64 l64 mode_NE x y.
Definition mul64 (x y : f64) : f64 := @Bmult 53 1024 p64 l64 mode_NE x y.
Definition div64 (x y : f64) : f64 := @Bdiv 53 1024 p64 l64 mode_NE x y.

(** The arguments, utils.py:201-215. *)
Record adapter64 : Type := mkAdapter64 {
  b_new : Z * Z;             (* new_flow_field_shape *)
  b_image : Z * Z;           (* image_shape *)
  b_off : Z * Z;             (* img_offset, pixels *)
  b_res : f64;               (* resolution *)
  b_rx : f64;                (* res_x *)
  b_ry : f64;                (* res_y *)
  b_pb : Z * Z;              (* position_bounds, pixels *)
  b_pbo : f64 * f64;         (* position_bounds_offset, length units *)
  b_batch : nat;             (* batch_size *)
  b_pixels : bool;           (* output_units == "pixels" *)
  b_dt : f64;
  b_pad : Z * Z              (* zero_padding *)
}.

(** How the compiler renders a division by a constant and a sum of two
    products: as written, or with the reciprocal ([w_recip]), with one of the
    products fused into the sum ([w_fuse], the first for [Some true]). *)
Record ways : Type := mkWays { w_recip : bool; w_fuse : option bool }.

Definition fma32 (x y z : f32) : f32 := @Bfma 24 128 p32 l32 mode_NE x y z.
Definition mix32 (fuse : option bool) (a s b t : f32) : f32 :=
  match fuse with
  | None => plus32 (mult32 a s) (mult32 b t)
  | Some true => fma32 a s (mult32 b t)
  | Some false => fma32 b t (mult32 a s)
  end.

(** [jnp.linspace(a, b, n)[i]], for Python floats [a] and [b]: the entry of
    JAX's [_linspace], which is not part of the repository.  The bounds become
    singles, the steps are [i / (n - 1)], the entries
    [a * (1 - step) + b * step], and the last entry is [b]. *)
Definition linspace32 (w : ways) (a b : f64) (n i : Z) : f32 :=
  if n =? 1 then to_f32 a else
  if i =? n - 1 then to_f32 b else
  let s := unscale32 (w_recip w) (f32_ofZ i) (f32_ofZ (n - 1)) in
  mix32 (w_fuse w) (to_f32 a) (minus32 (f32_ofZ 1) s) (to_f32 b) s.

(** [jnp.pad(..., mode="edge")], utils.py:247-252. *)
Definition pad32 (py px : Z) (f : flow32) : flow32 :=
  mkFlow32 (h_H f + py) (h_W f + px)
    (fun r c => h_u f (Z.max 0 (r - py)) (Z.max 0 (c - px)))
    (fun r c => h_v f (Z.max 0 (r - py)) (Z.max 0 (c - px))).

(** [len / resolution * res], utils.py:257-264, 296-309. *)
Definition span64 (len : Z) (res r : f64) : f64 := mul64 (div64 (f64_ofZ len) res) r.

(** [max(1, int(position_bounds / resolution * res))], utils.py:302, 307; [int]
    fails on what is not finite. *)
Definition size64 (len : Z) (res r : f64) : result Z :=
  match f_val (span64 len res r) with Some q => Ok (Z.max 1 (Qtrunc q)) | None => Err ValueError end.

(** The two grids along one axis, utils.py:256-276 and 290-309. *)
Definition rep_start64 (pbo res r : f64) (off : Z) : f64 := add64 (mul64 pbo r) (span64 off res r).
Definition end64 (start : f64) (len : Z) (res r : f64) : f64 := sub64 (add64 start (span64 len res r)) (f64_ofZ 1).

Definition rep32 (w : ways) (pbo res r : f64) (off image new i : Z) : f32 :=
  let s := rep_start64 pbo res r off in linspace32 w s (end64 s image res r) new i.
Definition par32 (w : ways) (pbo res r : f64) (pb size i : Z) : f32 :=
  let s := mul64 pbo r in linspace32 w s (end64 s pb res r) size i.

Section Adapter.
Variables (w : ways) (a : adapter64).

Definition rep_y32 (i : Z) : f32 := rep32 w (fst (b_pbo a)) (b_res a) (b_ry a) (fst (b_off a)) (fst (b_image a)) (fst (b_new a)) i.
Definition rep_x32 (j : Z) : f32 := rep32 w (snd (b_pbo a)) (b_res a) (b_rx a) (snd (b_off a)) (snd (b_image a)) (snd (b_new a)) j.

(** The reported flow, utils.py:255-286 and 319-321; the factor is the product
    of two Python floats and becomes a single. *)
Definition reported32 (f0 : flow32) : flow32 :=
  let f := pad32 (fst (b_pad a)) (snd (b_pad a)) f0 in
  let scale (x : f32) := if b_pixels a then mult32 x (to_f32 (mul64 (b_res a) (b_dt a))) else x in
  mkFlow32 (fst (b_new a)) (snd (b_new a))
    (fun i j => scale (bilinear32 (hchan0 f) (rep_x32 j) (rep_y32 i)))
    (fun i j => scale (bilinear32 (hchan1 f) (rep_x32 j) (rep_y32 i))).

(** The flow the particles move in, utils.py:288-317, of shape [(h, v)]. *)
Definition cropped32 (h v : Z) (f0 : flow32) : flow32 :=
  let f := pad32 (fst (b_pad a)) (snd (b_pad a)) f0 in
  let y i := par32 w (fst (b_pbo a)) (b_res a) (b_ry a) (fst (b_pb a)) h i in
  let x j := par32 w (snd (b_pbo a)) (b_res a) (b_rx a) (snd (b_pb a)) v j in
  mkFlow32 h v
    (fun i j => bilinear32 (hchan0 f) (x j) (y i))
    (fun i j => bilinear32 (hchan1 f) (x j) (y i)).

(** utils.py:240-331. *)
Definition adapter32 (fs : list flow32) : result (list flow32 * list flow32) :=
  bind (size64 (fst (b_pb a)) (b_res a) (b_ry a)) (fun h =>
  bind (size64 (snd (b_pb a)) (b_res a) (b_rx a)) (fun v =>
  let adapted := map reported32 fs in
  let n := List.length adapted in
  let repeats := ((b_batch a + n - 1) / n)%nat in
  Ok (firstn (b_batch a) (List.concat (repeat adapted repeats)), map (cropped32 h v) fs))).
End Adapter.

(** The call the sampler makes with the geometry it has stored, synthetic.py:406-421. *)
Definition adapter64_of (c : gcfg float64) (g : geom float64) (batch : nat) (pixels : bool) : adapter64 :=
  mkAdapter64 (o_out g) (g_image c) (o_off g) (g_res c) (snd (o_res g)) (fst (o_res g)) (o_pb g) (o_pbo g)
              batch pixels (g_dt c) (o_pad g).
