(** Drawing in binary32 as JAX runs it: generate.py:9-47 and 83-178.

    The exponential of the array library is a parameter [ex].  The order in which
    the scatter adds up what falls on one pixel is left open, as JAX leaves it. *)
From Coq Require Import List Arith ZArith QArith Qround Bool Permutation.
From Flocq Require Import IEEE754.BinarySingleNaN.
From Verif Require Import Prelude Model.Interp Model.Geometry Model.Render Model.InterpFloat Model.HistFloat.
Import ListNotations.
Local Open Scope Z_scope.

Definition minus32 : f32 -> f32 -> f32 := @Bminus 24 128 p32 l32 mode_NE.
Definition mult32 : f32 -> f32 -> f32 := @Bmult 24 128 p32 l32 mode_NE.
Definition f32K (ex : f32 -> f32) : kops := mkKops f32 f32_ofZ plus32 minus32 mult32 div32 (@Bopp 24 128) ex.

Record particle32 : Type := mkP32 { q_y : f32; q_x : f32; q_dx : f32; q_dy : f32; q_rho : f32; q_amp : f32 }.

(** The centre after clipping and the first row or column of the patch on an
    axis of [n] pixels, generate.py:133-140. *)
Definition clip_center32 (n r : Z) (p : f32) : f32 := f32_clip (f32_ofZ r) (bound32 n r) p.
Definition first32 (n r : Z) (p : f32) : Z := f32_floor (minus32 (clip_center32 n r p) (f32_ofZ r)).

Definition upd32 : Type := (Z * Z * f32)%type.

Section Draw.
Variable ex : f32 -> f32.

(** [single_particle_scatter], generate.py:129-161.  The offsets [X - frac_x] and
    [Y - frac_y] meet the [0] of the call of the kernel, generate.py:157-159. *)
Definition scatter_one32 (H W r : Z) (p : particle32) : list upd32 :=
  let y0 := clip_center32 H r (q_y p) in
  let x0 := clip_center32 W r (q_x p) in
  let ty := first32 H r (q_y p) in
  let tx := first32 W r (q_x p) in
  let frac_y := minus32 y0 (f32_ofZ (ty + r)) in
  let frac_x := minus32 x0 (f32_ofZ (tx + r)) in
  let sigma_x := div32 (q_dx p) (f32_ofZ 2) in
  let sigma_y := div32 (q_dy p) (f32_ofZ 2) in
  flat_map (fun i => map (fun j =>
      ((i + ty)%Z, (j + tx)%Z,
       gaussian (f32K ex) (minus32 (f32_ofZ (j - r)) frac_x) (minus32 (f32_ofZ (i - r)) frac_y) (f32_ofZ 0) (f32_ofZ 0)
         sigma_x sigma_y (q_rho p) (q_amp p)))
      (zrange 0 (2 * r + 1))) (zrange 0 (2 * r + 1)).

(** The updates that reach pixel (row, col), generate.py:172. *)
Definition hits (H W : Z) (us : list upd32) (row col : Z) : list f32 :=
  flat_map (fun u => let '(i, j, v) := u in
    match scatter_index H i, scatter_index W j with
    | Some a, Some b => if (a =? row) && (b =? col) then [v] else []
    | _, _ => []
    end) us.

(** [image.at[coords].add(updates)] on zeros, generate.py:171-172: at each pixel
    the zero and the updates that reach it, added up in some order and bracketed
    somehow. *)
Definition scattered32 (H W : Z) (us : list upd32) (im : fimage) : Prop :=
  g_rows im = H /\ g_cols im = W /\
  forall row col, 0 <= row < H -> 0 <= col < W ->
    exists l, Permutation (f32_ofZ 0 :: hits H W us row col) l /\ sum32 l (g_at im row col).

(** [img_gen_from_data], generate.py:83-178; [drawn32 .. im]: [im] is a possible
    result. *)
Definition drawn32 (ps : list particle32) (H W : Z) (max_diameter : Q) (clip : bool) (im : fimage) : Prop :=
  let r := patch_radius max_diameter in
  exists raw, scattered32 H W (flat_map (scatter_one32 H W r) ps) raw /\
    im = if clip then @mkGimage binary32 H W (fun a b => f32_clip (f32_ofZ 0) (f32_ofZ 255) (g_at raw a b)) else raw.
End Draw.
