(** Model of the sampling functions of src/synthpix/utils.py: interpolation
    (66-169) and [flow_field_adapter] (172-331), over exact rationals. *)
From Coq Require Import List Arith ZArith QArith Qround Bool.
From Verif Require Import Prelude.
Import ListNotations.
Local Open Scope Z_scope.

(** A 2-D array of shape (rows, cols). *)
Record image : Type := mkImage { rows : Z; cols : Z; at_ : Z -> Z -> Q }.

(** [jnp.clip(x, lo, hi)] = minimum(maximum(x, lo), hi), on integers and on numbers. *)
Definition clipZ (lo hi x : Z) : Z := Z.min (Z.max x lo) hi.
Definition clipQ (lo hi x : Q) : Q :=
  let m := if Qle_bool lo x then x else lo in
  if Qle_bool m hi then m else hi.

(** JAX indexing [a[i]] on an axis of length [n]: a negative index counts from
    the end, what is still out of range is clamped. *)
Definition wrap (n i : Z) : Z := if i <? 0 then i + n else i.
Definition gather_index (n i : Z) : Z := clipZ 0 (n - 1) (wrap n i).
Definition gather (im : image) (r c : Z) : Q :=
  at_ im (gather_index (rows im) r) (gather_index (cols im) c).

(** [bilinear_interpolate], utils.py:66-107, at one coordinate pair. *)
Definition bilinear (im : image) (x_f y_f : Q) : Q :=
  let H := rows im in
  let W := cols im in
  let x_c := clipQ 0 (inject_Z W - 1) x_f in
  let y_c := clipQ 0 (inject_Z H - 1) y_f in
  let x0 := clipZ 0 (W - 1) (Qfloor x_f) in
  let x1 := clipZ 0 (W - 1) (x0 + 1) in
  let y0 := clipZ 0 (H - 1) (Qfloor y_f) in
  let y1 := clipZ 0 (H - 1) (y0 + 1) in
  let wx := (x_c - inject_Z x0)%Q in
  let wy := (y_c - inject_Z y0)%Q in
  let I00 := gather im y0 x0 in
  let I10 := gather im y0 x1 in
  let I01 := gather im y1 x0 in
  let I11 := gather im y1 x1 in
  ((1 - wx) * (1 - wy) * I00 + wx * (1 - wy) * I10 + (1 - wx) * wy * I01 + wx * wy * I11)%Q.

(** A 3-D array of shape (D, H, W). *)
Record volume : Type := mkVolume { vD : Z; vH : Z; vW : Z; vat : Z -> Z -> Z -> Q }.

Definition vgather (v : volume) (d r c : Z) : Q :=
  vat v (gather_index (vD v) d) (gather_index (vH v) r) (gather_index (vW v) c).

(** [trilinear_interpolate], utils.py:110-169, at one coordinate triple. *)
Definition trilinear (v : volume) (x y z : Q) : Q :=
  let x0 := clipZ 0 (vW v - 1) (Qfloor x) in
  let x1 := clipZ 0 (vW v - 1) (Qceiling x) in
  let y0 := clipZ 0 (vH v - 1) (Qfloor y) in
  let y1 := clipZ 0 (vH v - 1) (Qceiling y) in
  let z0 := clipZ 0 (vD v - 1) (Qfloor z) in
  let z1 := clipZ 0 (vD v - 1) (Qceiling z) in
  let ax := (x - inject_Z (Qfloor x))%Q in
  let ay := (y - inject_Z (Qfloor y))%Q in
  let az := (z - inject_Z (Qfloor z))%Q in
  let Ia := vgather v z0 y0 x0 in
  let Ib := vgather v z0 y0 x1 in
  let Ic := vgather v z0 y1 x0 in
  let Id := vgather v z0 y1 x1 in
  let Ie := vgather v z1 y0 x0 in
  let If := vgather v z1 y0 x1 in
  let Ig := vgather v z1 y1 x0 in
  let Ih := vgather v z1 y1 x1 in
  (Ia * ((1 - ax) * (1 - ay) * (1 - az)) + Ib * (ax * (1 - ay) * (1 - az))
   + Ic * ((1 - ax) * ay * (1 - az)) + Id * (ax * ay * (1 - az))
   + Ie * ((1 - ax) * (1 - ay) * az) + If * (ax * (1 - ay) * az)
   + Ig * ((1 - ax) * ay * az) + Ih * (ax * ay * az))%Q.

(** A flow field of shape (H, W, 2): channel 0 is the x velocity.  (A third
    channel, which the code ignores in 2-D, is not represented.) *)
Record flow : Type := mkFlow { fH : Z; fW : Z; fu : Z -> Z -> Q; fv : Z -> Z -> Q }.
Definition chan0 (f : flow) : image := mkImage (fH f) (fW f) (fu f).
Definition chan1 (f : flow) : image := mkImage (fH f) (fW f) (fv f).

(** [jnp.pad(flow, ((py, 0), (px, 0), (0, 0)), mode="edge")], utils.py:248-252. *)
Definition pad_edge (py px : Z) (f : flow) : flow :=
  mkFlow (fH f + py) (fW f + px)
    (fun r c => fu f (Z.max 0 (r - py)) (Z.max 0 (c - px)))
    (fun r c => fv f (Z.max 0 (r - py)) (Z.max 0 (c - px))).

(** [jnp.linspace(a, b, n)[i]]. *)
Definition linspace (a b : Q) (n i : Z) : Q :=
  if n =? 1 then a else (a + inject_Z i * ((b - a) / inject_Z (n - 1)))%Q.

(** Python's [int] of a float: truncation towards zero. *)
Definition Qtrunc (q : Q) : Z := if Qle_bool 0 q then Qfloor q else Qceiling q.

(** The arguments of [flow_field_adapter], utils.py:201-215. *)
Record adapter_args : Type := mkAdapter {
  ad_new : Z * Z;            (* new_flow_field_shape *)
  ad_image : Z * Z;          (* image_shape *)
  ad_off : Z * Z;            (* img_offset, pixels *)
  ad_res : Q;                (* resolution *)
  ad_rx : Q;                 (* res_x *)
  ad_ry : Q;                 (* res_y *)
  ad_pb : Z * Z;             (* position_bounds, pixels *)
  ad_pbo : Q * Q;            (* position_bounds_offset, length units *)
  ad_batch : nat;            (* batch_size *)
  ad_pixels : bool;          (* output_units == "pixels" *)
  ad_dt : Q;
  ad_pad : Z * Z             (* zero_padding *)
}.

Section Adapter.
Variable a : adapter_args.

(** The coordinates at which the reported flow is sampled, utils.py:256-276:
    along y for row [i] and along x for column [j]. *)
Definition rep_start_y : Q := (fst (ad_pbo a) * ad_ry a + inject_Z (fst (ad_off a)) / ad_res a * ad_ry a)%Q.
Definition rep_start_x : Q := (snd (ad_pbo a) * ad_rx a + inject_Z (snd (ad_off a)) / ad_res a * ad_rx a)%Q.
Definition rep_y (i : Z) : Q :=
  linspace rep_start_y (rep_start_y + inject_Z (fst (ad_image a)) / ad_res a * ad_ry a - 1)%Q (fst (ad_new a)) i.
Definition rep_x (j : Z) : Q :=
  linspace rep_start_x (rep_start_x + inject_Z (snd (ad_image a)) / ad_res a * ad_rx a - 1)%Q (snd (ad_new a)) j.

(** The coordinates for the particle flow, utils.py:290-309, and its shape. *)
Definition par_start_y : Q := (fst (ad_pbo a) * ad_ry a)%Q.
Definition par_start_x : Q := (snd (ad_pbo a) * ad_rx a)%Q.
Definition par_h : Z := Z.max 1 (Qtrunc (inject_Z (fst (ad_pb a)) / ad_res a * ad_ry a)).
Definition par_w : Z := Z.max 1 (Qtrunc (inject_Z (snd (ad_pb a)) / ad_res a * ad_rx a)).
Definition par_y (i : Z) : Q :=
  linspace par_start_y (par_start_y + inject_Z (fst (ad_pb a)) / ad_res a * ad_ry a - 1)%Q par_h i.
Definition par_x (j : Z) : Q :=
  linspace par_start_x (par_start_x + inject_Z (snd (ad_pb a)) / ad_res a * ad_rx a - 1)%Q par_w j.

(** [process_single], utils.py:245-323. *)
Definition process_single (f0 : flow) : flow * flow :=
  let f := pad_edge (fst (ad_pad a)) (snd (ad_pad a)) f0 in
  let scale (q : Q) := (if ad_pixels a then q * (ad_res a * ad_dt a) else q)%Q in
  (mkFlow (fst (ad_new a)) (snd (ad_new a))
     (fun i j => scale (bilinear (chan0 f) (rep_x j) (rep_y i)))
     (fun i j => scale (bilinear (chan1 f) (rep_x j) (rep_y i))),
   mkFlow par_h par_w
     (fun i j => bilinear (chan0 f) (par_x j) (par_y i))
     (fun i j => bilinear (chan1 f) (par_x j) (par_y i))).

(** utils.py:325-331: vmap over the batch, then tile and cut. *)
Definition flow_field_adapter (fs : list flow) : list flow * list flow :=
  let adapted := map (fun f => fst (process_single f)) fs in
  let n := List.length adapted in
  let repeats := ((ad_batch a + n - 1) / n)%nat in
  (firstn (ad_batch a) (List.concat (repeat adapted repeats)), map (fun f => snd (process_single f)) fs).
End Adapter.

(** [generate_array_flow_field], utils.py:172-198: row [i], column [j] holds
    [flow_f(1, i, j)]. *)
Definition gen_array (flow_f : Q -> Q -> Q -> Q * Q) (H W : Z) : flow :=
  mkFlow H W (fun i j => fst (flow_f 1%Q (inject_Z i) (inject_Z j)))
             (fun i j => snd (flow_f 1%Q (inject_Z i) (inject_Z j))).
