(** Model of the geometry computed by the constructor of the synthetic image
    sampler, src/synthpix/sampler/synthetic.py:179-360, over an abstract
    arithmetic, instantiated with exact rationals and with IEEE binary64. *)
From Coq Require Import List Arith ZArith QArith Qround Bool.
From Flocq Require Import IEEE754.BinarySingleNaN.
From Verif Require Import Prelude Model.Interp.
Import ListNotations.
Local Open Scope Z_scope.

(** The arithmetic used by the constructor.  [n_trunc] is Python's [int],
    [n_ceil] is [int(jnp.ceil(x))]; both fail (None) on NaN and infinities. *)
Record num : Type := mkNum {
  carrier : Type;
  n_ofZ : Z -> carrier;
  n_add : carrier -> carrier -> carrier;
  n_sub : carrier -> carrier -> carrier;
  n_mul : carrier -> carrier -> carrier;
  n_div : carrier -> carrier -> carrier;
  n_neg : carrier -> carrier;
  n_ltb : carrier -> carrier -> bool;
  n_trunc : carrier -> option Z;
  n_ceil : carrier -> option Z
}.

(** The constructor arguments that matter for the geometry.  Pairs are (y, x).
    Python ints given for real-valued arguments are converted to the carrier;
    with floats that is exact below 2^53. *)
Record gcfg (N : num) : Type := mkGcfg {
  g_image : Z * Z;                          (* image_shape, pixels *)
  g_off : carrier N * carrier N;            (* img_offset, length units *)
  g_dt : carrier N;
  g_ffsize : carrier N * carrier N;         (* flow_field_size, length units *)
  g_ffshape : Z * Z;                        (* scheduler.get_flow_fields_shape()[:2] *)
  g_res : carrier N;                        (* resolution, pixels per length unit *)
  g_vpp : carrier N;                        (* velocities_per_pixel *)
  g_maxd : carrier N;                       (* max_diameter *)
  g_max : carrier N * carrier N;            (* max_speed_y, max_speed_x *)
  g_min : carrier N * carrier N;            (* min_speed_y, min_speed_x *)
  g_hide : bool                             (* p_hide_img1 > 0 or p_hide_img2 > 0 or the
                                               seeding density range is not degenerate *)
}.
Arguments g_image {N}. Arguments g_off {N}. Arguments g_dt {N}. Arguments g_ffsize {N}. Arguments g_ffshape {N}.
Arguments g_res {N}. Arguments g_vpp {N}. Arguments g_maxd {N}. Arguments g_max {N}. Arguments g_min {N}. Arguments g_hide {N}.

(** What the constructor stores.  [l_pbo] and [l_pb] are its local variables
    [position_bounds_offset] and [position_bounds] after line 328. *)
Record geom (N : num) : Type := mkGeom {
  o_res : carrier N * carrier N;            (* flow_field_res_y, flow_field_res_x *)
  o_out : Z * Z;                            (* output_flow_field_shape *)
  o_pad : Z * Z;                            (* zero_padding *)
  o_pbo : carrier N * carrier N;            (* position_bounds_offset *)
  o_off : Z * Z;                            (* img_offset, pixels *)
  o_pb : Z * Z;                             (* position_bounds, pixels *)
  l_pbo : carrier N * carrier N;
  l_pb : carrier N * carrier N
}.
Arguments o_res {N}. Arguments o_out {N}. Arguments o_pad {N}. Arguments o_pbo {N}. Arguments o_off {N}.
Arguments o_pb {N}. Arguments l_pbo {N}. Arguments l_pb {N}.

Section Construct.
Variable N : num.
Notation T := (carrier N).
Local Notation "a [+] b" := (n_add N a b) (at level 50, left associativity).
Local Notation "a [-] b" := (n_sub N a b) (at level 50, left associativity).
Local Notation "a [*] b" := (n_mul N a b) (at level 40, left associativity).
Local Notation "a [/] b" := (n_div N a b) (at level 40, left associativity).
Local Notation "a [<] b" := (n_ltb N a b) (at level 70).
Local Notation "# z" := (n_ofZ N z) (at level 5).

(** Python's [max(0, x)] and [min(0, x)]. *)
Definition max0 (x : T) : T := if #0 [<] x then x else #0.
Definition min0 (x : T) : T := if x [<] #0 then x else #0.

Definition int (x : T) : result Z :=
  match n_trunc N x with Some z => Ok z | None => Err ValueError end.
Definition ceil (x : T) : result Z :=
  match n_ceil N x with Some z => Ok z | None => Err ValueError end.

(** synthetic.py:183-360. *)
Definition construct (c : gcfg N) : result (geom N) :=
  (* 179-186, 190-201, 204-206, 208-211 *)
  if negb ((#0 [<] fst (g_ffsize c)) && (#0 [<] snd (g_ffsize c))) then Err ValueError else
  if negb ((0 <? fst (g_ffshape c)) && (0 <? snd (g_ffshape c))) then Err ValueError else
  if negb (#0 [<] g_res c) then Err ValueError else
  if negb (#0 [<] g_vpp c) then Err ValueError else
  (* 216-219 *)
  bind (int (#(fst (g_image c)) [*] g_vpp c)) (fun out_y =>
  bind (int (#(snd (g_image c)) [*] g_vpp c)) (fun out_x =>
  (* 250-253 *)
  if snd (g_max c) [<] snd (g_min c) then Err ValueError else
  if fst (g_max c) [<] fst (g_min c) then Err ValueError else
  (* 258-261 *)
  let max_x := max0 (snd (g_max c)) in
  let max_y := max0 (fst (g_max c)) in
  let min_x := min0 (snd (g_min c)) in
  let min_y := min0 (fst (g_min c)) in
  let dt := g_dt c in
  (* 270-283 *)
  let res_y := #(fst (g_ffshape c)) [/] fst (g_ffsize c) in
  let res_x := #(snd (g_ffshape c)) [/] snd (g_ffsize c) in
  let pbo_y := fst (g_off c) [-] max_y [*] dt in
  let pbo_x := snd (g_off c) [-] max_x [*] dt in
  let pb_y := #(fst (g_image c)) [/] g_res c [+] max_y [*] dt [-] min_y [*] dt in
  let pb_x := #(snd (g_image c)) [/] g_res c [+] max_x [*] dt [-] min_x [*] dt in
  (* 287-301 *)
  if (pbo_y [<] #0) || (pbo_x [<] #0) then Err ValueError else
  if (fst (g_ffsize c) [<] pb_y [+] pbo_y) || (snd (g_ffsize c) [<] pb_x [+] pbo_x) then Err ValueError else
  (* 304-305 *)
  bind (int (#3 [*] g_maxd c [/] #2)) (fun radius =>
  let psize := #(2 * radius + 1) [/] g_res c in
  (* 308-328 *)
  let more := g_hide c && ((max_x [*] dt [<] psize) || (max_y [*] dt [<] psize)) in
  let extra_x := max0 (psize [-] max_x [*] dt) in
  let extra_y := max0 (psize [-] max_y [*] dt) in
  let pbo_y' := if more then pbo_y [-] extra_y else pbo_y in
  let pbo_x' := if more then pbo_x [-] extra_x else pbo_x in
  let pb_y' := if more then pb_y [+] extra_y else pb_y in
  let pb_x' := if more then pb_x [+] extra_x else pb_x in
  (* 331-336 *)
  bind (ceil (max0 (n_neg N pbo_y') [*] res_y)) (fun pad_y =>
  bind (ceil (max0 (n_neg N pbo_x') [*] res_x)) (fun pad_x =>
  (* 345-354 *)
  bind (int ((fst (g_off c) [-] pbo_y') [*] g_res c)) (fun off_y =>
  bind (int ((snd (g_off c) [-] pbo_x') [*] g_res c)) (fun off_x =>
  bind (int (pb_y' [*] g_res c)) (fun pbp_y =>
  bind (int (pb_x' [*] g_res c)) (fun pbp_x =>
  (* 339-342 *)
  Ok (mkGeom N (res_y, res_x) (out_y, out_x) (pad_y, pad_x) (max0 pbo_y', max0 pbo_x') (off_y, off_x) (pbp_y, pbp_x)
        (pbo_y', pbo_x') (pb_y', pb_x'))))))))))).
End Construct.

(** Exact arithmetic. *)
Definition exact : num :=
  mkNum Q inject_Z Qplus Qminus Qmult Qdiv Qopp (fun a b => negb (Qle_bool b a))
    (fun x => Some (Qtrunc x)) (fun x => Some (Qceiling x)).

(** IEEE binary64, round to nearest even.  [jnp.ceil] works on binary32, so its
    argument is rounded to that format first. *)
Definition f64 : Type := binary_float 53 1024.
Definition f32 : Type := binary_float 24 128.
Definition p64 : FLX.Prec_gt_0 53 := eq_refl.
Definition l64 : Prec_lt_emax 53 1024 := eq_refl.
Definition p32 : FLX.Prec_gt_0 24 := eq_refl.
Definition l32 : Prec_lt_emax 24 128 := eq_refl.

Definition f64_ofZ (z : Z) : f64 := binary_normalize 53 1024 p64 l64 mode_NE z 0 false.
Definition f64_ltb (a b : f64) : bool := match Bcompare a b with Some Lt => true | _ => false end.
Definition to_f32 (x : f64) : f32 :=
  match x with
  | B754_finite s m e _ => binary_normalize 24 128 p32 l32 mode_NE (SpecFloat.cond_Zopp s (Zpos m)) e s
  | B754_zero s => B754_zero s
  | B754_infinity s => B754_infinity s
  | B754_nan => B754_nan
  end.

(** m * 2^e as a rational. *)
Definition dyadic (m e : Z) : Q := if 0 <=? e then inject_Z (m * 2 ^ e) else Qmake m (Z.to_pos (2 ^ (- e))).
Definition f_val {p em} (x : binary_float p em) : option Q :=
  match x with
  | B754_zero _ => Some 0%Q
  | B754_finite s m e _ => Some (dyadic (SpecFloat.cond_Zopp s (Zpos m)) e)
  | _ => None
  end.

Definition float64 : num :=
  mkNum f64 f64_ofZ
    (@Bplus 53 1024 p64 l64 mode_NE) (@Bminus 53 1024 p64 l64 mode_NE)
    (@Bmult 53 1024 p64 l64 mode_NE) (@Bdiv 53 1024 p64 l64 mode_NE)
    (@Bopp 53 1024) f64_ltb
    (fun x => option_map Qtrunc (f_val x)) (fun x => option_map Qceiling (f_val (to_f32 x))).

(** The adapter call made with the stored geometry, synthetic.py:406-421. *)
Definition adapter_of (c : gcfg exact) (g : geom exact) (batch : nat) (pixels : bool) : adapter_args :=
  mkAdapter (o_out g) (g_image c) (o_off g) (g_res c) (snd (o_res g)) (fst (o_res g)) (o_pb g) (o_pbo g)
            batch pixels (g_dt c) (o_pad g).
