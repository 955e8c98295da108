(** Model of src/synthpix/generate.py: drawing particles and adding noise.

    Pixels, positions and particle parameters are exact rationals.  The
    exponential is a parameter [ex] of the drawing functions: whatever function
    of the (rational) exponent the array library computes.  The kernel is also
    instantiated with the real exponential. *)
From Coq Require Import List Arith ZArith QArith Qround Bool Reals.
From Verif Require Import Prelude Model.Interp.
Import ListNotations.
Local Open Scope Z_scope.

(** The operations used by the kernel. *)
Record kops : Type := mkKops {
  kT : Type;
  k_ofZ : Z -> kT;
  k_add : kT -> kT -> kT;
  k_sub : kT -> kT -> kT;
  k_mul : kT -> kT -> kT;
  k_div : kT -> kT -> kT;
  k_neg : kT -> kT;
  k_exp : kT -> kT
}.

Section Kernel.
Variable K : kops.
Local Notation "a [+] b" := (k_add K a b) (at level 50, left associativity).
Local Notation "a [-] b" := (k_sub K a b) (at level 50, left associativity).
Local Notation "a [*] b" := (k_mul K a b) (at level 40, left associativity).
Local Notation "a [/] b" := (k_div K a b) (at level 40, left associativity).
Local Notation "# z" := (k_ofZ K z) (at level 5).
Let sq (a : kT K) : kT K := a [*] a.

(** [gaussian_2d_correlated], generate.py:9-47, at one pixel. *)
Definition gaussian (x y x0 y0 sigma_x sigma_y rho amplitude : kT K) : kT K :=
  let x_shifted := x [-] x0 in
  let y_shifted := y [-] y0 in
  let one_minus_rho2 := #1 [-] sq rho in
  let z := (sq x_shifted [/] sq sigma_x) [+] (sq y_shifted [/] sq sigma_y)
           [-] (#2 [*] rho [*] x_shifted [*] y_shifted) [/] (sigma_x [*] sigma_y) in
  let exponent := k_neg K z [/] (#2 [*] one_minus_rho2) in
  amplitude [*] k_exp K exponent.
End Kernel.

Definition realK : kops := mkKops R IZR Rplus Rminus Rmult Rdiv Ropp exp.
Definition ratK (ex : Q -> Q) : kops := mkKops Q inject_Z Qplus Qminus Qmult Qdiv Qopp ex.

(** One particle: position (y, x) in pixels, diameters, correlation, intensity. *)
Record particle : Type := mkParticle { p_y : Q; p_x : Q; p_dx : Q; p_dy : Q; p_rho : Q; p_amp : Q }.

(** generate.py:118. *)
Definition patch_radius (max_diameter : Q) : Z := Qtrunc (3 * max_diameter / 2)%Q.

(** [range(a, b)] *)
Definition zrange (a b : Z) : list Z := map (fun i => a + Z.of_nat i) (seq 0 (Z.to_nat (b - a))).

(** The centre after clipping and the first row or column of the patch on an
    axis of [n] pixels, generate.py:133-140. *)
Definition clip_center (n r : Z) (p : Q) : Q := clipQ (inject_Z r) (inject_Z n - inject_Z r - (1 # 1000000)) p.
Definition top_left (n r : Z) (p : Q) : Z := Qfloor (clip_center n r p - inject_Z r).

(** A pending [image.at[row, col].add(value)]. *)
Definition upd : Type := (Z * Z * Q)%type.

Section Draw.
Variable ex : Q -> Q.

(** [single_particle_scatter], generate.py:129-161: coordinates and updates, in
    row-major order of the patch. *)
Definition scatter_one (H W r : Z) (p : particle) : list upd :=
  let y0 := clip_center H r (p_y p) in
  let x0 := clip_center W r (p_x p) in
  let ty := top_left H r (p_y p) in
  let tx := top_left W r (p_x p) in
  let frac_y := (y0 - inject_Z (ty + r))%Q in
  let frac_x := (x0 - inject_Z (tx + r))%Q in
  let sigma_x := (p_dx p / 2)%Q in
  let sigma_y := (p_dy p / 2)%Q in
  flat_map (fun i => map (fun j =>
      ((i + ty)%Z, (j + tx)%Z,
       gaussian (ratK ex) (inject_Z (j - r) - frac_x)%Q (inject_Z (i - r) - frac_y)%Q 0%Q 0%Q sigma_x sigma_y (p_rho p) (p_amp p)))
      (zrange 0 (2 * r + 1))) (zrange 0 (2 * r + 1)).

(** JAX's scatter-add on an axis of length [n]: a negative index counts from
    the end, what is still out of range is dropped. *)
Definition scatter_index (n i : Z) : option Z :=
  let k := wrap n i in if (0 <=? k) && (k <? n) then Some k else None.
Definition apply_upd (im : image) (u : upd) : image :=
  let '(r, c, v) := u in
  match scatter_index (rows im) r, scatter_index (cols im) c with
  | Some r', Some c' =>
      mkImage (rows im) (cols im)
        (fun a b => if (a =? r') && (b =? c') then (at_ im a b + v)%Q else at_ im a b)
  | _, _ => im
  end.

Definition map_image (f : Q -> Q) (im : image) : image := mkImage (rows im) (cols im) (fun r c => f (at_ im r c)).

(** [img_gen_from_data], generate.py:83-178. *)
Definition img_gen (ps : list particle) (H W : Z) (max_diameter : Q) (clip : bool) : image :=
  let r := patch_radius max_diameter in
  let image := fold_left apply_upd (flat_map (scatter_one H W r) ps) (mkImage H W (fun _ _ => 0%Q)) in
  if clip then map_image (clipQ 0 255) image else image.
End Draw.

(** [add_noise_to_image], generate.py:50-80, given its two arrays of draws:
    [u] uniform on [0, noise_uniform) and [g] standard normal. *)
Definition add_noise (u g : Z -> Z -> Q) (mean std : Q) (im : image) : image :=
  mkImage (rows im) (cols im) (fun r c => clipQ 0 255 (at_ im r c + u r c + mean + g r c * std)%Q).

(** The patch origin as computed: the bound [n - patch_radius - 1e-6] is a Python
    float (binary64), [jnp.clip] and what follows work on binary32
    (generate.py:133-140). *)
From Flocq Require Import IEEE754.BinarySingleNaN.
From Verif Require Import Model.Geometry.
Definition f32_ofZ (z : Z) : f32 := binary_normalize 24 128 p32 l32 mode_NE z 0 false.
Definition f32_leb (a b : f32) : bool := match Bcompare a b with Some Lt | Some Eq => true | _ => false end.
Definition bound32 (n r : Z) : f32 :=
  to_f32 (@Bminus 53 1024 p64 l64 mode_NE (f64_ofZ (n - r))
            (@Bdiv 53 1024 p64 l64 mode_NE (f64_ofZ 1) (f64_ofZ 1000000))).
Definition top_left32 (n r : Z) (p : f32) : option Z :=
  let m := if f32_leb (f32_ofZ r) p then p else f32_ofZ r in
  let y0 := if f32_leb m (bound32 n r) then m else bound32 n r in
  option_map Qfloor (f_val (@Bminus 24 128 p32 l32 mode_NE y0 (f32_ofZ r))).
