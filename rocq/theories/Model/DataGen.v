(** Model of src/synthpix/data_generate.py: generate_images_from_flow, over
    exact rationals, for an arbitrary random generator, exponential and square
    root. *)
From Coq Require Import List Arith ZArith QArith Qround Bool.
From Verif Require Import Prelude Model.Interp Model.Apply Model.Render Model.Hist.
Import ListNotations.
Local Open Scope Q_scope.

(** The position of a particle in the second image, data_generate.py:75-79 and
    236-259: positions in pixels of the simulated area [pb] are scaled to grid
    steps of the particle flow, moved, and scaled back. *)
Definition second_position (pb : Z * Z) (f : flow) (dt rx ry : Q) (p : Q * Q) : Q * Q :=
  let alpha1 := inject_Z (fH f) / inject_Z (fst pb) in
  let alpha2 := inject_Z (fW f) / inject_Z (snd pb) in
  let (y, x) := p in
  let (y', x') := update_2d f dt rx ry (y * alpha1, x * alpha2) in
  (y' / alpha1, x' / alpha2).

(** The fields of ImageGenerationSpecification (types.py:186-207) that the
    generator reads.  The image offset is in pixels here (synthetic.py:356-360). *)
Record gspec : Type := mkGspec {
  sp_batch : nat;
  sp_image : Z * Z;
  sp_offset : Z * Z;
  sp_density : Q * Q;
  sp_hide1 : Q;
  sp_hide2 : Q;
  sp_diameters : list (Q * Q);
  sp_diameter_var : Q;
  sp_intensities : list (Q * Q);
  sp_intensity_var : Q;
  sp_rhos : list (Q * Q);
  sp_rho_var : Q;
  sp_dt : Q;
  sp_noise_uniform : Q;
  sp_noise_mean : Q;
  sp_noise_std : Q
}.

(** jax.random: element [i] (row-major) of the array of [n] draws from a key;
    the draws may depend on the size of the array. *)
Record generator : Type := mkGenerator {
  g_unit : key -> nat -> nat -> Q;          (* uniform(key, shape) *)
  g_normal : key -> nat -> nat -> Q;        (* normal(key, shape) *)
  g_randint : key -> nat -> nat             (* randint(key, (), 0, n) *)
}.

Section Generate.
Variable ex : Q -> Q.       (* jnp.exp *)
Variable sq : Q -> Q.       (* jnp.sqrt *)
Variable g : generator.

(** [jax.random.uniform(key, shape, minval=lo, maxval=hi)], jax/_src/random.py:
    unit draw scaled, never below [lo]. *)
Definition uniform_in (k : key) (n : nat) (lo hi : Q) (i : nat) : Q :=
  let v := g_unit g k n i * (hi - lo) + lo in if Qle_bool lo v then v else lo.
(** [jax.random.bernoulli(key, p, shape)]: unit draw below [p]. *)
Definition bernoulli (k : key) (n : nat) (p : Q) (i : nat) : bool := negb (Qle_bool p (g_unit g k n i)).

(** [max(d[1] for d in ranges)] of a non-empty list. *)
Definition max_snd (l : list (Q * Q)) : Q :=
  match l with
  | [] => 0
  | d :: l => fold_left (fun m e => if Qle_bool (snd e) m then m else snd e) l (snd d)
  end.

(** [ranges[idx]] on the array of ranges (JAX clamps the index). *)
Definition pick (l : list (Q * Q)) (i : nat) : Q * Q := nth (Nat.min i (List.length l - 1)) l (0, 0).

Definition bool_Q (b : bool) : Q := if b then 1 else 0.

(** Python slicing [im[a : a+h, b : b+w]] with non-negative bounds. *)
Definition slice_len (n a len : Z) : Z := (Z.min n (a + len) - Z.min n a)%Z.
Definition crop (off shape : Z * Z) (im : image) : image :=
  mkImage (slice_len (rows im) (fst off) (fst shape)) (slice_len (cols im) (snd off) (snd shape))
    (fun r c => at_ im (r + fst off) (c + snd off)).

Section Call.
Variable sp : gspec.
Variable pb : Z * Z.          (* position_bounds *)
Variables rx ry : Q.          (* flow_field_res_x, flow_field_res_y *)
Variable mask : option image.
Variable histogram : option (list Q).

Definition max_density : Q := snd (sp_density sp).
Definition area : Q := inject_Z (fst pb) * inject_Z (snd pb).
Definition num_particles : nat := Z.to_nat (Qtrunc (area * max_density)).   (* :84 *)

(** data_generate.py:90-97: the density of image [i]; [k] is the second key of the split. *)
Definition density (k : key) (i : nat) : Q :=
  clipQ 0 max_density (uniform_in k (sp_batch sp) (fst (sp_density sp)) (snd (sp_density sp)) i).

(** data_generate.py:131-136. *)
Definition current_num (d : Q) : Z := Qfloor (area * d).
Definition mixed (d : Q) (i : nat) : bool := (Z.of_nat i <? current_num d)%Z.

(** The particles of one pair, data_generate.py:106-222 and 231, 254-268: as
    drawn in the first image (true) or the second (false). *)
Definition particle_params (key_i : key) (i : nat) : (Q * Q * Q * Q) * (Q * Q * Q * Q) :=
  let diameter_range := pick (sp_diameters sp) (g_randint g (Child key_i 6) (List.length (sp_diameters sp))) in
  let intensity_range := pick (sp_intensities sp) (g_randint g (Child key_i 7) (List.length (sp_intensities sp))) in
  let rho_range := pick (sp_rhos sp) (g_randint g (Child key_i 8) (List.length (sp_rhos sp))) in
  let sub n := Child (Child key_i 3) n in
  let n := num_particles in
  let dx1 := uniform_in (sub 0%nat) n (fst diameter_range) (snd diameter_range) i in
  let dy1 := clipQ (fst diameter_range) (snd diameter_range) (dx1 + uniform_in (sub 1%nat) n (-(1)) 1 i) in
  let rho1 := uniform_in (sub 2%nat) n (fst rho_range) (snd rho_range) i in
  let in1 := uniform_in (sub 3%nat) n (fst intensity_range) (snd intensity_range) i in
  let dx2 := clipQ (fst diameter_range) (snd diameter_range) (dx1 + g_normal g (sub 4%nat) n i * sq (sp_diameter_var sp)) in
  let dy2 := clipQ (fst diameter_range) (snd diameter_range) (dy1 + g_normal g (sub 5%nat) n i * sq (sp_diameter_var sp)) in
  let rho2 := clipQ (fst rho_range) (snd rho_range) (rho1 + g_normal g (sub 6%nat) n i * sq (sp_rho_var sp)) in
  let in2 := clipQ (fst intensity_range) (snd intensity_range) (in1 + g_normal g (sub 7%nat) n i * sq (sp_intensity_var sp)) in
  ((dx1, dy1, rho1, in1), (dx2, dy2, rho2, in2)).

(** data_generate.py:150-153. *)
Definition position (key_i : key) (i : nat) : Q * Q :=
  let u j := g_unit g (Child key_i 2) (2 * num_particles) (2 * i + j) in
  (u 0%nat * inject_Z (fst pb), u 1%nat * inject_Z (snd pb)).

Definition first_particle (key_i : key) (d : Q) (i : nat) : particle :=
  let (y, x) := position key_i i in
  let '(dx, dy, rho, amp) := fst (particle_params key_i i) in
  let shown := bernoulli (Child key_i 0) num_particles (1 - sp_hide1 sp) i in
  mkParticle y x dx dy rho (amp * bool_Q shown * bool_Q (mixed d i)).

Definition second_particle (key_i : key) (d : Q) (f : flow) (i : nat) : particle :=
  let (y, x) := second_position pb f (sp_dt sp) rx ry (position key_i i) in
  let '(dx, dy, rho, amp) := snd (particle_params key_i i) in
  let shown := bernoulli (Child key_i 1) num_particles (1 - sp_hide2 sp) i in
  mkParticle y x dx dy rho (amp * bool_Q shown * bool_Q (mixed d i)).

(** What follows the drawing, data_generate.py:273-307, for one image; [k] is
    subkey5 or subkey6. *)
Definition noisy (k : key) (im : image) : image :=
  let im := crop (sp_offset sp) (sp_image sp) im in
  let n := Z.to_nat (rows im * cols im) in
  let at_index r c := Z.to_nat (r * cols im + c) in
  add_noise (fun r c => uniform_in (Child k 0) n 0 (sp_noise_uniform sp) (at_index r c))
            (fun r c => g_normal g (Child k 1) n (at_index r c)) (sp_noise_mean sp) (sp_noise_std sp) im.
(** The mask has the shape of the image (checked in synthetic.py:112-116). *)
Definition masked (im : image) : image :=
  match mask with
  | Some m => mkImage (rows im) (cols im) (fun r c => at_ im r c * at_ m r c)
  | None => im
  end.
Definition equalized (im : image) : image :=
  match histogram with Some h => match_histogram im h | None => im end.
Definition finish (k : key) (im : image) : image := equalized (masked (noisy k im)).

(** One output of the scan. *)
Record pair_out : Type := mkPairOut {
  out1 : image; out2 : image; out_density : Q;
  out_diameters : Q * Q; out_intensities : Q * Q; out_rhos : Q * Q
}.

(** [scan_body], data_generate.py:102-311, and the reported parameters
    (324-340) of that pair. *)
Definition scan_body (k density_key : key) (flows : list flow) (i : nat) : pair_out :=
  let key_i := Child k i in
  let d := density density_key i in
  let f := nth (i mod List.length flows) flows (mkFlow 0 0 (fun _ _ => 0) (fun _ _ => 0)) in
  let n := num_particles in
  let maxd := max_snd (sp_diameters sp) in
  let draw (p : nat -> particle) := img_gen ex (map p (seq 0 n)) (fst pb) (snd pb) maxd false in
  mkPairOut
    (finish (Child key_i 4) (draw (first_particle key_i d)))
    (finish (Child key_i 5) (draw (second_particle key_i d f)))
    d
    (pick (sp_diameters sp) (g_randint g (Child key_i 6) (List.length (sp_diameters sp))))
    (pick (sp_intensities sp) (g_randint g (Child key_i 7) (List.length (sp_intensities sp))))
    (pick (sp_rhos sp) (g_randint g (Child key_i 8) (List.length (sp_rhos sp)))).

(** [generate_images_from_flow], data_generate.py:19-340. *)
Definition generate (k : key) (flows : list flow) : list pair_out :=
  let (k', density_key) := split2 k in
  map (scan_body k' density_key flows) (seq 0 (sp_batch sp)).
End Call.
End Generate.
