(** The synthetic image sampler with nothing left abstract: the constructor of
    SyntheticImageSampler (src/synthpix/sampler/synthetic.py:103-447) puts the
    geometry, the flow adapter and the image generator together. *)
From Coq Require Import List Arith ZArith QArith Qabs Bool.
From Verif Require Import Prelude Model.Interp Model.Apply Model.Render Model.Hist Model.DataGen.
From Verif Require Import Model.Geometry Model.Sampler.
Import ListNotations.
Local Open Scope Q_scope.

(** The arguments of the constructor (synthetic.py:50-68).  [a_spec] is the
    generation specification; the batch size asked for is [sp_batch a_spec],
    and [a_off] is its image offset, in length units (the [sp_offset] of
    [a_spec] is not looked at). *)
Record syn_args : Type := mkSynArgs {
  a_spec : gspec;
  a_off : Q * Q;
  a_devices : nat;                 (* ndevices *)
  a_F : nat;                       (* flow_fields_per_batch *)
  a_bpf : nat;                     (* batches_per_flow_batch *)
  a_ffsize : Q * Q;                (* flow_field_size *)
  a_ffshape : Z * Z;               (* scheduler.get_flow_fields_shape()[:2] *)
  a_res : Q;                       (* resolution *)
  a_vpp : Q;                       (* velocities_per_pixel *)
  a_max : Q * Q;                   (* max_speed_y, max_speed_x *)
  a_min : Q * Q;                   (* min_speed_y, min_speed_x *)
  a_pixels : bool;                 (* output_units == "pixels" *)
  a_seed : Z;
  a_mask : option image;
  a_hist : option (list Q)
}.

(** What the geometry part of the constructor reads, synthetic.py:185-312. *)
Definition geometry_args (a : syn_args) : gcfg exact :=
  let sp := a_spec a in
  mkGcfg exact (sp_image sp) (a_off a) (sp_dt sp) (a_ffsize a) (a_ffshape a) (a_res a) (a_vpp a)
    (max_snd (sp_diameters sp)) (a_max a) (a_min a)
    (negb (Qle_bool (sp_hide1 sp) 0) || negb (Qle_bool (sp_hide2 sp) 0) ||
     negb (Qeq_bool (fst (sp_density sp)) (snd (sp_density sp)))).

(** [generation_specification.update(batch_size=..., img_offset=...)],
    synthetic.py:357-360. *)
Definition updated_spec (sp : gspec) (b : nat) (off : Z * Z) : gspec :=
  mkGspec b (sp_image sp) off (sp_density sp) (sp_hide1 sp) (sp_hide2 sp) (sp_diameters sp) (sp_diameter_var sp)
    (sp_intensities sp) (sp_intensity_var sp) (sp_rhos sp) (sp_rho_var sp) (sp_dt sp)
    (sp_noise_uniform sp) (sp_noise_mean sp) (sp_noise_std sp).

(** What the adapter reads of a flow array: [flow.shape[:2]], [flow[..., 0]] and
    [flow[..., 1]] (utils.py:245-323). *)
Definition read_field (x : arr) : flow :=
  match shape x with
  | [h; w; ch] =>
      let comp n r k := nth ((Z.to_nat r * w + Z.to_nat k) * ch + n)%nat (data x) 0 in
      mkFlow (Z.of_nat h) (Z.of_nat w) (comp 0%nat) (comp 1%nat)
  | _ => mkFlow 0 0 (fun _ _ => 0) (fun _ _ => 0)
  end.

Section Synthetic.
Variable ex : Q -> Q.         (* jnp.exp *)
Variable sq : Q -> Q.         (* jnp.sqrt *)
Variable g : generator.       (* jax.random *)
Variable a : syn_args.

(** [self.batch_size // self.ndevices], synthetic.py:175-182 and 358. *)
Definition per_device : nat := (round_batch (sp_batch (a_spec a)) (a_devices a) / a_devices a)%nat.

Definition device_spec (geo : geom exact) : gspec := updated_spec (a_spec a) per_device (o_off geo).

(** [flow_field_adapter_jit], synthetic.py:406-421. *)
Definition device_adapter (geo : geom exact) : adapter_args :=
  adapter_of (geometry_args a) geo per_device (a_pixels a).

(** [img_gen_fn_jit], synthetic.py:395-404: one call on one device. *)
Definition device_images (geo : geom exact) (k : key) (flows : list flow) : list pair_out :=
  generate ex sq g (device_spec geo) (o_pb geo) (snd (o_res geo)) (fst (o_res geo)) (a_mask a) (a_hist a) k flows.

(** Iteration [j] of that call's scan when its turn falls on the flow field [f]. *)
Definition device_image (geo : geom exact) (k : key) (j : nat) (f : flow) : pair_out :=
  let (k', density_key) := split2 k in
  scan_body ex sq g (device_spec geo) (o_pb geo) (snd (o_res geo)) (fst (o_res geo)) (a_mask a) (a_hist a)
    k' density_key [f] j.

(** The checks on mask, histogram and seed, synthetic.py:111-127 and 229-230;
    [jnp.isclose] is |x - y| <= 1e-8 + 1e-5 |y|. *)
Definition isclose (x y : Q) : bool := Qle_bool (Qabs (x - y)) ((1 # 100000000) + (1 # 100000) * Qabs y).
Definition extras_ok : bool :=
  let (h, w) := sp_image (a_spec a) in
  match a_mask a with Some m => (rows m =? h)%Z && (cols m =? w)%Z | None => true end &&
  match a_hist a with
  | Some l => (List.length l =? 256)%nat && isclose (fold_left Qplus l 0) (inject_Z (h * w))
  | None => true
  end &&
  (0 <=? a_seed a)%Z.

(** The constructor, over a scheduler whose flow fields are read by [dec]
    (components, height and width of the array).  All refusals are
    ValueErrors, so the order of the groups of checks is immaterial. *)
Definition synthetic (si : sif) (dec : si_flow si -> flow) : result (scfg si flow flow pair_out) :=
  if negb extras_ok then Err ValueError else
  bind (construct exact (geometry_args a)) (fun geo =>
  make_scfg si (a_devices a) (sp_batch (a_spec a)) (a_F a) (a_bpf a) (a_seed a)
    (fun f => fst (process_single (device_adapter geo) (dec f)))
    (fun f => snd (process_single (device_adapter geo) (dec f)))
    (device_image geo)).
End Synthetic.
