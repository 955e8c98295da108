(** The arguments a configuration asks for, entry by entry, and what the
    consumer of a sampler sees when all files hold the same uniform flow. *)
From Coq Require Import List Arith ZArith QArith String Bool.
From Verif Require Import Prelude Model.PyVal Model.Types Model.Base Model.Interp Model.Sampler Model.DataGen Model.Geometry Model.Make.
From Verif Require Import Model.Synthetic Model.Configured.
From Verif Require Import Spec.TypesSpec Spec.SpecValues Spec.MakeSpec Spec.SamplerSpec Spec.PipelineSpec Spec.SyntheticSpec.
Import ListNotations.
Local Open Scope string_scope.

(** Required entries: a finite number, a pair, a list of ranges.  Lists and
    tuples are the same. *)
Definition finite_setting (d : list (string * pyval)) (k : string) (q : Q) : Prop :=
  exists v, given k d = Some v /\ finite v q.
Definition pair_setting {A} (P : pyval -> A -> Prop) (d : list (string * pyval)) (k : string) (r : A * A) : Prop :=
  exists v x y, given k d = Some v /\ sequence v [x; y] /\ P x (fst r) /\ P y (snd r).
Definition range_value (v : pyval) (r : Q * Q) : Prop :=
  exists x y, sequence v [x; y] /\ finite x (fst r) /\ finite y (snd r).
Definition ranges_setting (d : list (string * pyval)) (k : string) (l : list (Q * Q)) : Prop :=
  exists v vs, given k d = Some v /\ sequence v vs /\ Forall2 range_value vs l.

(** Every argument comes from the entry of its name; only the shape of the flow
    fields is the scheduler's.  Pairs are (y, x). *)
Record asked (w : world) (d : list (string * pyval)) (sch : scheduler) (a : syn_args) : Prop := mkAsked {
  as_batch : positive_setting d "batch_size" (sp_batch (a_spec a));
  as_image : pair_setting integer d "image_shape" (sp_image (a_spec a));
  as_off : pair_setting finite d "img_offset" (a_off a);
  as_density : pair_setting finite d "seeding_density_range" (sp_density (a_spec a));
  as_hide1 : finite_setting d "p_hide_img1" (sp_hide1 (a_spec a));
  as_hide2 : finite_setting d "p_hide_img2" (sp_hide2 (a_spec a));
  as_diameters : ranges_setting d "diameter_ranges" (sp_diameters (a_spec a));
  as_diameter_var : finite_setting d "diameter_var" (sp_diameter_var (a_spec a));
  as_intensities : ranges_setting d "intensity_ranges" (sp_intensities (a_spec a));
  as_intensity_var : finite_setting d "intensity_var" (sp_intensity_var (a_spec a));
  as_rhos : ranges_setting d "rho_ranges" (sp_rhos (a_spec a));
  as_rho_var : finite_setting d "rho_var" (sp_rho_var (a_spec a));
  as_dt : finite_setting d "dt" (sp_dt (a_spec a));
  as_noise_uniform : finite_setting d "noise_uniform" (sp_noise_uniform (a_spec a));
  as_noise_mean : finite_setting d "noise_gaussian_mean" (sp_noise_mean (a_spec a));
  as_noise_std : finite_setting d "noise_gaussian_std" (sp_noise_std (a_spec a));
  as_devices : exists l, device_settings d (w_devices w) l /\ a_devices a = List.length l;
  as_flows : positive_setting d "flow_fields_per_batch" (a_F a);
  as_repeat : positive_setting d "batches_per_flow_batch" (a_bpf a);
  as_size : exists v sy sx rest, given "flow_field_size" d = Some v /\ sequence v (sy :: sx :: rest) /\
    finite sy (fst (a_ffsize a)) /\ finite sx (snd (a_ffsize a));
  as_shape : exists fy fx fc, flow_shape w sch = Ok [fy; fx; fc] /\ a_ffshape a = (Z.of_nat fy, Z.of_nat fx);
  as_res : finite_setting d "resolution" (a_res a);
  as_vpp : finite_setting d "velocities_per_pixel" (a_vpp a);
  as_max : finite_setting d "max_speed_y" (fst (a_max a)) /\ finite_setting d "max_speed_x" (snd (a_max a));
  as_min : finite_setting d "min_speed_y" (fst (a_min a)) /\ finite_setting d "min_speed_x" (snd (a_min a));
  as_units : given "output_units" d = Some (PStr (if a_pixels a then "pixels" else "measure units per second"));
  as_seed : exists v, given "seed" d = Some v /\ integer v (a_seed a);
  as_mask : exists m, array_setting w d "mask" m /\ a_mask a = option_map picture m;
  as_hist : exists h, array_setting w d "histogram" h /\ a_hist a = option_map data h /\
    match h with Some x => wf_arr x | None => True end
}.

(** Batch number [m] of a file sampler shows the displacement: in all its
    entries but those whose place in the flow batch is not filled. *)
Definition batch_moves (nd B F : nat) (pb off : Z * Z) (rad dy dx : Z) (b : batch flow pair_out) : Prop :=
  exists mk, ba_mask b = Some mk /\
  forall i, (i < B)%nat -> exists o fl, nth_error (ba_images b) i = Some o /\ nth_error (ba_flows b) i = Some fl /\
    (nth_error mk (source nd B F i) = Some true -> shows_displacement pb off rad dy dx o fl).

(** The same without exceptions. *)
Definition all_move (B : nat) (pb off : Z * Z) (rad dy dx : Z) (b : batch flow pair_out) : Prop :=
  forall i, (i < B)%nat -> exists o fl, nth_error (ba_images b) i = Some o /\ nth_error (ba_flows b) i = Some fl /\
    shows_displacement pb off rad dy dx o fl.

(** Batches that move for ever, or until the slices are used up. *)
Definition keeps_moving (moves : batch flow pair_out -> Prop) (F bpf : nat) (loop : bool) (x : nat -> option SchedData)
    (answer : nat -> option (@sobs flow pair_out)) : Prop :=
  let shown m := exists b, answer m = Some (SBatch b) /\ moves b in
  if loop then forall m, shown m
  else exists J, last_batch F x J /\ (forall m, (m < J * bpf)%nat -> shown m) /\ answer (J * bpf)%nat = Some (SRaise StopIteration).
