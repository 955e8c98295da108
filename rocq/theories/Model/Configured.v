(** The synthetic sampler that [make] builds, with nothing left abstract: the
    sizes and numbers stored by the constructor (Model/Make.v) together with the
    two functions it compiles (Model/Synthetic.v). *)
From Coq Require Import List Arith ZArith QArith.
From Verif Require Import Prelude Model.PyVal Model.Types Model.Base Model.Stack Model.Interp Model.Apply Model.DataGen.
From Verif Require Import Model.Geometry Model.Sampler Model.Make Model.Synthetic.
Import ListNotations.

(** A two-dimensional array as an image (the mask, synthetic.py:111-117 and 537-549). *)
Definition picture (x : arr) : image :=
  match shape x with
  | [h; w] => mkImage (Z.of_nat h) (Z.of_nat w) (fun r k => nth (Z.to_nat r * w + Z.to_nat k) (data x) 0%Q)
  | _ => mkImage 0 0 (fun _ _ => 0%Q)
  end.

(** The same world with exact arithmetic.  (What a float that is not finite is
    read as does not matter: the properties are about finite ones.) *)
Definition exact_world (w : world) : world :=
  mkWorld (w_exists w) (w_fs w) (w_yaml w) (w_h5 w) (w_npy w) (w_jpg w) (w_mat w) (w_pil w) (w_dirs w) (w_rng w)
    (w_devices w) (w_npload w) exact (fun x => match x with Fin q => q | _ => 0%Q end).

(** Whatever the wrappers, flow fields are arrays. *)
Fixpoint flow_array (fuel : nat) (sch : scheduler) : si_flow (sif_of fuel sch) -> arr :=
  match sch return si_flow (sif_of fuel sch) -> arr with
  | SFile _ _ _ => fun f => f
  | SEpisodic _ _ _ => fun f => f
  | SPrefetch _ _ inner => flow_array fuel inner
  end.

(** What is reported and what is simulated for an array, synthetic.py:406-421. *)
Definition reported (a : syn_args) (geo : geom exact) (f : arr) : flow :=
  fst (process_single (device_adapter a geo) (read_field f)).
Definition simulated (a : syn_args) (geo : geom exact) (f : arr) : flow :=
  snd (process_single (device_adapter a geo) (read_field f)).

(** The sampler [p] on [sch] with the functions compiled for the arguments [a],
    synthetic.py:395-447. *)
Definition compiled (ex sq : Q -> Q) (g : generator) (a : syn_args) (w : world) (p : Make.synthetic (exact_world w))
    (sch : scheduler) (fuel : nat) : scfg (sif_of fuel sch) flow flow pair_out :=
  scfg_of fuel p sch (fun f => reported a (sy_geom p) (flow_array fuel sch f))
    (fun f => simulated a (sy_geom p) (flow_array fuel sch f)) (device_image ex sq g a (sy_geom p)).
