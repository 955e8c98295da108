(** When a configuration with finite numbers is accepted, whatever the
    arithmetic in which the sampler's geometry is computed. *)
From Coq Require Import List Arith ZArith QArith Qabs String Bool.
From Verif Require Import Prelude Model.PyVal Model.Types Model.Base Model.Stack Model.Interp Model.DataGen Model.Geometry Model.Make Model.Synthetic.
From Verif Require Import Spec.TypesSpec Spec.MakeSpec Spec.AcceptSpec.
Import ListNotations.
Local Open Scope string_scope.

(** The arguments of the geometry, each number read in the world's arithmetic. *)
Definition args_in (w : world) (a : syn_args) : gcfg (w_num w) :=
  let c := geometry_args a in
  let two (p : Q * Q) := (w_conv w (Fin (fst p)), w_conv w (Fin (snd p))) in
  mkGcfg (w_num w) (g_image c) (two (g_off c)) (w_conv w (Fin (g_dt c))) (two (g_ffsize c)) (g_ffshape c)
    (w_conv w (Fin (g_res c))) (w_conv w (Fin (g_vpp c))) (w_conv w (Fin (g_maxd c))) (two (g_max c)) (two (g_min c)) (g_hide c).

(** Everything but the room for the image is as for exact numbers ([fits]). *)
Record fits_in (w : world) (d : list (string * pyval)) (sch : scheduler) (a : syn_args) (g : geom (w_num w)) : Prop := mkFitsIn {
  fi_spec : documented (typed a);
  fi_flows : (a_F a <= sp_batch (a_spec a))%nat;
  fi_sizes : exists v l, given "flow_field_size" d = Some v /\ sequence v l /\
    Forall (fun x => exists e, number x e /\ lt (Num 0) e) l;
  fi_shape : exists fy fx fc, flow_shape w sch = Ok [fy; fx; fc] /\ (0 < fy)%nat /\ (0 < fx)%nat /\ (fc = 2 \/ fc = 3)%nat;
  fi_res : (0 < a_res a /\ 0 < a_vpp a)%Q;
  fi_seed : (0 <= a_seed a)%Z;
  fi_speeds : (fst (a_min a) <= fst (a_max a) /\ snd (a_min a) <= snd (a_max a))%Q;
  fi_mask : forall m, array_setting w d "mask" (Some m) ->
    map Z.of_nat (shape m) = [fst (sp_image (a_spec a)); snd (sp_image (a_spec a))] /\ Forall (fun x => x == 0 \/ x == 1)%Q (data m);
  fi_hist : forall h, array_setting w d "histogram" (Some h) ->
    shape h = [256]%nat /\
    let n := inject_Z (fst (sp_image (a_spec a)) * snd (sp_image (a_spec a))) in
    (Qabs (fold_right Qplus 0 (data h) - n) <= (1 # 100000000) + (1 # 100000) * Qabs n)%Q;
  (* the geometry can be computed, and leaves a non-negative offset *)
  fi_room : construct (w_num w) (args_in w a) = Ok g /\ (0 <= fst (o_off g) /\ 0 <= snd (o_off g))%Z
}.
