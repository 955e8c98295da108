(** When a configuration with finite numbers is accepted. *)
From Coq Require Import List Arith ZArith QArith Qabs Qminmax String Bool.
From Verif Require Import Prelude Model.PyVal Model.Types Model.Base Model.Stack Model.Interp Model.DataGen Model.Make Model.Synthetic.
From Verif Require Import Spec.TypesSpec Spec.MakeSpec.
Import ListNotations.
Local Open Scope string_scope.

(** The values of the specification as the documentation writes them. *)
Definition typed (a : syn_args) : tspec :=
  let s := a_spec a in
  let two (r : Q * Q) := (Num (fst r), Num (snd r)) in
  mkTspec (Z.of_nat (sp_batch s)) (sp_image s) (two (a_off a)) (two (sp_density s)) (Num (sp_hide1 s)) (Num (sp_hide2 s))
    (map two (sp_diameters s)) (Num (sp_diameter_var s)) (map two (sp_intensities s)) (Num (sp_intensity_var s))
    (map two (sp_rhos s)) (Num (sp_rho_var s)) (Num (sp_dt s)) (Num (sp_noise_uniform s)) (Num (sp_noise_mean s)) (Num (sp_noise_std s)).

(** Along one axis the image lies so far inside the flow field that nothing that
    moves into it within one time step comes from outside. *)
Definition roomy (off image size res dt vmax vmin : Q) : Prop :=
  (Qmax 0 vmax * dt <= off /\ off + image / res + Qmax 0 (- vmin) * dt <= size)%Q.

Record fits (w : world) (d : list (string * pyval)) (sch : scheduler) (a : syn_args) : Prop := mkFits {
  fit_spec : documented (typed a);
  fit_flows : (a_F a <= sp_batch (a_spec a))%nat;
  fit_sizes : exists v l, given "flow_field_size" d = Some v /\ sequence v l /\
    Forall (fun x => exists e, number x e /\ lt (Num 0) e) l;
  fit_shape : exists fy fx fc, flow_shape w sch = Ok [fy; fx; fc] /\ (0 < fy)%nat /\ (0 < fx)%nat /\ (fc = 2 \/ fc = 3)%nat;
  fit_res : (0 < a_res a /\ 0 < a_vpp a)%Q;
  fit_seed : (0 <= a_seed a)%Z;
  fit_speeds : (fst (a_min a) <= fst (a_max a) /\ snd (a_min a) <= snd (a_max a))%Q;
  fit_room_y : roomy (fst (a_off a)) (inject_Z (fst (sp_image (a_spec a)))) (fst (a_ffsize a)) (a_res a) (sp_dt (a_spec a)) (fst (a_max a)) (fst (a_min a));
  fit_room_x : roomy (snd (a_off a)) (inject_Z (snd (sp_image (a_spec a)))) (snd (a_ffsize a)) (a_res a) (sp_dt (a_spec a)) (snd (a_max a)) (snd (a_min a));
  fit_mask : forall m, array_setting w d "mask" (Some m) ->
    map Z.of_nat (shape m) = [fst (sp_image (a_spec a)); snd (sp_image (a_spec a))] /\ Forall (fun x => x == 0 \/ x == 1)%Q (data m);
  fit_hist : forall h, array_setting w d "histogram" (Some h) ->
    shape h = [256]%nat /\
    let n := inject_Z (fst (sp_image (a_spec a)) * snd (sp_image (a_spec a))) in
    (Qabs (fold_right Qplus 0 (data h) - n) <= (1 # 100000000) + (1 # 100000) * Qabs n)%Q
}.

(** The schedulers can be built: class, file list, buffer, episodes, seed. *)
Definition schedulable (w : world) (d : list (string * pyval)) (B : nat) (sch : scheduler) : Prop :=
  exists cls N L seed at_ c s, stack_settings d cls B N L false seed /\ fa_class at_ = cls /\ fa_images at_ = false /\
    file_stage w d at_ c s /\ wrapped w B N L (Child (Child (Seed seed) 0) 1) at_ c s sch.
