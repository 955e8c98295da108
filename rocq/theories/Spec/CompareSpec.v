(** Vocabulary for two samplers that get the same calls (C121). *)
From Coq Require Import List Arith ZArith QArith.
From Verif Require Import Prelude Model.Interp Model.DataGen Model.Sampler Model.Synthetic Spec.InterpSpec Spec.LoaderSpec.
Import ListNotations.

(** Two answers that agree but for the images; those are related by [R]. *)
Definition alike {F I I'} (R : I -> I' -> Prop) (x : @sobs F I) (y : @sobs F I') : Prop :=
  match x, y with
  | SBatch b, SBatch b' =>
      ba_flows b = ba_flows b' /\ ba_done b = ba_done b' /\ ba_mask b = ba_mask b' /\ ba_files b = ba_files b' /\
      Forall2 R (ba_images b) (ba_images b')
  | SUnit, SUnit => True
  | SRaise e, SRaise e' => e = e'
  | _, _ => False
  end.

(** Arguments that differ at most in the variances, the ranges of intensity and
    correlation, the noise, the mask and the histogram. *)
Record same_plan (a a' : syn_args) : Prop := mkPlan {
  sl_batch : sp_batch (a_spec a) = sp_batch (a_spec a');
  sl_image : sp_image (a_spec a) = sp_image (a_spec a');
  sl_density : sp_density (a_spec a) = sp_density (a_spec a');
  sl_hide1 : sp_hide1 (a_spec a) = sp_hide1 (a_spec a');
  sl_hide2 : sp_hide2 (a_spec a) = sp_hide2 (a_spec a');
  sl_diameters : sp_diameters (a_spec a) = sp_diameters (a_spec a');
  sl_dt : sp_dt (a_spec a) = sp_dt (a_spec a');
  sl_off : a_off a = a_off a';
  sl_devices : a_devices a = a_devices a';
  sl_flows : a_F a = a_F a';
  sl_repeat : a_bpf a = a_bpf a';
  sl_size : a_ffsize a = a_ffsize a';
  sl_shape : a_ffshape a = a_ffshape a';
  sl_res : a_res a = a_res a';
  sl_vpp : a_vpp a = a_vpp a';
  sl_max : a_max a = a_max a';
  sl_min : a_min a = a_min a';
  sl_units : a_pixels a = a_pixels a';
  sl_seed : a_seed a = a_seed a'
}.

(** The same arguments with another mask and histogram, and with other uniform noise. *)
Definition with_post (m : option image) (h : option (list Q)) (a : syn_args) : syn_args :=
  mkSynArgs (a_spec a) (a_off a) (a_devices a) (a_F a) (a_bpf a) (a_ffsize a) (a_ffshape a) (a_res a) (a_vpp a)
    (a_max a) (a_min a) (a_pixels a) (a_seed a) m h.
Definition with_noise (n : Q) (a : syn_args) : syn_args :=
  let sp := a_spec a in
  mkSynArgs (mkGspec (sp_batch sp) (sp_image sp) (sp_offset sp) (sp_density sp) (sp_hide1 sp) (sp_hide2 sp)
               (sp_diameters sp) (sp_diameter_var sp) (sp_intensities sp) (sp_intensity_var sp) (sp_rhos sp) (sp_rho_var sp)
               (sp_dt sp) n (sp_noise_mean sp) (sp_noise_std sp))
    (a_off a) (a_devices a) (a_F a) (a_bpf a) (a_ffsize a) (a_ffshape a) (a_res a) (a_vpp a)
    (a_max a) (a_min a) (a_pixels a) (a_seed a) (a_mask a) (a_hist a).

(** Both images of a pair are related, and the parameters are the same. *)
Definition both (R : image -> image -> Prop) (o o' : pair_out) : Prop :=
  R (out1 o) (out1 o') /\ R (out2 o) (out2 o') /\
  out_density o = out_density o' /\ out_diameters o = out_diameters o' /\
  out_intensities o = out_intensities o' /\ out_rhos o = out_rhos o'.

Definition same_size (im im' : image) : Prop := rows im = rows im' /\ cols im = cols im'.

(** Every pixel is that of [im'] times the entry of the array [x]. *)
Definition times (x : arr) (h w : nat) (im im' : image) : Prop :=
  same_size im im' /\
  forall r c, (r < h)%nat -> (c < w)%nat -> (at_ im (Z.of_nat r) (Z.of_nat c) == elt x [r; c] * at_ im' (Z.of_nat r) (Z.of_nat c))%Q.

(** Every pixel is a grey level, and the order of the pixels is kept. *)
Definition graded (im im' : image) : Prop :=
  same_size im im' /\
  (forall r c, exists k, (0 <= k <= 255)%Z /\ (at_ im r c == inject_Z k)%Q) /\
  forall r c r' c', pixel im r c -> pixel im r' c' -> (at_ im' r c <= at_ im' r' c')%Q -> (at_ im r c <= at_ im r' c')%Q.

(** Every pixel is brighter by at most [n]. *)
Definition brighter (n : Q) (im im' : image) : Prop :=
  same_size im im' /\ forall r c, (at_ im' r c <= at_ im r c <= at_ im' r c + n)%Q.
