(** The specification the image generator computes with, as read from an
    accepted Python specification with finite values. *)
From Coq Require Import List ZArith QArith.
From Verif Require Import Prelude Model.PyVal Model.Types Model.DataGen Spec.TypesSpec.

Definition finite (v : pyval) (q : Q) : Prop := number v (Num q).

Record reads (s : ispec) (g : gspec) : Prop := mkReads {
  r_batch : integer (i_batch_size s) (Z.of_nat (sp_batch g));
  r_shape : pair_of integer (i_image_shape s) (sp_image g);
  r_offset : pair_of integer (i_img_offset s) (sp_offset g);
  r_density : pair_of finite (i_seeding_density_range s) (sp_density g);
  r_hide1 : finite (i_p_hide_img1 s) (sp_hide1 g);
  r_hide2 : finite (i_p_hide_img2 s) (sp_hide2 g);
  r_diameters : list_of (pair_of finite) (i_diameter_ranges s) (sp_diameters g);
  r_diameter_var : finite (i_diameter_var s) (sp_diameter_var g);
  r_intensities : list_of (pair_of finite) (i_intensity_ranges s) (sp_intensities g);
  r_intensity_var : finite (i_intensity_var s) (sp_intensity_var g);
  r_rhos : list_of (pair_of finite) (i_rho_ranges s) (sp_rhos g);
  r_rho_var : finite (i_rho_var s) (sp_rho_var g);
  r_dt : finite (i_dt s) (sp_dt g);
  r_noise_uniform : finite (i_noise_uniform s) (sp_noise_uniform g);
  r_noise_mean : finite (i_noise_gaussian_mean s) (sp_noise_mean g);
  r_noise_std : finite (i_noise_gaussian_std s) (sp_noise_std g)
}.

(** The remaining constraints on a usable specification. *)
Definition usable_values (g : gspec) : Prop :=
  ((0 < sp_batch g)%nat /\ (0 < fst (sp_image g))%Z /\ (0 < snd (sp_image g))%Z /\
   (0 <= fst (sp_offset g))%Z /\ (0 <= snd (sp_offset g))%Z) /\
  (0 <= sp_hide1 g <= 1 /\ 0 <= sp_hide2 g <= 1 /\ 0 < sp_dt g)%Q /\
  (0 <= sp_diameter_var g /\ 0 <= sp_intensity_var g /\ 0 <= sp_rho_var g)%Q /\
  (0 <= sp_noise_uniform g /\ 0 <= sp_noise_mean g /\ 0 <= sp_noise_std g)%Q.
