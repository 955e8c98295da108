(** The configuration files that come with the code and its documentation, as
    [yaml.safe_load] reads them, and the arithmetic of Python floats for [make].
    (A float is kept as the decimal number written in the file; [float_world]
    rounds it to the nearest binary64 number, as Python does.) *)
From Coq Require Import List ZArith QArith String Bool.
From Flocq Require Import IEEE754.BinarySingleNaN.
From Verif Require Import Prelude Model.PyVal Model.Geometry Model.Make.
Import ListNotations.
Local Open Scope string_scope.

(** [float("...")] of a decimal number: the nearest binary64 number (division of
    integers with one rounding). *)
Definition f64_ofQ (q : Q) : f64 :=
  match Qnum q with
  | Z0 => B754_zero false
  | Zpos n => SF2B _ (proj1 (Bdiv_correct_aux 53 1024 p64 l64 mode_NE false n 0 false (Qden q) 0))
  | Zneg n => SF2B _ (proj1 (Bdiv_correct_aux 53 1024 p64 l64 mode_NE true n 0 false (Qden q) 0))
  end.
Definition f64_ofnum (x : pynum) : f64 :=
  match x with
  | NaN => B754_nan
  | Inf s => B754_infinity s
  | Fin q => f64_ofQ q
  end.

(** The same world with Python's floats. *)
Definition float_world (w : world) : world :=
  mkWorld (w_exists w) (w_fs w) (w_yaml w) (w_h5 w) (w_npy w) (w_jpg w) (w_mat w) (w_pil w) (w_dirs w) (w_rng w)
    (w_devices w) (w_npload w) float64 f64_ofnum.

(** config/main.yaml:1-48 *)
Definition main_yaml : list (string * pyval) :=
  [("seed", PInt 0); ("batch_size", PInt 1); ("flow_fields_per_batch", PInt 1); ("batches_per_flow_batch", PInt 1);
   ("randomize", PBool false); ("loop", PBool true); ("device_ids", PList [PInt 0]);
   ("image_shape", PList [PInt 1024; PInt 1024]); ("dt", PInt 1);
   ("seeding_density_range", PList [PFloat (Fin (3 # 100)); PFloat (Fin (4 # 100))]);
   ("p_hide_img1", PFloat (Fin (1 # 10000))); ("p_hide_img2", PFloat (Fin (1 # 10000)));
   ("diameter_ranges", PList [PList [PFloat (Fin (15 # 10)); PFloat (Fin (25 # 10))]]);
   ("diameter_var", PFloat (Fin (3 # 100))); ("intensity_ranges", PList [PList [PInt 150; PInt 230]]);
   ("intensity_var", PFloat (Fin (1 # 100)));
   ("rho_ranges", PList [PList [PFloat (Fin (-(1 # 10))); PFloat (Fin (1 # 10))]]); ("rho_var", PFloat (Fin (1 # 10)));
   ("noise_uniform", PFloat (Fin (1 # 1000))); ("noise_gaussian_mean", PFloat (Fin (1 # 100)));
   ("noise_gaussian_std", PFloat (Fin (1 # 1000))); ("velocities_per_pixel", PFloat (Fin (10 # 10))); ("resolution", PInt 1);
   ("flow_field_size", PList [PInt 1024; PInt 1024]); ("img_offset", PList [PInt 0; PInt 0]); ("min_speed_x", PInt 0);
   ("max_speed_x", PInt 0); ("min_speed_y", PInt 0); ("max_speed_y", PInt 0); ("output_units", PStr "pixels");
   ("file_list", PList [PStr "/shared/fluids/fluids-estimation/eye_candies_main"]); ("scheduler_class", PStr ".mat")].

(** config/cylinder.yaml:1-45 *)
Definition cylinder_yaml : list (string * pyval) :=
  [("seed", PInt 0); ("batch_size", PInt 1); ("flow_fields_per_batch", PInt 1); ("batches_per_flow_batch", PInt 1);
   ("image_shape", PList [PInt 256; PInt 256]); ("dt", PInt 1);
   ("seeding_density_range", PList [PFloat (Fin (3 # 100)); PFloat (Fin (4 # 100))]);
   ("p_hide_img1", PFloat (Fin (1 # 10000))); ("p_hide_img2", PFloat (Fin (1 # 10000)));
   ("diameter_ranges", PList [PList [PFloat (Fin (15 # 10)); PFloat (Fin (25 # 10))]]);
   ("diameter_var", PFloat (Fin (3 # 100))); ("intensity_ranges", PList [PList [PInt 150; PInt 230]]);
   ("intensity_var", PFloat (Fin (1 # 100)));
   ("rho_ranges", PList [PList [PFloat (Fin (-(1 # 10))); PFloat (Fin (1 # 10))]]); ("rho_var", PFloat (Fin (1 # 10)));
   ("noise_uniform", PFloat (Fin (1 # 1000))); ("noise_gaussian_mean", PFloat (Fin (1 # 1000)));
   ("noise_gaussian_std", PFloat (Fin (1 # 1000000))); ("velocities_per_pixel", PFloat (Fin (10 # 10)));
   ("resolution", PInt 1); ("flow_field_size", PList [PInt 256; PInt 256]); ("img_offset", PList [PInt 0; PInt 0]);
   ("min_speed_x", PInt 0); ("max_speed_x", PInt 0); ("min_speed_y", PInt 0); ("max_speed_y", PInt 0);
   ("output_units", PStr "pixels");
   ("file_list", PList [PStr "/shared/fluids/fluids-estimation/piv_dataset_final/train/cylinder_full"]);
   ("scheduler_class", PStr ".mat")].

(** config/Jassal.yaml:1-45 *)
Definition jassal_yaml : list (string * pyval) :=
  [("seed", PInt 0); ("batch_size", PInt 1); ("flow_fields_per_batch", PInt 1); ("batches_per_flow_batch", PInt 100);
   ("image_shape", PList [PInt 256; PInt 256]); ("dt", PInt 1);
   ("seeding_density_range", PList [PFloat (Fin (3 # 100)); PFloat (Fin (4 # 100))]);
   ("p_hide_img1", PFloat (Fin (1 # 10000))); ("p_hide_img2", PFloat (Fin (1 # 10000)));
   ("diameter_ranges", PList [PList [PFloat (Fin (15 # 10)); PFloat (Fin (25 # 10))]]);
   ("diameter_var", PFloat (Fin (3 # 100))); ("intensity_ranges", PList [PList [PInt 150; PInt 230]]);
   ("intensity_var", PFloat (Fin (1 # 100)));
   ("rho_ranges", PList [PList [PFloat (Fin (-(1 # 10))); PFloat (Fin (1 # 10))]]); ("rho_var", PFloat (Fin (1 # 10)));
   ("noise_uniform", PFloat (Fin (1 # 1000))); ("noise_gaussian_mean", PFloat (Fin (0 # 10)));
   ("noise_gaussian_std", PFloat (Fin (0 # 10))); ("velocities_per_pixel", PFloat (Fin (10 # 10))); ("resolution", PInt 1);
   ("flow_field_size", PList [PInt 256; PInt 256]); ("img_offset", PList [PInt 0; PInt 0]); ("min_speed_x", PInt 0);
   ("max_speed_x", PInt 0); ("min_speed_y", PInt 0); ("max_speed_y", PInt 0); ("output_units", PStr "pixels");
   ("file_list", PList [PStr "/shared/fluids/fluids-estimation/Jassal/temp_res/buoyancy_mixing"]);
   ("scheduler_class", PStr ".mat")].

(** config/JHTDB.yaml:1-49 *)
Definition jhtdb_yaml : list (string * pyval) :=
  [("seed", PInt 0); ("batch_size", PInt 128); ("flow_fields_per_batch", PInt 64); ("batches_per_flow_batch", PInt 500);
   ("image_shape", PList [PInt 1216; PInt 1936]); ("dt", PFloat (Fin (26 # 1000)));
   ("seeding_density_range", PList [PFloat (Fin (1 # 1000)); PFloat (Fin (1 # 100))]);
   ("p_hide_img1", PFloat (Fin (1 # 100))); ("p_hide_img2", PFloat (Fin (1 # 100)));
   ("diameter_ranges", PList [PList [PFloat (Fin (1 # 10)); PInt 1]]); ("diameter_var", PFloat (Fin (1 # 10)));
   ("intensity_ranges", PList [PList [PInt 10; PInt 255]]); ("intensity_var", PFloat (Fin (1 # 10)));
   ("rho_ranges", PList [PList [PFloat (Fin (-(2 # 10))); PFloat (Fin (2 # 10))]]); ("rho_var", PFloat (Fin (1 # 10)));
   ("noise_uniform", PFloat (Fin (0 # 10))); ("noise_gaussian_mean", PFloat (Fin (0 # 10)));
   ("noise_gaussian_std", PFloat (Fin (0 # 10))); ("velocities_per_pixel", PFloat (Fin (10 # 10))); ("resolution", PInt 200);
   ("flow_field_size", PList [PFloat (Fin (942477796 # 100000000)); PFloat (Fin (1256637061 # 100000000))]);
   ("img_offset", PList [PFloat (Fin (25 # 1000)); PFloat (Fin (5 # 100))]);
   ("min_speed_x", PFloat (Fin (-(10241036862134933 # 100000000000000000))));
   ("max_speed_x", PFloat (Fin (13489508628845215 # 10000000000000000)));
   ("min_speed_y", PFloat (Fin (-(45968499779701233 # 100000000000000000))));
   ("max_speed_y", PFloat (Fin (501191258430481 # 1000000000000000))); ("output_units", PStr "measure units per second");
   ("file_list", PList [PStr "/shared/fluids/fluids-estimation/files_to_modify/split_files/channel_full_ts_0984_part1.h5";
     PStr "/shared/fluids/fluids-estimation/files_to_modify/split_files/channel_full_ts_0984_part2.h5";
     PStr "/shared/fluids/fluids-estimation/files_to_modify/split_files/channel_full_ts_0988_part1.h5";
     PStr "/shared/fluids/fluids-estimation/files_to_modify/split_files/channel_full_ts_0988_part2.h5";
     PStr "/shared/fluids/fluids-estimation/files_to_modify/split_files/channel_full_ts_0992_part1.h5";
     PStr "/shared/fluids/fluids-estimation/files_to_modify/split_files/channel_full_ts_0992_part2.h5";
     PStr "/shared/fluids/fluids-estimation/files_to_modify/split_files/channel_full_ts_0996_part1.h5";
     PStr "/shared/fluids/fluids-estimation/files_to_modify/split_files/channel_full_ts_0996_part2.h5"]);
   ("scheduler_class", PStr ".h5")].

(** config/test_data.yaml:1-42 *)
Definition test_data_yaml : list (string * pyval) :=
  [("seed", PInt 0); ("batch_size", PInt 12); ("flow_fields_per_batch", PInt 12); ("batches_per_flow_batch", PInt 40);
   ("image_shape", PList [PInt 128; PInt 256]); ("dt", PFloat (Fin (26 # 1000)));
   ("seeding_density_range", PList [PFloat (Fin (1 # 1000)); PFloat (Fin (1 # 100))]);
   ("p_hide_img1", PFloat (Fin (1 # 100))); ("p_hide_img2", PFloat (Fin (1 # 100)));
   ("diameter_ranges", PList [PList [PFloat (Fin (1 # 10)); PInt 1]]); ("diameter_var", PFloat (Fin (1 # 10)));
   ("intensity_ranges", PList [PList [PInt 10; PInt 255]]); ("intensity_var", PFloat (Fin (1 # 10)));
   ("rho_ranges", PList [PList [PFloat (Fin (-(2 # 10))); PFloat (Fin (2 # 10))]]); ("rho_var", PFloat (Fin (1 # 10)));
   ("noise_uniform", PFloat (Fin (0 # 10))); ("noise_gaussian_mean", PFloat (Fin (0 # 10)));
   ("noise_gaussian_std", PFloat (Fin (0 # 10))); ("velocities_per_pixel", PFloat (Fin (10 # 10))); ("resolution", PInt 1);
   ("flow_field_size", PList [PInt 1536; PInt 2048]);
   ("img_offset", PList [PFloat (Fin (25 # 1000)); PFloat (Fin (5 # 100))]);
   ("min_speed_x", PFloat (Fin (-(10241036862134933 # 100000000000000000))));
   ("max_speed_x", PFloat (Fin (13489508628845215 # 10000000000000000)));
   ("min_speed_y", PFloat (Fin (-(45968499779701233 # 100000000000000000))));
   ("max_speed_y", PFloat (Fin (501191258430481 # 1000000000000000))); ("output_units", PStr "measure units per second");
   ("file_list", PList [PStr "/shared/fluids/fluids-estimation/test.h5"])].

(** docs/examples/mat/config.yaml:1-13 *)
Definition mat_example : list (string * pyval) :=
  [("seed", PInt 0); ("batch_size", PInt 10); ("include_images", PBool true); ("loop", PBool true);
   ("randomize", PBool false); ("image_shape", PList [PInt 256; PInt 256]); ("file_list", PStr "docs/examples/mat");
   ("scheduler_class", PStr ".mat")].

(** docs/examples/npy/config.yaml:1-13 *)
Definition npy_example : list (string * pyval) :=
  [("seed", PInt 0); ("batch_size", PInt 10); ("include_images", PBool true); ("loop", PBool true);
   ("randomize", PBool false); ("image_shape", PList [PInt 256; PInt 256]); ("file_list", PStr "docs/examples/npy");
   ("scheduler_class", PStr ".npy")].

(** docs/tutorials.md:21-68, the "full config" *)
Definition tutorial_yaml : list (string * pyval) :=
  [("seed", PInt 0); ("batch_size", PInt 1); ("flow_fields_per_batch", PInt 1); ("batches_per_flow_batch", PInt 1);
   ("randomize", PBool false); ("loop", PBool true); ("device_ids", PList [PInt 0]);
   ("image_shape", PList [PInt 1024; PInt 1024]); ("dt", PInt 1);
   ("seeding_density_range", PList [PFloat (Fin (3 # 100)); PFloat (Fin (4 # 100))]);
   ("p_hide_img1", PFloat (Fin (1 # 10000))); ("p_hide_img2", PFloat (Fin (1 # 10000)));
   ("diameter_ranges", PList [PList [PFloat (Fin (15 # 10)); PFloat (Fin (25 # 10))]]);
   ("diameter_var", PFloat (Fin (3 # 100))); ("intensity_ranges", PList [PList [PInt 150; PInt 230]]);
   ("intensity_var", PFloat (Fin (1 # 100)));
   ("rho_ranges", PList [PList [PFloat (Fin (-(1 # 10))); PFloat (Fin (1 # 10))]]); ("rho_var", PFloat (Fin (1 # 10)));
   ("noise_level", PFloat (Fin (1 # 1000))); ("velocities_per_pixel", PFloat (Fin (10 # 10))); ("resolution", PInt 1);
   ("flow_field_size", PList [PInt 1024; PInt 1024]); ("img_offset", PList [PInt 0; PInt 0]); ("min_speed_x", PInt 0);
   ("max_speed_x", PInt 0); ("min_speed_y", PInt 0); ("max_speed_y", PInt 0); ("output_units", PStr "pixels");
   ("file_list", PStr "/shared/fluids/fluids-estimation/eye_candies_main"); ("scheduler_class", PStr ".mat")].
