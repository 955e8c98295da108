(** Model of the dataclasses of src/synthpix/types.py. *)
From Coq Require Import List Arith ZArith QArith String Bool.
From Verif Require Import Prelude Model.PyVal.
Import ListNotations.
Local Open Scope string_scope.

(** ImageGenerationSpecification, types.py:158-207. *)
Record ispec : Type := mkIspec {
  i_batch_size : pyval;
  i_image_shape : pyval;
  i_img_offset : pyval;
  i_seeding_density_range : pyval;
  i_p_hide_img1 : pyval;
  i_p_hide_img2 : pyval;
  i_diameter_ranges : pyval;
  i_diameter_var : pyval;
  i_intensity_ranges : pyval;
  i_intensity_var : pyval;
  i_rho_ranges : pyval;
  i_rho_var : pyval;
  i_dt : pyval;
  i_noise_uniform : pyval;
  i_noise_gaussian_mean : pyval;
  i_noise_gaussian_std : pyval
}.

(** [isinstance(v, int) and v > 0] *)
Definition positive_int (v : pyval) : result bool := py_and (Ok (is_int v)) (py_lt zero v).
(** [isinstance(v, (int, float)) and v >= 0] *)
Definition non_negative_number (v : pyval) : result bool := py_and (Ok (is_number v)) (py_le zero v).

(** [isinstance(v, tuple) and len(v) == 2 and all(p(s) for s in v)] *)
Definition tuple2 (p : pyval -> result bool) (v : pyval) : result bool :=
  match v with
  | PTuple [a; b] => py_all p [a; b]
  | _ => Ok false
  end.

(** [isinstance(v, list) and len(v) > 0 and all(isinstance(r, tuple) and len(r) == 2 for r in v)] *)
Definition is_pair (v : pyval) : bool := match v with PTuple [_; _] => true | _ => false end.
Definition list_of_pairs (v : pyval) : result bool :=
  match v with
  | PList (r :: l) => Ok (forallb is_pair (r :: l))
  | _ => Ok false
  end.
(** [all(p(d1, d2) for d1, d2 in v)], for a list of pairs. *)
Definition all_pairs (p : pyval -> pyval -> result bool) (v : pyval) : result bool :=
  match v with
  | PList l => py_all (fun r => match r with PTuple [a; b] => p a b | _ => Err ValueError end) l
  | _ => Err TypeError
  end.

(** [not isinstance(v, (int, float)) or v < 0] raises, types.py:301-305. *)
Definition std_ok (v : pyval) : result bool := if is_number v then bind (py_lt v zero) (fun b => Ok (negb b)) else Ok false.
(** [not isinstance(v, (int, float)) or v <= 0] raises, types.py:306-307. *)
Definition dt_ok (v : pyval) : result bool := if is_number v then bind (py_le v zero) (fun b => Ok (negb b)) else Ok false.

(** [__post_init__], types.py:209-307.  (The second test of image_shape at
    222-227 repeats the first.) *)
Definition post_init (s : ispec) : result unit :=
  require (positive_int (i_batch_size s)) (
  require (tuple2 positive_int (i_image_shape s)) (
  require (py_and (py_le f_zero (i_p_hide_img1 s)) (py_le (i_p_hide_img1 s) f_one)) (
  require (py_and (py_le f_zero (i_p_hide_img2 s)) (py_le (i_p_hide_img2 s) f_one)) (
  require (tuple2 positive_int (i_image_shape s)) (
  require (tuple2 non_negative_number (i_img_offset s)) (
  require (tuple2 non_negative_number (i_seeding_density_range s)) (
  require (match i_seeding_density_range s with
           | PTuple (a :: b :: _) => bind (py_lt b a) (fun x => Ok (negb x))
           | _ => Err TypeError
           end) (
  require (list_of_pairs (i_diameter_ranges s)) (
  require (all_pairs (fun a b => py_and (py_lt zero a) (py_le a b)) (i_diameter_ranges s)) (
  require (list_of_pairs (i_intensity_ranges s)) (
  require (all_pairs (fun a b => py_and (py_lt zero a) (py_le a b)) (i_intensity_ranges s)) (
  require (list_of_pairs (i_rho_ranges s)) (
  require (all_pairs (fun a b => py_and (py_lt minus_one a) (py_and (py_le a b) (py_lt b one))) (i_rho_ranges s)) (
  require (non_negative_number (i_diameter_var s)) (
  require (non_negative_number (i_intensity_var s)) (
  require (non_negative_number (i_rho_var s)) (
  require (non_negative_number (i_noise_uniform s)) (
  require (non_negative_number (i_noise_gaussian_mean s)) (
  require (std_ok (i_noise_gaussian_std s)) (
  require (dt_ok (i_dt s)) (Ok tt))))))))))))))))))))).

(** The constructor: the fields as given, if they validate. *)
Definition make_spec (s : ispec) : result ispec := bind (post_init s) (fun _ => Ok s).

(** The defaults, types.py:184-207 (decimal literals as rationals). *)
Definition default_spec : ispec := mkIspec
  (PInt 300) (PTuple [PInt 256; PInt 256]) (PTuple [PInt 128; PInt 128])
  (PTuple [PFloat (Fin (1 # 100)); PFloat (Fin (2 # 100))]) (PFloat (Fin (1 # 100))) (PFloat (Fin (1 # 100)))
  (PList [PTuple [PFloat (Fin (1 # 10)); PFloat (Fin 1)]]) (PFloat (Fin 1))
  (PList [PTuple [PInt 50; PInt 200]]) (PFloat (Fin 1))
  (PList [PTuple [PFloat (Fin (-(99 # 100))); PFloat (Fin (99 # 100))]]) (PFloat (Fin 1))
  (PFloat (Fin 1)) (PFloat (Fin 0)) (PFloat (Fin 0)) (PFloat (Fin 0)).

(** [update], types.py:309-341: names that are not fields are ignored. *)
Definition update_fields (kw : list (string * pyval)) (s : ispec) : ispec :=
  let get := dict_get kw in
  mkIspec (get "batch_size" (i_batch_size s)) (get "image_shape" (i_image_shape s)) (get "img_offset" (i_img_offset s))
    (get "seeding_density_range" (i_seeding_density_range s)) (get "p_hide_img1" (i_p_hide_img1 s)) (get "p_hide_img2" (i_p_hide_img2 s))
    (get "diameter_ranges" (i_diameter_ranges s)) (get "diameter_var" (i_diameter_var s))
    (get "intensity_ranges" (i_intensity_ranges s)) (get "intensity_var" (i_intensity_var s))
    (get "rho_ranges" (i_rho_ranges s)) (get "rho_var" (i_rho_var s)) (get "dt" (i_dt s))
    (get "noise_uniform" (i_noise_uniform s)) (get "noise_gaussian_mean" (i_noise_gaussian_mean s))
    (get "noise_gaussian_std" (i_noise_gaussian_std s)).
Definition update (kw : list (string * pyval)) (s : ispec) : result ispec := make_spec (update_fields kw s).

(** A chain of updates; an exception ends it. *)
Fixpoint updates (kws : list (list (string * pyval))) (s : ispec) : result ispec :=
  match kws with
  | [] => Ok s
  | kw :: kws => bind (update kw s) (updates kws)
  end.

(** ** The unvalidated dataclasses; their fields hold arbitrary objects. *)

(** A keyword argument list over any type of objects. *)
Fixpoint kw_get {A} (kw : list (string * A)) (k : string) (default : A) : A :=
  match kw with
  | [] => default
  | (k', v) :: kw => if String.eqb k k' then v else kw_get kw k default
  end.

(** ImageGenerationParameters, types.py:15-60. *)
Record gparams (A : Type) : Type := mkGparams {
  gp_densities : A; gp_diameters : A; gp_intensities : A; gp_rhos : A
}.
Arguments mkGparams {A}. Arguments gp_densities {A}. Arguments gp_diameters {A}. Arguments gp_intensities {A}. Arguments gp_rhos {A}.
Definition gp_flatten {A} (p : gparams A) : list A := [gp_densities p; gp_diameters p; gp_intensities p; gp_rhos p].
(** [cls( *children )]: exactly four arguments, TypeError otherwise. *)
Definition gp_unflatten {A} (l : list A) : result (gparams A) :=
  match l with
  | [a; b; c; d] => Ok (mkGparams a b c d)
  | _ => Err TypeError
  end.

(** SynthpixBatch, types.py:63-127; [none] is None. *)
Record sbatch (A : Type) : Type := mkSbatch {
  sb_images1 : A; sb_images2 : A; sb_flow_fields : A; sb_params : A; sb_done : A; sb_mask : A; sb_files : A
}.
Arguments mkSbatch {A}. Arguments sb_images1 {A}. Arguments sb_images2 {A}. Arguments sb_flow_fields {A}.
Arguments sb_params {A}. Arguments sb_done {A}. Arguments sb_mask {A}. Arguments sb_files {A}.
(** types.py:76-93. *)
Definition sb_update {A} (kw : list (string * A)) (b : sbatch A) : sbatch A :=
  mkSbatch (kw_get kw "images1" (sb_images1 b)) (kw_get kw "images2" (sb_images2 b)) (kw_get kw "flow_fields" (sb_flow_fields b))
           (kw_get kw "params" (sb_params b)) (kw_get kw "done" (sb_done b)) (kw_get kw "mask" (sb_mask b)) (kw_get kw "files" (sb_files b)).
(** types.py:95-127; fewer than seven children take the defaults None, fewer
    than three or more than seven raise TypeError. *)
Definition sb_flatten {A} (b : sbatch A) : list A :=
  [sb_images1 b; sb_images2 b; sb_flow_fields b; sb_params b; sb_done b; sb_mask b; sb_files b].
Definition sb_unflatten {A} (none : A) (l : list A) : result (sbatch A) :=
  match l with
  | a :: b :: c :: l =>
      if (List.length l <=? 4)%nat then
        Ok (mkSbatch a b c (nth 0 l none) (nth 1 l none) (nth 2 l none) (nth 3 l none))
      else Err TypeError
  | _ => Err TypeError
  end.

(** SchedulerData, types.py:130-155. *)
Record sdata (A : Type) : Type := mkSdata {
  sdt_flow_fields : A; sdt_images1 : A; sdt_images2 : A; sdt_mask : A; sdt_files : A
}.
Arguments mkSdata {A}. Arguments sdt_flow_fields {A}. Arguments sdt_images1 {A}. Arguments sdt_images2 {A}.
Arguments sdt_mask {A}. Arguments sdt_files {A}.
(** types.py:140-155. *)
Definition sdt_update {A} (kw : list (string * A)) (b : sdata A) : sdata A :=
  mkSdata (kw_get kw "flow_fields" (sdt_flow_fields b)) (kw_get kw "images1" (sdt_images1 b)) (kw_get kw "images2" (sdt_images2 b))
          (kw_get kw "mask" (sdt_mask b)) (kw_get kw "files" (sdt_files b)).
