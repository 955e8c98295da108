(** What an accepted generation specification means (types.py:158-183). *)
From Coq Require Import List ZArith QArith String.
From Verif Require Import Prelude Model.PyVal Model.Types.
Import ListNotations.
Local Open Scope Q_scope.

(** Numbers of the documentation: rationals and the two infinities. *)
Inductive ext : Type := NegInf | Num (q : Q) | PosInf.
Definition le (a b : ext) : Prop :=
  match a, b with
  | NegInf, _ => True
  | _, PosInf => True
  | Num p, Num q => p <= q
  | _, _ => False
  end.
Definition lt (a b : ext) : Prop := le a b /\ ~ le b a.

(** The value is this number.  Python's True and False are the ints 1 and 0. *)
Inductive number : pyval -> ext -> Prop :=
| number_int : forall z, number (PInt z) (Num (inject_Z z))
| number_true : number (PBool true) (Num 1)
| number_false : number (PBool false) (Num 0)
| number_float : forall q, number (PFloat (Fin q)) (Num q)
| number_posinf : number (PFloat (Inf false)) PosInf
| number_neginf : number (PFloat (Inf true)) NegInf.
Inductive integer : pyval -> Z -> Prop :=
| integer_int : forall z, integer (PInt z) z
| integer_true : integer (PBool true) 1
| integer_false : integer (PBool false) 0.

Inductive pair_of {A} (P : pyval -> A -> Prop) : pyval -> A * A -> Prop :=
| pair_of_intro : forall u v a b, P u a -> P v b -> pair_of P (PTuple [u; v]) (a, b).
Inductive list_of {A} (P : pyval -> A -> Prop) : pyval -> list A -> Prop :=
| list_of_intro : forall us l, Forall2 P us l -> list_of P (PList us) l.

(** A specification with typed fields, and the documented constraints on it. *)
Record tspec : Type := mkTspec {
  t_batch : Z; t_shape : Z * Z; t_offset : ext * ext; t_density : ext * ext; t_hide1 : ext; t_hide2 : ext;
  t_diameters : list (ext * ext); t_diameter_var : ext; t_intensities : list (ext * ext); t_intensity_var : ext;
  t_rhos : list (ext * ext); t_rho_var : ext; t_dt : ext; t_noise_uniform : ext; t_noise_mean : ext; t_noise_std : ext
}.
Definition non_negative (a : ext) : Prop := le (Num 0) a.
Definition probability (a : ext) : Prop := le (Num 0) a /\ le a (Num 1).
Definition positive_range (r : ext * ext) : Prop := lt (Num 0) (fst r) /\ le (fst r) (snd r).
Definition correlation_range (r : ext * ext) : Prop := lt (Num (-(1))) (fst r) /\ le (fst r) (snd r) /\ lt (snd r) (Num 1).

Record documented (t : tspec) : Prop := mkDocumented {
  d_batch : (0 < t_batch t)%Z;
  d_shape : (0 < fst (t_shape t))%Z /\ (0 < snd (t_shape t))%Z;
  d_offset : non_negative (fst (t_offset t)) /\ non_negative (snd (t_offset t));
  d_density : non_negative (fst (t_density t)) /\ le (fst (t_density t)) (snd (t_density t));
  d_hide1 : probability (t_hide1 t);
  d_hide2 : probability (t_hide2 t);
  d_diameters : t_diameters t <> [] /\ Forall positive_range (t_diameters t);
  d_diameter_var : non_negative (t_diameter_var t);
  d_intensities : t_intensities t <> [] /\ Forall positive_range (t_intensities t);
  d_intensity_var : non_negative (t_intensity_var t);
  d_rhos : t_rhos t <> [] /\ Forall correlation_range (t_rhos t);
  d_rho_var : non_negative (t_rho_var t);
  d_dt : lt (Num 0) (t_dt t);
  d_noise_uniform : non_negative (t_noise_uniform t);
  d_noise_mean : non_negative (t_noise_mean t);
  d_noise_std : non_negative (t_noise_std t)
}.

(** The Python specification has these values. *)
Record denotes (s : ispec) (t : tspec) : Prop := mkDenotes {
  n_batch : integer (i_batch_size s) (t_batch t);
  n_shape : pair_of integer (i_image_shape s) (t_shape t);
  n_offset : pair_of number (i_img_offset s) (t_offset t);
  n_density : pair_of number (i_seeding_density_range s) (t_density t);
  n_hide1 : number (i_p_hide_img1 s) (t_hide1 t);
  n_hide2 : number (i_p_hide_img2 s) (t_hide2 t);
  n_diameters : list_of (pair_of number) (i_diameter_ranges s) (t_diameters t);
  n_diameter_var : number (i_diameter_var s) (t_diameter_var t);
  n_intensities : list_of (pair_of number) (i_intensity_ranges s) (t_intensities t);
  n_intensity_var : number (i_intensity_var s) (t_intensity_var t);
  n_rhos : list_of (pair_of number) (i_rho_ranges s) (t_rhos t);
  n_rho_var : number (i_rho_var s) (t_rho_var t);
  n_dt : number (i_dt s) (t_dt t);
  n_noise_uniform : number (i_noise_uniform s) (t_noise_uniform t);
  n_noise_mean : number (i_noise_gaussian_mean s) (t_noise_mean t);
  n_noise_std : number (i_noise_gaussian_std s) (t_noise_std t)
}.

Definition nan : pyval := PFloat NaN.

(** A Python number: an int, a bool or a float, NaN included. *)
Definition numeric (v : pyval) : Prop := v = nan \/ exists a, number v a.
(** The value is a list with a pair one of whose members is not a number. *)
Definition odd_entry (v : pyval) : Prop :=
  exists l a b, v = PList l /\ In (PTuple [a; b]) l /\ (~ numeric a \/ ~ numeric b).

(** The fields by name. *)
Definition field (s : ispec) (name : string) : option pyval :=
  option_map snd (List.find (fun p => String.eqb name (fst p))
    [("batch_size", i_batch_size s); ("image_shape", i_image_shape s); ("img_offset", i_img_offset s);
     ("seeding_density_range", i_seeding_density_range s); ("p_hide_img1", i_p_hide_img1 s); ("p_hide_img2", i_p_hide_img2 s);
     ("diameter_ranges", i_diameter_ranges s); ("diameter_var", i_diameter_var s); ("intensity_ranges", i_intensity_ranges s);
     ("intensity_var", i_intensity_var s); ("rho_ranges", i_rho_ranges s); ("rho_var", i_rho_var s); ("dt", i_dt s);
     ("noise_uniform", i_noise_uniform s); ("noise_gaussian_mean", i_noise_gaussian_mean s);
     ("noise_gaussian_std", i_noise_gaussian_std s)])%string.

(** The value a call [update] gives to a name. *)
Definition given {A} (name : string) (kw : list (string * A)) : option A :=
  option_map snd (List.find (fun p => String.eqb name (fst p)) kw).
(** The value of a name after a chain of updates: the last one given, the old
    one if none is. *)
Fixpoint after {A} (name : string) (kws : list (list (string * A))) (old : A) : A :=
  match kws with
  | [] => old
  | kw :: kws => after name kws (match given name kw with Some v => v | None => old end)
  end.
