(** Vocabulary for the sampler geometry.  Everything is stated per axis: [true]
    selects y (rows), [false] selects x (columns). *)
From Coq Require Import ZArith QArith Qabs.
From Verif Require Import Model.Interp Model.Geometry.
Local Open Scope Q_scope.

Definition sel {A : Type} (y : bool) (p : A * A) : A := if y then fst p else snd p.

(** The length covered by the image on an axis. *)
Definition image_length (y : bool) (c : gcfg exact) : Q := inject_Z (sel y (g_image c)) / g_res c.

(** A velocity component within the configured speeds. *)
Definition allowed (y : bool) (c : gcfg exact) (v : Q) : Prop := sel y (g_min c) <= v <= sel y (g_max c).

Definition integral (q : Q) : Prop := exists z, q == inject_Z z.

(** The pixel crop lies inside the simulated area. *)
Definition crop_fits {N : num} (y : bool) (c : gcfg N) (g : geom N) : Prop :=
  (0 <= sel y (o_off g) /\ sel y (o_off g) + sel y (g_image c) <= sel y (o_pb g))%Z.

(** Flow grid steps per pixel on an axis. *)
Definition steps_per_pixel (y : bool) (c : gcfg exact) (g : geom exact) : Q := sel y (o_res g) / g_res c.

(** The float [x] is the integer [z], of magnitude below 2^16. *)
Definition float_int (x : carrier float64) (z : Z) : Prop :=
  (exists q, f_val x = Some q /\ q == inject_Z z) /\ (Z.abs z < 2 ^ 16)%Z.

(** All quantities of a float configuration are moderate integers, dt is not
    negative, and the resolution is a power of two up to 256. *)
Definition dyadic_config (c : gcfg float64) : Prop :=
  (forall y, exists z, float_int (sel y (g_off c)) z) /\
  (forall y, exists z, float_int (sel y (g_max c)) z) /\
  (forall y, exists z, float_int (sel y (g_min c)) z) /\
  (forall y, (0 <= sel y (g_image c) < 2 ^ 16)%Z) /\
  (exists z, float_int (g_dt c) z /\ (0 <= z)%Z) /\
  (exists z, float_int (g_maxd c) z /\ (0 <= z)%Z) /\
  (exists k, (0 <= k <= 8)%Z /\ float_int (g_res c) (2 ^ k)).
