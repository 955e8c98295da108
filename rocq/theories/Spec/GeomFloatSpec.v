(** Vocabulary for the geometry of the synthetic sampler in float arithmetic. *)
From Coq Require Import List ZArith QArith Qabs Qminmax Qreals Reals.
From Flocq Require Import Core IEEE754.BinarySingleNaN.
From Verif Require Import Prelude Model.Interp Model.Geometry Model.AdaptFloat.
From Verif Require Import Spec.GeometrySpec Spec.AdaptFloatSpec.
Local Open Scope R_scope.

(** How far a particle can move between the images, against and along the axis
    from the image's point of view, in length units. *)
Definition upstream (y : bool) (c : gcfg float64) : Q := (Qmax 0 (double (sel y (g_max c))) * double (g_dt c))%Q.
Definition downstream (y : bool) (c : gcfg float64) : Q := (Qmax 0 (- double (sel y (g_min c))) * double (g_dt c))%Q.

(** Arguments of the constructor that are numbers of usual sizes: the flow field
    measures at most 2^19 length units, 2^21 pixels and 2^20 grid points, and
    image, displacement and the patch of a particle are smaller than it. *)
Definition finite64 (x : f64) : Prop := is_finite x = true.
Definition plausible_axis (y : bool) (c : gcfg float64) : Prop :=
  let size := double (sel y (g_ffsize c)) in
  let shape := inject_Z (sel y (g_ffshape c)) in
  let image := inject_Z (sel y (g_image c)) in
  let res := double (g_res c) in
  (finite64 (sel y (g_off c)) /\ finite64 (sel y (g_ffsize c)) /\ finite64 (sel y (g_max c)) /\ finite64 (sel y (g_min c))) /\
  (2 <= sel y (g_image c))%Z /\ (1 <= sel y (g_ffshape c) <= 2 ^ 20)%Z /\
  (0 < size <= 524288 /\ size * res <= 2097152 /\ 1 # 1048576 <= shape / size <= 1048576)%Q /\
  (0 <= double (sel y (g_off c)) <= size)%Q /\ (upstream y c <= size)%Q /\ (downstream y c <= size)%Q /\
  (image / res <= size)%Q /\ ((3 * double (g_maxd c) + 2) / res <= size)%Q /\
  (1 <= image * double (g_vpp c) <= 8388608)%Q.
Definition plausible (c : gcfg float64) : Prop :=
  ordinary (g_res c) /\ shift_ok (g_dt c) /\ (finite64 (g_maxd c) /\ (0 <= double (g_maxd c) <= 65536)%Q) /\ finite64 (g_vpp c) /\
  forall y, plausible_axis y c.

(** The length of the image. *)
Definition image_span (y : bool) (c : gcfg float64) : Q := (inject_Z (sel y (g_image c)) / double (g_res c))%Q.

(** The grid coordinate at which the image starts in the given flow field: the
    adapter reads the padded one, from [pbo] and the offset of the image on. *)
Definition image_start (y : bool) (c : gcfg float64) (g : geom float64) : Q :=
  (double (sel y (o_pbo g)) * double (sel y (o_res g)) + inject_Z (sel y (o_off g)) / double (g_res c) * double (sel y (o_res g)) - inject_Z (sel y (o_pad g)))%Q.
