(** Vocabulary for comparing the reported flow with the motion of the particles,
    for flows that vary in space.  Per axis: [true] selects y, [false] x. *)
From Coq Require Import ZArith QArith Qround Qabs.
From Verif Require Import Model.Interp Model.Geometry.
From Verif Require Import Spec.GeometrySpec Spec.LipschitzSpec.
Local Open Scope Q_scope.

(** Neighbouring velocities differ by at most [Dx] along x and [Dy] along y. *)
Definition gentle (Dx Dy : Q) (f : flow) : Prop :=
  across Dx (chan0 f) /\ down Dy (chan0 f) /\ across Dx (chan1 f) /\ down Dy (chan1 f).

(** Flow grid steps under the simulated area and under the image. *)
Definition covered (y : bool) (c : gcfg exact) (g : geom exact) : Q := inject_Z (sel y (o_pb g)) / g_res c * sel y (o_res g).
Definition shown (y : bool) (c : gcfg exact) (g : geom exact) : Q := inject_Z (sel y (g_image c)) / g_res c * sel y (o_res g).

(** The factor of C44 between drawn and reported displacements. *)
Definition stretch (y : bool) (c : gcfg exact) (g : geom exact) : Q := covered y c g / inject_Z (Qfloor (covered y c g)).

(** Vectors are spread evenly over the image: the pixel of the simulated area at
    which vector number [k] belongs. *)
Definition belongs (y : bool) (c : gcfg exact) (g : geom exact) (k : Z) : Q :=
  inject_Z (sel y (o_off g)) + inject_Z k * (inject_Z (sel y (g_image c)) / inject_Z (sel y (o_out g))).

(** How far apart, in grid steps, the flow a particle at pixel [p] feels and the
    flow reported as vector [k] may have been read. *)
Definition reach (y : bool) (c : gcfg exact) (g : geom exact) (p : Q) (k : Z) : Q :=
  2 + Qabs (1 - shown y c g / inject_Z (sel y (o_out g))) + steps_per_pixel y c g * Qabs (p - belongs y c g k).

(** The velocities of a flow are affine functions of the grid indices. *)
Definition affine (u0 ux uy v0 vx vy : Q) (f : flow) : Prop :=
  forall r k, (0 <= r < fH f)%Z -> (0 <= k < fW f)%Z ->
    fu f r k == u0 + ux * inject_Z k + uy * inject_Z r /\ fv f r k == v0 + vx * inject_Z k + vy * inject_Z r.

(** The coordinate in the flow field of pixel [p] of the simulated area. *)
Definition grid_at (y : bool) (c : gcfg exact) (g : geom exact) (p : Q) : Q :=
  sel y (o_pbo g) * sel y (o_res g) + p * steps_per_pixel y c g.

(** How many grid steps short of its place vector [k] is read. *)
Definition short (y : bool) (c : gcfg exact) (g : geom exact) (k : Z) : Q :=
  inject_Z k / (inject_Z (sel y (o_out g)) - 1) * (1 - shown y c g / inject_Z (sel y (o_out g))).
