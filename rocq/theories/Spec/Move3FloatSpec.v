(** Moving three-dimensional particles in float32: vocabulary for C132. *)
From Coq Require Import ZArith QArith Reals.
From Flocq Require Import Core.
From Verif Require Import Model.Interp Model.Geometry Model.TriFloat Model.Move3Float.
From Verif Require Import Spec.InterpSpec Spec.InterpFloatSpec Spec.TriFloatSpec Spec.MoveFloatSpec.
Local Open Scope R_scope.

(** The voxels at the corners of the cell of (x, y, z) are finite and at most [M]
    in magnitude. *)
Definition cell_within (M : R) (v : fvolume) (x y z : f32) : Prop := wsize v /\ corners v x y z (within M).

(** Where a coordinate [x] goes at the exact velocity at (x, y, z), and by how
    much the float result may differ. *)
Definition goes3 (v : fvolume) (px py pz : f32) (x res dt : f32) : R :=
  real x + Q2R (trilinear (vvalues v) (value px) (value py) (value pz)) * real res * real dt.
Definition drift3 (M : R) (x res dt : f32) : R :=
  bpow radix2 (-24) * Rabs (real x) + bpow radix2 (-16) * (M * Rabs (real res) * Rabs (real dt)) + bpow radix2 (-100).
