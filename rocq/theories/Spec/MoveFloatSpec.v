(** Vocabulary for particles moved in float arithmetic. *)
From Coq Require Import List ZArith QArith Qreals Reals.
From Flocq Require Import Core IEEE754.BinarySingleNaN.
From Verif Require Import Prelude Model.Interp Model.Geometry Model.Render Model.InterpFloat Model.HistFloat Model.DrawFloat Model.MoveFloat.
From Verif Require Import Spec.InterpFloatSpec.
Local Open Scope R_scope.

(** The real number a float stands for. *)
Definition real (x : f32) : R := Q2R (value x).

(** The flow field of the values. *)
Definition flow_of (f : flow32) : flow :=
  mkFlow (h_H f) (h_W f) (fun r c => value (h_u f r c)) (fun r c => value (h_v f r c)).

(** A finite flow of moderate size, speeds up to [M]. *)
Definition flow_within (M : R) (f : flow32) : Prop :=
  (1 <= h_H f < 2 ^ 24)%Z /\ (1 <= h_W f < 2 ^ 24)%Z /\
  forall r c, (0 <= r < h_H f)%Z -> (0 <= c < h_W f)%Z ->
    (finite (h_u f r c) /\ Rabs (real (h_u f r c)) <= M) /\ (finite (h_v f r c) /\ Rabs (real (h_v f r c)) <= M).

Definition bounds_ok (pb : Z * Z) : Prop := (1 <= fst pb < 2 ^ 24)%Z /\ (1 <= snd pb < 2 ^ 24)%Z.

(** A finite float of size at most [B]. *)
Definition within (B : R) (x : f32) : Prop := finite x /\ Rabs (real x) <= B.

(** Grid steps per pixel. *)
Definition steps (n b : Z) : Q := (inject_Z n / inject_Z b)%Q.

(** Close to the position [x] in grid steps. *)
Definition sampled_at (a : Q) (x : f32) (q : Q) : Prop :=
  Rabs (Q2R q - Q2R a * real x) <= 3 / 16777216 * (Q2R a * Rabs (real x)) + bpow radix2 (-149).

(** The position after the time [dt] with speed [s], in pixels, and what the
    float position may be off. *)
Definition arrives (a : Q) (x : f32) (s : Q) (res dt : f32) : R := real x + Q2R s * real res * real dt / Q2R a.
Definition drift (a : Q) (x : f32) (M : R) (res dt : f32) : R :=
  5 / 16777216 * Rabs (real x) + 1 / 1048576 * (M * Rabs (real res) * Rabs (real dt) / Q2R a) + bpow radix2 (-70).

(** A flow that is everywhere the same. *)
Definition uniform32 (u v : f32) (f : flow32) : Prop :=
  forall r c, (0 <= r < h_H f)%Z -> (0 <= c < h_W f)%Z -> real (h_u f r c) = real u /\ real (h_v f r c) = real v.

(** As many grid steps as pixels, or a power of two times as many or few. *)
Definition dyadic_scale (n b : Z) : Prop := exists k, Q2R (steps n b) = bpow radix2 k.
