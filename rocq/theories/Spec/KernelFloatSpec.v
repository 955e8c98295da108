(** The mathematical picture that drawing in floats approximates. *)
From Coq Require Import List ZArith QArith Qreals Reals.
From Verif Require Import Prelude Model.Interp Model.Geometry Model.Render Model.InterpFloat Model.HistFloat Model.DrawFloat.
From Verif Require Import Spec.InterpFloatSpec Spec.RenderSpec Spec.DrawFloatSpec.
Import ListNotations.
Local Open Scope R_scope.

(** The particle whose numbers are the floats. *)
Definition exactly (p : particle32) : particle :=
  mkParticle (value (q_y p)) (value (q_x p)) (value (q_dx p)) (value (q_dy p)) (value (q_rho p)) (value (q_amp p)).

(** What it adds at an offset: the Gaussian with the real exponential. *)
Definition shine (p : particle32) (dy dx : Q) : R :=
  Q2R (value (q_amp p)) * exp (Q2R (- (mahalanobis (exactly p) dy dx / 2)))%Q.

(** The exponential of the library is within [eps] on numbers that are not positive. *)
Definition exp_within (eps : R) (ex : f32 -> f32) : Prop :=
  forall t, finite t -> (value t <= 0)%Q -> finite (ex t) /\ Rabs (Q2R (value (ex t)) - exp (Q2R (value t))) <= eps.

(** Diameters, correlation and brightness of ordinary size. *)
Definition ordinary (p : particle32) : Prop :=
  finite (q_dx p) /\ finite (q_dy p) /\ finite (q_rho p) /\ finite (q_amp p) /\
  (1 # 1048576 <= value (q_dx p) <= 1048576)%Q /\ (1 # 1048576 <= value (q_dy p) <= 1048576)%Q /\
  (-(1023 # 1024) <= value (q_rho p) <= 1023 # 1024)%Q /\
  (0 <= value (q_amp p) <= 1048576)%Q.

(** The square of the distance in standard deviations, and how far the kernel is
    from degenerating to a line. *)
Definition spread (p : particle32) (dy dx : Q) : Q :=
  (2 * dx / value (q_dx p)) * (2 * dx / value (q_dx p)) + (2 * dy / value (q_dy p)) * (2 * dy / value (q_dy p)).
Definition fatness (p : particle32) : Q := (1 - value (q_rho p) * value (q_rho p)).

(** What may be missing of a contribution. *)
Definition tolerance (eps : R) (p : particle32) (dy dx : Q) : R :=
  Q2R (value (q_amp p)) *
    (11 / 16777216 * (Q2R (spread p dy dx) / (Q2R (fatness p) * Q2R (fatness p))) + eps + 2 / 16777216) + / 2 ^ 150.

(** On numbers that are not positive it lies between zero and one. *)
Definition exp_unit (ex : f32 -> f32) : Prop :=
  forall t, finite t -> (value t <= 0)%Q -> (0 <= value (ex t) <= 1)%Q.

Definition clipped (clip : bool) (s : R) : R := if clip then Rmin (Rmax s 0) 255 else s.

(** The picture at pixel ([row], [col]): [n] particles have it in their patch, their
    Gaussians add up to [s], what may be missing of them to [t], their peaks to [a]. *)
Inductive picture (eps : R) (lasty lastx : Q) (r row col : Z) : list particle32 -> nat -> R -> R -> R -> Prop :=
| pic_nil : picture eps lasty lastx r row col [] 0 0 0 0
| pic_in : forall p ps n s t a,
    in_patch r (drawn_at lasty r (q_y p)) row -> in_patch r (drawn_at lastx r (q_x p)) col ->
    picture eps lasty lastx r row col ps n s t a ->
    picture eps lasty lastx r row col (p :: ps) (S n)
      (shine p (inject_Z row - drawn_at lasty r (q_y p)) (inject_Z col - drawn_at lastx r (q_x p)) + s)
      (tolerance eps p (inject_Z row - drawn_at lasty r (q_y p)) (inject_Z col - drawn_at lastx r (q_x p)) + t)
      (Q2R (value (q_amp p)) + a)
| pic_out : forall p ps n s t a,
    ~ (in_patch r (drawn_at lasty r (q_y p)) row /\ in_patch r (drawn_at lastx r (q_x p)) col) ->
    picture eps lasty lastx r row col ps n s t a -> picture eps lasty lastx r row col (p :: ps) n s t a.

(** Particles of moderate correlation and brightness whose patches stay within
    eight standard deviations. *)
Definition moderate (lasty lastx : Q) (r row col : Z) (p : particle32) : Prop :=
  (value (q_amp p) <= 255)%Q /\ (-(1 # 2) <= value (q_rho p) <= 1 # 2)%Q /\
  (in_patch r (drawn_at lasty r (q_y p)) row -> in_patch r (drawn_at lastx r (q_x p)) col ->
   spread p (inject_Z row - drawn_at lasty r (q_y p)) (inject_Z col - drawn_at lastx r (q_x p)) <= 64)%Q.
