(** How fast an image changes. *)
From Coq Require Import ZArith QArith Qabs.
From Verif Require Import Model.Interp Spec.InterpSpec.
Local Open Scope Q_scope.

(** From one pixel to the next in its row, or in its column, the image changes by
    at most [D]. *)
Definition across (D : Q) (im : image) : Prop :=
  forall r c, pixel im r c -> pixel im r (c + 1) -> Qabs (at_ im r (c + 1) - at_ im r c) <= D.
Definition down (D : Q) (im : image) : Prop :=
  forall r c, pixel im r c -> pixel im (r + 1) c -> Qabs (at_ im (r + 1) c - at_ im r c) <= D.
