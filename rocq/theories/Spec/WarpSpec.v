(** Vocabulary for the warping properties. *)
From Coq Require Import List ZArith QArith Qminmax Qabs.
From Verif Require Import Model.Interp.
Local Open Scope Q_scope.

(** The bilinear (tent) kernel. *)
Definition tent (t : Q) : Q := Qmax 0 (1 - Qabs t).

(** Sum of [f] over 0, 1, ..., n-1. *)
Fixpoint sumn (n : nat) (f : Z -> Q) : Q :=
  match n with O => 0 | S n => sumn n f + f (Z.of_nat n) end.
Definition sumZ (n : Z) (f : Z -> Q) : Q := sumn (Z.to_nat n) f.

(** Sum over all pixels. *)
Definition total (im : image) : Q := sumZ (rows im) (fun r => sumZ (cols im) (fun c => at_ im r c)).

(** Where the flow moves pixel (r, c) to. *)
Definition moved_x (f : flow) (dt : Q) (r c : Z) : Q := inject_Z c + dt * fu f r c.
Definition moved_y (f : flow) (dt : Q) (r c : Z) : Q := inject_Z r + dt * fv f r c.

(** Every pixel of [f] has velocity ([u], [v]). *)
Definition uniform (u v : Q) (f : flow) : Prop := forall r c, fu f r c == u /\ fv f r c == v.

Definition flow_bounded (lo0 hi0 lo1 hi1 : Q) (f : flow) : Prop :=
  forall r c, (0 <= r < fH f)%Z -> (0 <= c < fW f)%Z -> lo0 <= fu f r c <= hi0 /\ lo1 <= fv f r c <= hi1.

(** Same shape and same values at every grid point. *)
Definition same_flow (f g : flow) : Prop :=
  fH f = fH g /\ fW f = fW g /\
  forall r c, (0 <= r < fH f)%Z -> (0 <= c < fW f)%Z -> fu f r c == fu g r c /\ fv f r c == fv g r c.

(** [f] is [k] times [g]. *)
Definition scaled_flow (k : Q) (f g : flow) : Prop :=
  fH f = fH g /\ fW f = fW g /\
  forall r c, (0 <= r < fH f)%Z -> (0 <= c < fW f)%Z -> fu f r c == k * fu g r c /\ fv f r c == k * fv g r c.

(** The [i]-th of [n] equally spaced points from [a] to [b]. *)
Definition spaced (a b : Q) (n i : Z) (x : Q) : Prop :=
  (n = 1%Z -> x == a) /\ ((1 < n)%Z -> (x - a) * (inject_Z n - 1) == inject_Z i * (b - a)).

(** [f] is [k] times [f1] plus [l] times [f2]. *)
Definition combines (k l : Q) (f f1 f2 : flow) : Prop :=
  fH f1 = fH f /\ fW f1 = fW f /\ fH f2 = fH f /\ fW f2 = fW f /\
  forall r c, (0 <= r < fH f)%Z -> (0 <= c < fW f)%Z ->
    fu f r c == k * fu f1 r c + l * fu f2 r c /\ fv f r c == k * fv f1 r c + l * fv f2 r c.
