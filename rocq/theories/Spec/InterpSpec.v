(** Vocabulary for images, sampling and geometry, independent of the model's
    arithmetic. *)
From Coq Require Import ZArith QArith.
From Verif Require Import Model.Interp.
Local Open Scope Q_scope.

(** A pixel of the image. *)
Definition pixel (im : image) (r c : Z) : Prop := (0 <= r < rows im)%Z /\ (0 <= c < cols im)%Z.
Definition voxel (v : volume) (d r c : Z) : Prop :=
  (0 <= d < vD v)%Z /\ (0 <= r < vH v)%Z /\ (0 <= c < vW v)%Z.

Definition nonempty (im : image) : Prop := (1 <= rows im)%Z /\ (1 <= cols im)%Z.

(** [x] lies on the axis of [n] samples. *)
Definition on_axis (n : Z) (x : Q) : Prop := 0 <= x <= inject_Z n - 1.

(** [p] is the point of [lo, hi] nearest to [x]. *)
Definition nearest (lo hi x p : Q) : Prop :=
  lo <= p <= hi /\ (x < lo -> p == lo) /\ (hi < x -> p == hi) /\ (lo <= x <= hi -> p == x).

(** All pixels lie in [lo, hi]. *)
Definition bounded (lo hi : Q) (im : image) : Prop := forall r c, pixel im r c -> lo <= at_ im r c <= hi.
Definition vbounded (lo hi : Q) (v : volume) : Prop := forall d r c, voxel v d r c -> lo <= vat v d r c <= hi.

(** Same size and same pixels. *)
Definition same_image (a b : image) : Prop :=
  rows a = rows b /\ cols a = cols b /\ forall r c, pixel a r c -> at_ a r c == at_ b r c.
Definition same_volume (a b : volume) : Prop :=
  vD a = vD b /\ vH a = vH b /\ vW a = vW b /\ forall d r c, voxel a d r c -> vat a d r c == vat b d r c.
