(** Vocabulary for images drawn in float arithmetic. *)
From Coq Require Import List ZArith QArith Qabs Qminmax Qreals Reals.
From Flocq Require Import Core.
From Verif Require Import Prelude Model.Interp Model.Geometry Model.Render Model.InterpFloat Model.HistFloat Model.DrawFloat.
From Verif Require Import Spec.InterpFloatSpec Spec.RenderSpec.
Import ListNotations.
Local Open Scope Q_scope.

(** The last centre on an axis of [n] pixels: a float just below [n - r], or [n - r]. *)
Definition far (n r : Z) (last : Q) : Prop :=
  float32 (Q2R last) /\ inject_Z n - inject_Z r - (1 # 200000) <= last /\ last <= inject_Z n - inject_Z r.

(** The centre at which a particle at [p] is drawn. *)
Definition drawn_at (last : Q) (r : Z) (p : f32) : Q := Qmin last (Qmax (inject_Z r) (value p)).

(** The float nearest to [q]. *)
Definition closest (d : f32) (q : Q) : Prop :=
  finite d /\ Q2R (value d) = round radix2 (FLT_exp (-149) 24) ZnearestE (Q2R q).

(** Particle [p] adds [v] to pixel ([row], [col]), or does not reach it: a patch
    of radius [r] around the centre, the kernel taken at the rounded offsets. *)
Definition adds (ex : f32 -> f32) (lasty lastx : Q) (r : Z) (p : particle32) (row col : Z) (o : option f32) : Prop :=
  let cy := drawn_at lasty r (q_y p) in
  let cx := drawn_at lastx r (q_x p) in
  match o with
  | Some v => in_patch r cy row /\ in_patch r cx col /\
      exists dy dx, closest dy (inject_Z row - cy) /\ closest dx (inject_Z col - cx) /\
        v = gaussian (f32K ex) dx dy (f32_ofZ 0) (f32_ofZ 0) (div32 (q_dx p) (f32_ofZ 2)) (div32 (q_dy p) (f32_ofZ 2)) (q_rho p) (q_amp p)
  | None => ~ (in_patch r cy row /\ in_patch r cx col)
  end.

(** What the particles add to a pixel. *)
Definition lights (ex : f32 -> f32) (lasty lastx : Q) (r : Z) (ps : list particle32) (row col : Z) (vs : list f32) : Prop :=
  exists os, Forall2 (fun p o => adds ex lasty lastx r p row col o) ps os /\
    vs = flat_map (fun o => match o with Some v => [v] | None => [] end) os.

(** The exact sum, the sum of the sizes, and the growth of rounding errors. *)
Definition exact_sum (vs : list f32) : Q := fold_right (fun v s => value v + s) 0 vs.
Definition sizes (vs : list f32) : Q := fold_right (fun v s => Qabs (value v) + s) 0 vs.
Definition grow (n : nat) : Q := Nat.iter n (Qmult (1 + (1 # 16777216))) 1.
Definition slack (vs : list f32) : Q := (grow (Nat.pred (List.length vs)) - 1) * sizes vs.

(** Finite numbers whose sum is far from overflowing. *)
Definition summable (vs : list f32) : Prop :=
  Forall finite vs /\ (Z.of_nat (List.length vs) <= 2 ^ 23)%Z /\ sizes vs <= inject_Z (2 ^ 126).

Definition clamp (clip : bool) (q : Q) : Q := if clip then Qmin 255 (Qmax 0 q) else q.

(** Particles at finite positions, and an image with room for a patch. *)
Definition placed (p : particle32) : Prop := finite (q_y p) /\ finite (q_x p).
Definition room (H W r : Z) : Prop := (2 * r + 1 <= H < 2 ^ 24)%Z /\ (2 * r + 1 <= W < 2 ^ 24)%Z.
