(** Vocabulary for whole batches in float arithmetic. *)
From Coq Require Import List Arith ZArith QArith Qround Qabs Qreals Reals.
From Flocq Require Import Core IEEE754.BinarySingleNaN.
From Verif Require Import Prelude Model.Interp Model.Geometry Model.DataGen Model.Render Model.InterpFloat Model.HistFloat Model.DrawFloat Model.MoveFloat Model.SampleFloat Model.FinishFloat Model.AdaptFloat.
From Verif Require Import Spec.InterpFloatSpec Spec.RenderSpec Spec.DrawFloatSpec Spec.KernelFloatSpec Spec.MoveFloatSpec Spec.SampleFloatSpec Spec.FinishFloatSpec Spec.AdaptFloatSpec.
Import ListNotations.
Local Open Scope R_scope.

(** The image [out] is made from one that shows the particles [ps], with noise
    from the key [k], in an area of [pb] pixels. *)
Definition pictured (eps : R) (g : source32) (re : rest32) (pb : Z * Z) (rad : Z) (k : key) (ps : list particle32) (out : fimage) : Prop :=
  grey_image (v_image re) out /\
  exists pre lasty lastx, far (fst pb) rad lasty /\ far (snd pb) rad lastx /\ grey_image (v_image re) pre /\ delivered re pre out /\
    forall r c, (0 <= r < fst (v_image re))%Z -> (0 <= c < snd (v_image re))%Z -> shows eps g re lasty lastx rad k ps pre r c.

(** [ps1] and [ps2] are the particles sampled for pair [i], to which C113 applies,
    whatever flow [c] moved them. *)
Definition sampled (fused recip : bool) (g : source32) (sp : spec32) (re : rest32) (pb : Z * Z) (rx ry : f32) (k : key) (i : nat) (ps1 ps2 : list particle32) : Prop :=
  exists n c, num64 pb (snd (v_density re)) = Some n /\
    let d := density32 fused (v_density re) (s_bits g (Child k 1) (v_batch re) i) in
    ps1 = firsts32 fused g sp pb (Z.to_nat n) (Child (Child k 0) i) d /\
    ps2 = seconds32 fused recip g sp pb (Z.to_nat n) rx ry (Child (Child k 0) i) d c.

(** How much farther than reported particles move: not at all when the number [x]
    of grid steps is whole and computed without rounding, else at most the part a
    grid step is of all but one. *)
Definition stretch (quo x : Q) (rho : R) : Prop :=
  1 - bpow radix2 (-50) <= rho <= 2 + bpow radix2 (-20) /\ (rho - 1) * (Q2R x - 1) <= 1 + bpow radix2 (-20) /\
  (is_double quo -> is_double x -> (exists z, (x == inject_Z z)%Q) -> rho = 1).

(** The integer below [x], or one next to it; the former when no integer is near,
    or when nothing is rounded. *)
Definition about_floor (quo x : Q) (n : Z) : Prop :=
  (Z.max 1 (Qfloor x) - 1 <= n <= Z.max 1 (Qfloor x) + 1)%Z /\
  (clear_of_integers x \/ (is_double quo /\ is_double x) -> n = Z.max 1 (Qfloor x)).

(** Between the images the particle moves [rho] times what is reported, whichever
    entry one looks at. *)
Definition follows (rho_y rho_x : R) (o : flow32) (p1 p2 : particle32) : Prop :=
  let moved (rho : R) (from to d : f32) := Rabs (real to - real from - rho * real d) <=
    6 / 16777216 * Rabs (real from) + bpow radix2 (-17) * Rabs (real d) + bpow radix2 (-50) in
  forall i j, (0 <= i < h_H o)%Z -> (0 <= j < h_W o)%Z ->
    moved rho_y (q_y p1) (q_y p2) (h_v o i j) /\ moved rho_x (q_x p1) (q_x p2) (h_u o i j).

(** Between the images the particle moves as in the flow [f] with exact arithmetic,
    up to [e] times the grid steps per speed and pixel. *)
Definition carried (e : R) (a : adapter_args) (f : flow) (p1 p2 : particle32) : Prop :=
  let (y, x) := second_position (ad_pb a) f (ad_dt a) (ad_rx a) (ad_ry a) (value (q_y p1), value (q_x p1)) in
  let off (r : Q) (n b : Z) (from to : f32) (z : Q) := finite to /\ Rabs (real to - Q2R z) <=
    6 / 16777216 * Rabs (real from) + (e + bpow radix2 (-90)) * (Q2R r * Rabs (Q2R (ad_dt a)) / Q2R (steps n b)) + bpow radix2 (-50) in
  off (ad_ry a) (fH f) (fst (ad_pb a)) (q_y p1) (q_y p2) y /\ off (ad_rx a) (fW f) (snd (ad_pb a)) (q_x p1) (q_x p2) x.
