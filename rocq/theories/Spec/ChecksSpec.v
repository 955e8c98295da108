(** What the argument checks are documented to accept: vocabulary for C124. *)
From Coq Require Import List Arith ZArith QArith Qabs String.
From Verif Require Import Prelude Model.PyVal Model.Types Model.Checks Spec.TypesSpec.
Import ListNotations.

Definition a_nan : pyval := PFloat NaN.
Definition positive (v : pyval) : Prop := exists x, number v x /\ lt (Num 0) x.
Definition at_least_0 (v : pyval) : Prop := exists x, number v x /\ le (Num 0) x.
Definition positive_i (v : pyval) : Prop := exists z, integer v z /\ (0 < z)%Z.
Definition at_least_0_i (v : pyval) : Prop := exists z, integer v z /\ (0 <= z)%Z.
Definition some_number (v : pyval) : Prop := v = a_nan \/ exists x, number v x.

(** The tests written [v <= 0] let NaN pass. *)
Definition positive_or_nan (v : pyval) : Prop := v = a_nan \/ positive v.

Definition is (P : pyval -> Prop) (a : arg) : Prop := exists v, a = Val v /\ P v.
Definition two (P : pyval -> Prop) (a : arg) : Prop := exists u v, a = Val (PTuple [u; v]) /\ P u /\ P v.

(** Particles in the plane with a planar field, or in space with a field of
    three components. *)
Record apply_args (pos flow dt rx ry rz : arg) : Prop := mkApplyArgs {
  aa_shapes : exists n h w k t t', (k = 2 \/ k = 3)%nat /\ pos = Jax [n; k] t /\ flow = Jax [h; w; k] t';
  aa_dt : is some_number dt;
  aa_rx : is positive_or_nan rx;
  aa_ry : is positive_or_nan ry;
  aa_rz : is positive_or_nan rz
}.

Record adapter_inputs (flow new image off res rx ry pb pbo batch units dt pad : arg) : Prop := mkAdapterArgs {
  da_flow : exists n h w t, flow = Jax [n; h; w; 2%nat] t;
  da_new : two positive_i new;
  da_image : two positive_i image;
  da_off : two at_least_0 off;
  da_res : is positive_or_nan res;
  da_rx : is positive_or_nan rx;
  da_ry : is positive_or_nan ry;
  da_pb : two positive pb;
  da_pbo : two at_least_0 pbo;
  da_batch : is positive_i batch;
  da_units : units = Val (PStr "pixels") \/ units = Val (PStr "measure units per second");
  da_dt : is positive_or_nan dt;
  da_pad : two at_least_0_i pad
}.

(** The bound [b] leaves room for an image of size [s] behind an offset. *)
Inductive fits (radd : Q -> Q -> Q) (b s : Z) : pyval -> Prop :=
| fits_int : forall v z, integer v z -> (s + z <= b)%Z -> fits radd b s v
| fits_float : forall q, (radd (inject_Z s) q <= inject_Z b)%Q -> fits radd b s (PFloat (Fin q)).

(** For an image of [h] by [w] pixels at the offsets [oy] and [ox]. *)
Record generate_args (radd : Q -> Q -> Q) (h w : Z) (oy ox dmax : pyval) (flow : arg) (pb : pyval) (rx ry mask hist : arg) : Prop := mkGenerateArgs {
  ga_flow : exists n fh fw t, flow = Jax [n; fh; fw; 2%nat] t;
  ga_pb : exists u v b0 b1, (pb = PTuple [u; v] \/ pb = PList [u; v]) /\ integer u b0 /\ integer v b1 /\ (0 < b0)%Z /\ (0 < b1)%Z /\
            fits radd b0 h oy /\ fits radd b1 w ox;
  ga_rx : is positive rx;
  ga_ry : is positive ry;
  ga_mask : mask = Val PNone \/ exists mh mw t, mask = Jax [mh; mw] t /\ Z.of_nat mh = h /\ Z.of_nat mw = w;
  ga_hist : hist = Val PNone \/ exists t, hist = Jax [256%nat] t /\
              (Qabs (t - inject_Z (h * w)) <= (1 # 100000000) + (1 # 100000) * Qabs (inject_Z (h * w)))%Q;
  ga_density : exists q, number dmax (Num q)
}.
