(** Vocabulary for the conversion of record files. *)
From Coq Require Import List Arith ZArith String.
From Verif Require Import Prelude Model.Scripts Model.Records Spec.ScriptsSpec.
Import ListNotations.
Local Open Scope string_scope.
Local Open Scope nat_scope.

(** The k-th float of a sequence of bytes. *)
Definition float_at (b : list Z) (k : nat) : f32 :=
  (nth (4 * k) b 0%Z, nth (4 * k + 1) b 0%Z, nth (4 * k + 2) b 0%Z, nth (4 * k + 3) b 0%Z).

(** Record [r] holds sample [s]: as many floats in each feature as two images
    have pixels; the flow is stored as it is, the images are interleaved. *)
Definition holds (n : nat) (r : tfrecord) (s : sample) : Prop :=
  exists target flow, r = Record_ target flow /\ List.length target = 4 * n /\ List.length flow = 4 * n /\
    s_v s = map (float_at flow) (seq 0 n) /\
    s_i0 s = map (fun k => float_at target (2 * k)) (seq 0 (n / 2)) /\
    s_i1 s = map (fun k => float_at target (2 * k + 1)) (seq 0 (n / 2)).

(** The samples of a list of records, in order. *)
Inductive samples (n : nat) : list tfrecord -> list sample -> Prop :=
  | samples_nil : samples n [] []
  | samples_kept : forall r s rs ss, holds n r s -> samples n rs ss -> samples n (r :: rs) (s :: ss)
  | samples_skipped : forall r rs ss, (forall s, ~ holds n r s) -> samples n rs ss -> samples n (r :: rs) ss.

(** Content [s] is found under [k] after the writes [ws]: it was written there
    and nothing was written there later. *)
Definition found {K} (ws : list (K * sample)) (k : K) (s : sample) : Prop :=
  exists before after, ws = (before ++ (k, s) :: after)%list /\ ~ In k (map fst after).

(** Where the samples of a record file belong. *)
Definition belongs (name dir : string) : Prop :=
  occurs "RAFT256" name /\
  ((occurs "Training" name /\ dir = "train") \/
   (~ occurs "Training" name /\ occurs "Validation" name /\ dir = "val") \/
   (~ occurs "Training" name /\ ~ occurs "Validation" name /\ dir = "other")).
