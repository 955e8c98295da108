(** Vocabulary for histograms. *)
From Coq Require Import List ZArith QArith Qround.
From Verif Require Import Prelude Model.Interp Spec.InterpSpec Spec.RenderSpec.
Import ListNotations.
Local Open Scope Q_scope.

(** All pixel coordinates, and the number of pixels whose value satisfies a test. *)
Definition coordinates (im : image) : list (Z * Z) :=
  list_prod (map Z.of_nat (seq 0 (Z.to_nat (rows im)))) (map Z.of_nat (seq 0 (Z.to_nat (cols im)))).
Definition count (im : image) (test : Q -> bool) : Q :=
  inject_Z (Z.of_nat (List.length (filter (fun rc => test (at_ im (fst rc) (snd rc))) (coordinates im)))).

(** Number of pixels of value less than [k] + 1, i.e. of level at most [k]. *)
Definition up_to (im : image) (k : Z) : Q := count im (fun x => negb (Qle_bool (inject_Z (k + 1)) x)).
Definition all_pixels (im : image) : Q := inject_Z (rows im) * inject_Z (cols im).

(** Fraction of pixels of level at most [k], and the fraction wanted by [h]. *)
Definition share (im : image) (k : Z) : Q := up_to im k / all_pixels im.
Definition wanted (h : list Q) (k : Z) : Q := sum (firstn (Z.to_nat (k + 1)) h) / sum h.

Definition target (h : list Q) : Prop := List.length h = 256%nat /\ (forall x, In x h -> 0 <= x) /\ 0 < sum h.

(** [h] is [a] times the histogram of [im]. *)
Definition own_histogram (a : Q) (im : image) (h : list Q) : Prop :=
  List.length h = 256%nat /\
  forall k, (0 <= k < 256)%Z -> nth (Z.to_nat k) h 0 == a * count im (fun x => Qeq_bool x (inject_Z k)).
