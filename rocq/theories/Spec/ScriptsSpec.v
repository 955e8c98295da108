(** Vocabulary for the dataset preparation: lists in text files, names,
    displacement fields. *)
From Coq Require Import List Arith ZArith QArith String Bool Ascii.
From Verif Require Import Prelude Model.Base Model.Loaders Spec.LoaderSpec.
Import ListNotations.
Local Open Scope string_scope.
Local Open Scope nat_scope.

(** The character [a] occurs in [s]. *)
Fixpoint mem (a : ascii) (s : string) : Prop :=
  match s with
  | "" => False
  | String b s => a = b \/ mem a s
  end.

Definition blank (a : ascii) : Prop := In (nat_of_ascii a) [9; 10; 11; 12; 13; 28; 29; 30; 31; 32].
Definition line_feed : ascii := ascii_of_nat 10.

(** Blank text within a line. *)
Definition padding (s : string) : Prop := forall a, mem a s -> blank a /\ a <> line_feed.
(** An item: neither its first nor its last character is blank, and it fits on a
    line. *)
Definition item (s : string) : Prop :=
  (forall a r, s = String a r -> ~ blank a) /\ (forall r a, s = r ++ String a "" -> ~ blank a) /\ ~ mem line_feed s.

(** A text of lines with an item each (possibly the empty one), padded. *)
Definition padded_lines (l : list (string * string * string)) : string :=
  String.concat "" (map (fun x => fst (fst x) ++ snd (fst x) ++ snd x ++ String line_feed "") l).

(** A word: no blank. *)
Definition word (s : string) : Prop := forall a, mem a s -> ~ blank a.
(** What follows the first word of a line. *)
Definition columns (s : string) : Prop := s = "" \/ exists a r, s = String a r /\ blank a.
(** A directory to be put in front of a name. *)
Definition directory (s : string) : Prop := s = "" \/ exists d, s = d ++ "/".

Definition occurs (m s : string) : Prop := exists a b, s = a ++ m ++ b.
Definition marker (m : string) : Prop := m = "_img1" \/ m = "_img2" \/ m = "_flow".
(** The name of a sample: it contains none of the markers. *)
Definition sample_name (s : string) : Prop := forall m, marker m -> ~ occurs m s.

(** The little-endian bytes of an integer from 0 to 2^31 - 1. *)
Definition le_bytes (z : Z) : list Z :=
  [z mod 256; z / 256 mod 256; z / 65536 mod 256; z / 16777216]%Z.

(** The bytes of a .flo file. *)
Definition flo_file (h w : nat) (vectors : list (Z * Z * Z * Z)) : list Z :=
  ([80; 73; 69; 72] ++ le_bytes (Z.of_nat w) ++ le_bytes (Z.of_nat h) ++
   flat_map (fun v => let '(a, b, c, d) := v in [a; b; c; d]) vectors)%Z%list.

(** The uniform field of displacement (u, v). *)
Definition uniform (h w : nat) (u v : Q) (a : arr) : Prop :=
  wf_arr a /\ shape a = [h; w; 2] /\
  forall i j, i < h -> j < w -> (elt a [i; j; 0]%nat == u)%Q /\ (elt a [i; j; 1]%nat == v)%Q.

(** Resizing succeeds on two-axis arrays, gives the requested shape, and keeps a
    constant image constant. *)
Definition pil_constant (r : pil) : Prop :=
  forall a h w h' w' c, wf_arr a -> shape a = [h; w] -> 0 < h -> 0 < w -> 0 < h' -> 0 < w' ->
    (forall x, In x (data a) -> (x == c)%Q) ->
    exists b, r a w' h' = Ok b /\ wf_arr b /\ shape b = [h'; w'] /\ forall x, In x (data b) -> (x == c)%Q.
