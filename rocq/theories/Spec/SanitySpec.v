(** What a user of the configuration check may rely on. *)
From Coq Require Import List Arith ZArith QArith String Bool Ascii.
From Verif Require Import Prelude Model.PyVal Model.Files Model.Sanity.
Import ListNotations.
Local Open Scope string_scope.
Local Open Scope nat_scope.

(** ** Flow files *)

(** A flow file: four axes, at least two components; or three axes, two
    components. *)
Definition flow_shape_ok (sh : list nat) : Prop :=
  (exists a b c n, sh = [a; b; c; n] /\ 2 <= n) \/ (exists a b, sh = [a; b; 2]).

(** Component [c] of some vector of the field: entry [i * n + c] of the data,
    [n] components per vector. *)
Definition component (a : farr) (c : nat) (v : pynum) : Prop :=
  exists i, nth_error (f_data a) (i * last (f_shape a) 0 + c) = Some v.

Definition flow_file (h : h5num) (a : farr) : Prop :=
  h = HArr a /\ flow_shape_ok (f_shape a) /\ f_data a <> [] /\
  List.length (f_data a) = size (f_shape a).

(** [v] is component [c] of one of the files. *)
Definition found (disk : string -> h5num) (fl : list string) (c : nat) (v : pynum) : Prop :=
  exists p a, In p fl /\ disk p = HArr a /\ component a c v.

(** Without NaN: [hi] and [lo] bound all values and are attained. *)
Definition tight_max (values : pynum -> Prop) (hi : pynum) : Prop :=
  values hi /\ forall v, values v -> num_leb v hi = true.
Definition tight_min (values : pynum -> Prop) (lo : pynum) : Prop :=
  values lo /\ forall v, values v -> num_leb lo v = true.

(** Component [c] of the file holds no NaN. *)
Definition clean (disk : string -> h5num) (c : nat) (p : string) : Prop :=
  forall a, disk p = HArr a -> ~ component a c NaN.

(** ** Reading a configuration back *)

(** The lines of a text. *)
Fixpoint lines (s : string) : list string :=
  match s with
  | "" => []
  | String a s =>
      if Ascii.eqb a (ascii_of_nat 10) then "" :: lines s
      else match lines s with [] => [String a ""] | l :: r => String a l :: r end
  end.

(** The forms of a line in the subset of YAML concerned: [key: scalar], [key:]
    before the items of a list, and such an item. *)
Inductive line : Type := LEntry (k text : string) | LHead (k : string) | LItem (text : string) | LBad.

(** Around the first ": ". *)
Fixpoint cut_sep (s : string) : option (string * string) :=
  match s with
  | "" => None
  | String a r =>
      match prefix ": " s with
      | true => match r with String _ r => Some ("", r) | "" => None end
      | false => match cut_sep r with Some (k, t) => Some (String a k, t) | None => None end
      end
  end.
(** Without a final ":". *)
Fixpoint cut_colon (s : string) : option string :=
  match s with
  | "" => None
  | String a "" => if Ascii.eqb a ":" then Some "" else None
  | String a r => option_map (String a) (cut_colon r)
  end.
Definition line_of (s : string) : line :=
  if prefix "  - " s then LItem (substring 4 (String.length s - 4) s)
  else match cut_sep s with
       | Some (k, t) => LEntry k t
       | None => match cut_colon s with Some k => LHead k | None => LBad end
       end.

(** The configuration a list of lines stands for, given the reader of scalars
    and flow sequences, and the items before the first entry. *)
Fixpoint entries (rd : string -> pyval) (l : list string) : option (list pyval * list (string * pyval)) :=
  match l with
  | [] => Some ([], [])
  | s :: l =>
      match entries rd l, line_of s with
      | Some (items, d), LItem t => Some (rd t :: items, d)
      | Some (items, d), LHead k => Some ([], (k, match items with [] => PNone | _ => PList items end) :: d)
      | Some ([], d), LEntry k t => Some ([], (k, rd t) :: d)
      | _, _ => None
      end
  end.
Definition yaml_read (rd : string -> pyval) (text : string) : option (list (string * pyval)) :=
  match entries rd (lines text) with Some ([], d) => Some d | _ => None end.

(** ** The expected configuration *)

Definition has_key (k : string) (d : list (string * pyval)) : Prop := In k (map fst d).
Definition absent (d : list (string * pyval)) (k : string) : bool := negb (existsb (String.eqb k) (map fst d)).
(** The value of a key, if any. *)
Fixpoint value_of (k : string) (d : list (string * pyval)) : option pyval :=
  match d with
  | [] => None
  | (k', v) :: d => if String.eqb k k' then Some v else value_of k d
  end.
Definition or_else {A} (a b : option A) : option A := match a with Some x => Some x | None => b end.

(** Text that stays on its line. *)
Definition one_line (s : string) : Prop := forall i, String.get i s <> Some (ascii_of_nat 10).
(** A key that is read back as written: no ": ", no line break, not an item. *)
Definition plain_key (k : string) : Prop := one_line k /\ cut_sep k = None /\ prefix "  - " k = false.
(** A value that is read back as written. *)
Definition read_back (rd : string -> pyval) (t : pytext) (v : pyval) : Prop :=
  one_line (to_text t v) /\ rd (to_text t v) = v.

(** What the file shows during the rewriting, whenever the process stops. *)
Definition shows (t : pytext) (old : string) (d upd : list (string * pyval)) (disk : string) : Prop :=
  exists buf todo, wsteps (mkWs old "" (rewrite_ops t d upd)) (mkWs disk buf todo).

(** ** The dialogue *)

(** One of the four speeds is not given as a number. *)
Definition speed_missing (d : list (string * pyval)) : Prop :=
  exists k, In k ["max_speed_x"; "max_speed_y"; "min_speed_x"; "min_speed_y"] /\
    forall v, value_of k d = Some v -> is_number v = false.

(** A configuration that survives being rewritten with the speeds [s]. *)
Definition rewritable (rd : string -> pyval) (t : pytext) (d : list (string * pyval)) (s : speeds) : Prop :=
  NoDup (map fst d) /\
  (forall k, has_key k d -> plain_key k) /\
  (forall k v, value_of k d = Some v -> k <> "file_list" ->
     ~ In k ["max_speed_x"; "max_speed_y"; "min_speed_x"; "min_speed_y"] -> read_back rd t v) /\
  (forall l v, value_of "file_list" d = Some (PList l) -> In v l -> read_back rd t v) /\
  (forall x, In x [max_x s; max_y s; min_x s; min_y s] -> read_back rd t (PFloat x)).

(** The files of the configuration are acceptable. *)
Definition listed_files (w : swld) (d : list (string * pyval)) (fl : list string) : Prop :=
  value_of "file_list" d = Some (PList (map PStr fl)) /\ fl <> [] /\
  forall p, In p fl -> sw_isfile w p = true /\ ends_with p ".h5" = true.

(** The YAML reader agrees with [yaml_read] on the texts written. *)
Definition reads_yaml (w : swld) (rd : string -> pyval) : Prop :=
  forall d upd d', yaml_read rd (new_text (sw_text w) d upd) = Some d' ->
    sw_load w (new_text (sw_text w) d upd) = Ok d'.
