(** Model of the configuration check (src/synthpix/sanity.py). *)
From Coq Require Import List Arith ZArith QArith String Bool Ascii.
From Verif Require Import Prelude Model.PyVal Model.Base Model.Files Model.Make.
Import ListNotations.
Local Open Scope string_scope.
Local Open Scope nat_scope.

(** * The speeds *)

(** A numeric HDF5 data set as [np.array] reads it: values in row-major order
    (integers count as the floats they are converted to). *)
Record farr : Type := mkFarr { f_shape : list nat; f_data : list pynum }.

(** The first object of the file in key order, sanity.py:88-97: it cannot be
    opened, there is none (IndexError), it is not a data set, or it is one. *)
Inductive h5num : Type :=
| HFails (e : exn)
| HEmpty
| HGroup
| HArr (a : farr).

(** [data[..., c]]: IndexError if the last axis is too short. *)
Definition channel (c : nat) (a : farr) : result (list pynum) :=
  let n := last (f_shape a) 0 in
  if c <? n then
    Ok (map (fun i => nth (i * n + c) (f_data a) NaN) (seq 0 (size (removelast (f_shape a)))))
  else Err IndexError.

Definition is_nan (x : pynum) : bool := match x with NaN => true | _ => false end.

(** Python's [max(a, b)] and [min(a, b)] on two numbers: the first one unless
    the second one compares as larger (smaller). *)
Definition py_max (a b : pynum) : pynum := if num_ltb a b then b else a.
Definition py_min (a b : pynum) : pynum := if num_ltb b a then b else a.

(** [np.max], [np.min]: ValueError on an empty array, NaN if there is one. *)
Definition np_fold (f : pynum -> pynum -> pynum) (l : list pynum) : result pynum :=
  match l with
  | [] => Err ValueError
  | x :: r => if existsb is_nan l then Ok NaN else Ok (fold_left f r x)
  end.
Definition np_max := np_fold py_max.
Definition np_min := np_fold py_min.

(** The four running values of sanity.py:79-82. *)
Record speeds : Type := mkSpeeds { max_x : pynum; max_y : pynum; min_x : pynum; min_y : pynum }.
Definition speeds0 : speeds := mkSpeeds (Inf true) (Inf true) (Inf false) (Inf false).

(** The body of the loop, sanity.py:85-115. *)
Definition file_speeds (h : h5num) (s : speeds) : result speeds :=
  match h with
  | HFails e => Err e
  | HEmpty => Err IndexError
  | HGroup => Err ValueError
  | HArr a =>
      if (List.length (f_shape a) =? 4) || ((List.length (f_shape a) =? 3) && (last (f_shape a) 0 =? 2)) then
        bind (channel 0 a) (fun xs =>
        bind (channel 1 a) (fun ys =>
        bind (np_max xs) (fun mx =>
        bind (np_max ys) (fun my =>
        bind (np_min xs) (fun nx =>
        bind (np_min ys) (fun ny =>
        Ok (mkSpeeds (py_max (max_x s) mx) (py_max (max_y s) my)
                     (py_min (min_x s) nx) (py_min (min_y s) ny))))))))
      else Err ValueError
  end.

Fixpoint speeds_from (disk : string -> h5num) (fl : list string) (s : speeds) : result speeds :=
  match fl with
  | [] => Ok s
  | p :: fl => bind (file_speeds (disk p) s) (speeds_from disk fl)
  end.

(** [calculate_min_and_max_speeds], sanity.py:65-122. *)
Definition calculate_speeds (disk : string -> h5num) (fl : list string) : result speeds :=
  speeds_from disk fl speeds0.

(** The returned dictionary, sanity.py:117-122. *)
Definition speeds_dict (s : speeds) : list (string * pyval) :=
  [("min_speed_x", PFloat (min_x s)); ("max_speed_x", PFloat (max_x s));
   ("min_speed_y", PFloat (min_y s)); ("max_speed_y", PFloat (max_y s))].

(** * Rewriting the file *)

(** [repr] of floats and of strings. *)
Record pytext : Type := mkPytext { float_text : pynum -> string; quoted : string -> string }.

Fixpoint join (sep : string) (l : list string) : string :=
  match l with
  | [] => ""
  | [x] => x
  | x :: l => x ++ sep ++ join sep l
  end.

(** [repr(v)] *)
Fixpoint py_repr (t : pytext) (v : pyval) : string :=
  match v with
  | PNone => "None"
  | PBool true => "True"
  | PBool false => "False"
  | PInt z => str_of_Z z
  | PFloat x => float_text t x
  | PStr s => quoted t s
  | PList l => "[" ++ join ", " (map (py_repr t) l) ++ "]"
  | PTuple [x] => "(" ++ py_repr t x ++ ",)"
  | PTuple l => "(" ++ join ", " (map (py_repr t) l) ++ ")"
  | PDict d => "{" ++ join ", " (map (fun p => quoted t (fst p) ++ ": " ++ py_repr t (snd p)) d) ++ "}"
  end.
(** [str(v)], and what [f"{v}"] inserts. *)
Definition to_text (t : pytext) (v : pyval) : string := match v with PStr s => s | _ => py_repr t v end.

(** [d[k] = v]: an existing key keeps its place, a new one goes last. *)
Fixpoint dict_set (d : list (string * pyval)) (k : string) (v : pyval) : list (string * pyval) :=
  match d with
  | [] => [(k, v)]
  | (k', v') :: d => if String.eqb k k' then (k', v) :: d else (k', v') :: dict_set d k v
  end.
(** [d.pop(k, _)]: the dictionary that is left. *)
Definition dict_del (d : list (string * pyval)) (k : string) : list (string * pyval) :=
  filter (fun p => negb (String.eqb k (fst p))) d.

Definition newline : string := String (ascii_of_nat 10) "".

(** sanity.py:41-62: the strings written, in order.  The conversion of NumPy
    and JAX values (33-46) is left out: a loaded configuration and the computed
    speeds hold none, on other values it is the identity. *)
Definition updated (d upd : list (string * pyval)) : list (string * pyval) :=
  fold_left (fun d p => dict_set d (fst p) (snd p)) upd d.
Definition written (t : pytext) (d upd : list (string * pyval)) : list string :=
  let d := updated d upd in
  map (fun p => fst p ++ ": " ++ to_text t (snd p) ++ newline) (dict_del d "file_list")
  ++ match dict_get d "file_list" (PList []) with
     | PList (x :: l) => ("file_list:" ++ newline) :: map (fun v => "  - " ++ to_text t v ++ newline) (x :: l)
     | _ => []
     end.

(** The new contents of the file. *)
Definition new_text (t : pytext) (d upd : list (string * pyval)) : string := String.concat "" (written t d upd).

(** What happens to the file: [open(path, "w")] empties it, [write] fills a
    buffer of which any prefix may reach the file at any time, closing writes
    the rest (sanity.py:53-62). *)
Inductive wop : Type := WOpen | WWrite (s : string) | WClose.
Record wstate : Type := mkWs { w_disk : string; w_buf : string; w_todo : list wop }.
Inductive wstep : wstate -> wstate -> Prop :=
| StepOpen : forall d b o, wstep (mkWs d b (WOpen :: o)) (mkWs "" b o)
| StepWrite : forall d b s o, wstep (mkWs d b (WWrite s :: o)) (mkWs d (b ++ s) o)
| StepFlush : forall d b1 b2 o, wstep (mkWs d (b1 ++ b2) o) (mkWs (d ++ b1) b2 o)
| StepClose : forall d b o, wstep (mkWs d b (WClose :: o)) (mkWs (d ++ b) "" o).
Inductive wsteps : wstate -> wstate -> Prop :=
| StepsRefl : forall s, wsteps s s
| StepsCons : forall s1 s2 s3, wstep s1 s2 -> wsteps s2 s3 -> wsteps s1 s3.
Definition rewrite_ops (t : pytext) (d upd : list (string * pyval)) : list wop :=
  WOpen :: map WWrite (written t d upd) ++ [WClose].

(** * The dialogue *)

(** What the check needs from outside: the YAML reader (a configuration that is
    not a dictionary is an error), the files, and [repr]. *)
Record swld : Type := mkSwld {
  sw_load : string -> result (list (string * pyval));
  sw_isfile : string -> bool;
  sw_h5 : string -> h5num;
  sw_text : pytext
}.

(** [input()]: an exception when the input has ended. *)
Definition ask {A} (answers : list string) (k : string -> list string -> result A * string) (disk : string)
  : result A * string :=
  match answers with
  | [] => (Err (OtherExn 2), disk)
  | a :: answers => k a answers
  end.

(** sanity.py:144-150 *)
Fixpoint valid_paths (w : swld) (l : list pyval) : option (list string) :=
  match l with
  | [] => Some []
  | PStr p :: l =>
      if sw_isfile w p && ends_with p ".h5" then option_map (cons p) (valid_paths w l) else None
  | _ => None
  end.

Definition speed_keys : list string := ["max_speed_x"; "max_speed_y"; "min_speed_x"; "min_speed_y"].

(** sanity.py:152-155 *)
Definition missing_speeds (d : list (string * pyval)) : list string :=
  filter (fun k => negb (dict_in d k && is_number (dict_get d k PNone))) speed_keys.

(** [missing_speeds_panel], sanity.py:125-204: the result and the contents of
    the file afterwards.  ([disk] is the contents before; the answers are those
    of the user.) *)
Definition panel (w : swld) (disk : string) (answers : list string) : result (list pyval) * string :=
  match sw_load w disk with
  | Err e => (Err e, disk)
  | Ok d =>
      match dict_get d "file_list" PNone with
      | PList (x :: l) =>
          match valid_paths w (x :: l) with
          | None => (Err ValueError, disk)
          | Some fl =>
              match missing_speeds d with
              | [] => (Ok (map (fun k => dict_get d k PNone) speed_keys), disk)
              | _ =>
                  ask answers (fun choice answers =>
                  if String.eqb choice "1" then
                    match calculate_speeds (sw_h5 w) fl with
                    | Err e => (Err e, disk)
                    | Ok s =>
                        let disk := new_text (sw_text w) d (speeds_dict s) in
                        ask answers (fun advance _ =>
                        if String.eqb advance "y" || String.eqb advance "Y" then
                          (Ok [PFloat (max_x s); PFloat (max_y s); PFloat (min_x s); PFloat (min_y s)], disk)
                        else (Err RuntimeError, disk)) disk
                    end
                  else (Err RuntimeError, disk)) disk
              end
          end
      | _ => (Err ValueError, disk)
      end
  end.

(** [main], sanity.py:207-248, for an existing configuration file: [sys.exit(1)],
    an exception that is not caught, or success. *)
Inductive outcome : Type := Valid | Exit1 | Uncaught (e : exn).
Definition main (sw : swld) (w : world) (disk : string) (answers : list string) : outcome * string :=
  match sw_load sw disk with
  | Err e => (Uncaught e, disk)
  | Ok d =>
      let (r, disk) := panel sw disk answers in
      match r with
      | Err e => (Uncaught e, disk)
      | Ok _ =>
          match bind (dict_item d "file_list") (fun fl =>
                bind (file_scheduler w (mkFattrs H5 false (256, 256)) [("file_list", fl); ("loop", PBool false)]) (fun sch =>
                synthetic_from_config w d sch)) with
          | Ok _ => (Valid, disk)
          | Err _ => (Exit1, disk)
          end
      end
  end.
