(** Python values, as far as configurations and specifications use them. *)
From Coq Require Import List Arith ZArith QArith String Bool.
From Verif Require Import Prelude.
Import ListNotations.

(** A number: an int or bool (exact), or a float.  A finite float is a
    rational; comparisons between ints and floats are exact in Python. *)
Inductive pynum : Type :=
| NaN
| Inf (negative : bool)
| Fin (q : Q).

Inductive pyval : Type :=
| PNone
| PBool (b : bool)
| PInt (z : Z)
| PFloat (x : pynum)
| PStr (s : string)
| PList (l : list pyval)
| PTuple (l : list pyval)
| PDict (l : list (string * pyval)).

(** [isinstance(v, int)]: bool is a subclass of int. *)
Definition is_int (v : pyval) : bool := match v with PInt _ | PBool _ => true | _ => false end.
(** [isinstance(v, (int, float))] *)
Definition is_number (v : pyval) : bool := match v with PInt _ | PBool _ | PFloat _ => true | _ => false end.

Definition int_of_bool (b : bool) : Z := if b then 1%Z else 0%Z.

(** The number a value stands for in arithmetic and comparisons. *)
Definition num_of (v : pyval) : option pynum :=
  match v with
  | PBool b => Some (Fin (inject_Z (int_of_bool b)))
  | PInt z => Some (Fin (inject_Z z))
  | PFloat x => Some x
  | _ => None
  end.

(** [a < b] and [a <= b] on numbers: false whenever one side is NaN. *)
Definition num_ltb (a b : pynum) : bool :=
  match a, b with
  | NaN, _ | _, NaN => false
  | Inf true, Inf true => false
  | Inf true, _ => true
  | Inf false, _ => false
  | Fin _, Inf n => negb n
  | Fin p, Fin q => negb (Qle_bool q p)
  end.
Definition num_leb (a b : pynum) : bool :=
  match a, b with
  | NaN, _ | _, NaN => false
  | Inf true, _ => true
  | Inf false, Inf false => true
  | Inf false, _ => false
  | Fin _, Inf n => negb n
  | Fin p, Fin q => Qle_bool p q
  end.

(** The operators [<] and [<=]; a comparison that Python does not define
    between the two types raises TypeError.  (Comparisons of strings, lists and
    tuples with each other are defined in Python; they do not occur in the
    modelled code, where one side is always a number.) *)
Definition py_cmp (cmp : pynum -> pynum -> bool) (a b : pyval) : result bool :=
  match num_of a, num_of b with
  | Some x, Some y => Ok (cmp x y)
  | _, _ => Err TypeError
  end.
Definition py_lt := py_cmp num_ltb.
Definition py_le := py_cmp num_leb.

(** [a and b], [all(p(x) for x in l)]: left to right, stopping early. *)
Definition py_and (a : result bool) (b : result bool) : result bool :=
  bind a (fun x => if x then b else Ok false).
Fixpoint py_all {A} (p : A -> result bool) (l : list A) : result bool :=
  match l with
  | [] => Ok true
  | x :: l => py_and (p x) (py_all p l)
  end.

(** [if not c: raise ValueError] *)
Definition require (c : result bool) (k : result unit) : result unit :=
  bind c (fun x => if x then k else Err ValueError).

Definition zero : pyval := PInt 0.
Definition one : pyval := PInt 1.
Definition minus_one : pyval := PInt (-1).
Definition f_zero : pyval := PFloat (Fin 0).
Definition f_one : pyval := PFloat (Fin 1).

(** [d.get(k, default)] *)
Fixpoint dict_get (d : list (string * pyval)) (k : string) (default : pyval) : pyval :=
  match d with
  | [] => default
  | (k', v) :: d => if String.eqb k k' then v else dict_get d k default
  end.
(** [k in d] *)
Definition dict_in (d : list (string * pyval)) (k : string) : bool := existsb (fun p => String.eqb k (fst p)) d.
(** [d[k]] *)
Definition dict_item (d : list (string * pyval)) (k : string) : result pyval :=
  if dict_in d k then Ok (dict_get d k PNone) else Err KeyError.
