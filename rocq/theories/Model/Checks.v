(** The argument checks of the package, for arguments of any type:
    input_check_apply_flow (src/synthpix/apply.py:159-215),
    input_check_gen_img_from_flow (src/synthpix/data_generate.py:343-454) and
    input_check_flow_field_adapter (src/synthpix/utils.py:334-448).
    Model/Apply.v and Model/Debug.v have them without their type tests. *)
From Coq Require Import List Arith ZArith QArith String Ascii Bool.
From Verif Require Import Prelude Model.PyVal Model.Types Model.Synthetic.
Import ListNotations.
Local Open Scope string_scope.
Local Open Scope nat_scope.

(** An argument: a Python value, or a [jnp.ndarray] with its shape and (for a
    histogram) the sum of its elements.  Arguments of further types, NumPy arrays
    among them, are not modelled.  The position bounds of the generator are a
    Python value. *)
Inductive arg : Type :=
| Val (v : pyval)
| Jax (sh : list nat) (total : Q).

Definition OverflowError : exn := OtherExn 34.

(** [isinstance(v, (int, float))], [isinstance(v, int)] *)
Definition arg_number (a : arg) : bool := match a with Val v => is_number v | Jax _ _ => false end.
Definition arg_int (a : arg) : bool := match a with Val v => is_int v | Jax _ _ => false end.
(** [v <= 0], [v > 0]; only evaluated when the type test has succeeded. *)
Definition arg_le0 (a : arg) : result bool := match a with Val v => py_le v zero | Jax _ _ => Err TypeError end.
Definition arg_gt0 (a : arg) : result bool := match a with Val v => py_lt zero v | Jax _ _ => Err TypeError end.

(** [if not isinstance(v, (int, float)) or v <= 0: raise ValueError] *)
Definition refuse_le0 (a : arg) (k : result unit) : result unit :=
  if arg_number a then bind (arg_le0 a) (fun b => if b then Err ValueError else k) else Err ValueError.

(** ** input_check_apply_flow, apply.py:183-215 *)
Definition check_apply (pos flow dt rx ry rz : arg) : result unit :=
  (* 183-190 *)
  match pos with
  | Jax [_; k] _ =>
      if negb ((k =? 2) || (k =? 3)) then Err ValueError else
      (* 192-199 *)
      match flow with
      | Jax [_; _; c] _ =>
          if negb ((c =? 2) || (c =? 3)) then Err ValueError else
          (* 201-205 *)
          if (k =? 2) && negb (c =? 2) then Err ValueError else
          if (k =? 3) && negb (c =? 3) then Err ValueError else
          (* 207-208 *)
          if negb (arg_number dt) then Err ValueError else
          (* 210-215 *)
          refuse_le0 rx (refuse_le0 ry (refuse_le0 rz (Ok tt)))
      | _ => Err ValueError
      end
  | _ => Err ValueError
  end.

(** ** input_check_flow_field_adapter, utils.py:371-448 *)

(** [if not isinstance(v, tuple) or len(v) != 2: raise ValueError], then
    [if not all(p(s) for s in v): raise ValueError]. *)
Definition require_tuple2 (p : pyval -> result bool) (a : arg) (k : result unit) : result unit :=
  match a with
  | Val v => require (tuple2 p v) k
  | Jax _ _ => Err ValueError
  end.
Definition positive_number (v : pyval) : result bool := py_and (Ok (is_number v)) (py_lt zero v).
Definition non_negative_int (v : pyval) : result bool := py_and (Ok (is_int v)) (py_le zero v).

Definition check_adapter_args (flow new image off res rx ry pb pbo batch units dt pad : arg) : result unit :=
  (* 371-381 *)
  match flow with
  | Jax [_; _; _; c] _ =>
      if negb (c =? 2) then Err ValueError else
      (* 383-396 *)
      require_tuple2 positive_int new (
      require_tuple2 positive_int image (
      (* 398-401 *)
      require_tuple2 non_negative_number off (
      (* 403-410 *)
      refuse_le0 res (refuse_le0 rx (refuse_le0 ry (
      (* 412-427 *)
      require_tuple2 positive_number pb (
      require_tuple2 non_negative_number pbo (
      (* 429-430 *)
      if arg_int batch then
        bind (arg_le0 batch) (fun b => if b then Err ValueError else
        (* 432-438 *)
        match units with
        | Val (PStr s) =>
            if negb (String.eqb s "pixels" || String.eqb s "measure units per second") then Err ValueError else
            (* 440-441 *)
            refuse_le0 dt (
            (* 443-448 *)
            require_tuple2 non_negative_int pad (Ok tt))
        | _ => Err ValueError
        end)
      else Err ValueError))))))))
  | _ => Err ValueError
  end.

(** ** input_check_gen_img_from_flow, data_generate.py:369-420 *)

(** [len(v)] and [for s in v]; a dictionary is iterated by its keys. *)
Fixpoint letters (s : string) : list pyval :=
  match s with EmptyString => [] | String c s => PStr (String c EmptyString) :: letters s end.
Definition py_seq (v : pyval) : result (list pyval) :=
  match v with
  | PList l | PTuple l => Ok l
  | PStr s => Ok (letters s)
  | PDict d => Ok (map (fun p => PStr (fst p)) d)
  | _ => Err TypeError
  end.

(** Equality of a shape with a tuple, elementwise on ints. *)
Definition same_int (n : nat) (v : pyval) : bool :=
  match v with
  | PInt z => (Z.of_nat n =? z)%Z
  | PBool b => (Z.of_nat n =? int_of_bool b)%Z
  | _ => false
  end.
Definition same_shape (sh : list nat) (v : pyval) : bool :=
  match v with
  | PTuple l => (List.length sh =? List.length l) && forallb (fun p => same_int (fst p) (snd p)) (combine sh l)
  | _ => false
  end.

Section Generate.
(** The sum of an int and a float, rounded (on finite numbers). *)
Variable radd : Q -> Q -> Q.

Definition is_float (v : pyval) : bool := match v with PFloat _ => true | _ => false end.
(** [a + b] on numbers; infinities of opposite signs do not occur here. *)
Definition py_add (a b : pyval) : result pynum :=
  match num_of a, num_of b with
  | Some (Fin p), Some (Fin q) => Ok (Fin (if is_float a || is_float b then radd p q else (p + q)%Q))
  | Some NaN, Some _ | Some _, Some NaN => Ok NaN
  | Some (Inf n), Some _ | Some _, Some (Inf n) => Ok (Inf n)
  | _, _ => Err TypeError
  end.
(** [position_bounds[i] < image_shape[i] + img_offset[i]] *)
Definition too_small (b s o : pyval) : result bool :=
  bind (py_add s o) (fun x => match num_of b with Some y => Ok (num_ltb y x) | None => Err TypeError end).

(** [h * w] of the image shape, as an int. *)
Definition int_value (v : pyval) : Z := match v with PInt z => z | PBool b => int_of_bool b | _ => 0%Z end.

Definition check_generate_args (flow : arg) (s : ispec) (pb : pyval) (rx ry mask hist : arg) : result unit :=
  match i_image_shape s, i_img_offset s, i_seeding_density_range s with
  | PTuple [h; w], PTuple [oy; ox], PTuple [_; dmax] =>
  (* 369-375 *)
  match flow with
  | Jax [_; _; _; c] _ =>
      if negb (c =? 2) then Err ValueError else
      (* 376-381 *)
      bind (py_seq pb) (fun l =>
      if negb (List.length l =? 2) then Err ValueError else
      require (py_all (fun v => py_lt zero v) l) (
      if negb (forallb is_int l) then Err ValueError else
      (* 383-386 *)
      require (if arg_number rx then arg_gt0 rx else Ok false) (
      require (if arg_number ry then arg_gt0 ry else Ok false) (
      (* 387-396 *)
      match l with
      | [b0; b1] =>
          bind (too_small b0 h oy) (fun t => if t then Err ValueError else
          bind (too_small b1 w ox) (fun t => if t then Err ValueError else
          (* 398-403 *)
          require (match mask with
                   | Val PNone => Ok true
                   | Val _ => Ok false
                   | Jax sh _ => Ok (same_shape sh (i_image_shape s))
                   end) (
          (* 404-417 *)
          require (match hist with
                   | Val PNone => Ok true
                   | Val _ => Ok false
                   | Jax sh total =>
                       Ok match sh with
                          | [n] => (n =? 256) && isclose total (inject_Z (int_value h * int_value w))
                          | _ => false
                          end
                   end) (
          (* 419-421: int() of a float; a product too large for a float is not
             modelled.  The rest logs. *)
          match num_of dmax with
          | Some (Fin _) => Ok tt
          | Some (Inf _) => Err OverflowError
          | Some NaN => Err ValueError
          | None => Err TypeError
          end))))
      | _ => Err ValueError
      end))))
  | _ => Err ValueError
  end
  | _, _, _ => Err TypeError
  end.
End Generate.
