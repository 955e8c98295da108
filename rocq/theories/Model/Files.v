(** Paths, directory expansion and the checks made by the constructors of the
    file schedulers. *)
From Coq Require Import List Arith ZArith Ascii String Bool.
From Verif Require Import Prelude Model.Base.
Import ListNotations.
Local Open Scope string_scope.

(** What the code asks of the operating system.  [fs_glob p pattern] is the
    unordered result of [glob.glob(os.path.join(p, pattern), recursive=True)]. *)
Record fs : Type := mkFs {
  fs_isdir : string -> bool;
  fs_isfile : string -> bool;
  fs_glob : string -> string -> list string
}.

(** Python's order on strings (by code point; here: by byte). *)
Fixpoint str_leb (a b : string) : bool :=
  match a, b with
  | EmptyString, _ => true
  | String _ _, EmptyString => false
  | String x a, String y b =>
      if Nat.ltb (nat_of_ascii x) (nat_of_ascii y) then true
      else if Nat.ltb (nat_of_ascii y) (nat_of_ascii x) then false
      else str_leb a b
  end.

(** [sorted(l)]. *)
Fixpoint insert (x : string) (l : list string) : list string :=
  match l with
  | [] => [x]
  | y :: l' => if str_leb x y then x :: l else y :: insert x l'
  end.

Definition sorted (l : list string) : list string := fold_right insert [] l.

(** [a.endswith(b)]. *)
Fixpoint ends_with (a b : string) : bool :=
  String.eqb a b ||
  match a with EmptyString => false | String _ a => ends_with a b end.

(** Directory expansion, src/synthpix/scheduler/base.py:73-81. *)
Definition expand (f : fs) (pattern : string) (fl : list string) : list string :=
  flat_map (fun p => if fs_isdir f p then sorted (fs_glob f p pattern) else [p]) fl.

(** BaseFlowFieldScheduler.__init__, base.py:66-118, on arguments of the right
    types: expansion, non-emptiness and existence checks, initial shuffle.
    (The type checks of the arguments are in Model/Construct.v.) *)
Definition construct_base (f : fs) (pattern : string) (c : cfg) (fl : list string) (k : key)
  : result st :=
  let l := expand f pattern fl in
  match l with
  | [] => Err ValueError
  | _ => if forallb (fs_isfile f) l then Ok (init c l k) else Err ValueError
  end.

(** HDF5FlowFieldScheduler.__init__, src/synthpix/scheduler/hdf5.py:39-41: the
    extension check is on the constructor's argument, not on the expanded list. *)
Definition construct_h5 (f : fs) (c : cfg) (fl : list string) (k : key) : result st :=
  bind (construct_base f "**/*.h5" c fl k) (fun s =>
  if forallb (fun p => ends_with p ".h5") fl then Ok s else Err ValueError).

(** MATFlowFieldScheduler.__init__, src/synthpix/scheduler/mat.py:56-69. *)
Definition construct_mat (f : fs) (c : cfg) (fl : list string) (k : key) : result st :=
  bind (construct_base f "**/*.mat" c fl k) (fun s =>
  if forallb (fun p => ends_with p ".mat") (s_files s) then Ok s else Err ValueError).

(** [os.path.dirname] and [os.path.basename] (posixpath): split after the last
    slash; trailing slashes of the head are removed unless it consists of
    slashes only. *)
Fixpoint split_slash (p : string) : option (string * string) :=
  match p with
  | EmptyString => None
  | String a p' =>
      match split_slash p' with
      | Some (h, t) => Some (String a h, t)
      | None => if Ascii.eqb a "/" then Some ("/", p') else None
      end
  end.

Fixpoint all_slash (p : string) : bool :=
  match p with
  | EmptyString => true
  | String a p => Ascii.eqb a "/" && all_slash p
  end.

Fixpoint rstrip_slash (p : string) : string :=
  match p with
  | EmptyString => EmptyString
  | String a p' => if all_slash p then EmptyString else String a (rstrip_slash p')
  end.

Definition dirname (p : string) : string :=
  match split_slash p with
  | None => ""
  | Some (h, _) => if all_slash h then h else rstrip_slash h
  end.

Definition basename (p : string) : string :=
  match split_slash p with None => p | Some (_, t) => t end.

(** [os.path.join(d, n)] for a relative [n]. *)
Definition path_join (d n : string) : string :=
  match d with
  | EmptyString => n
  | _ => if ends_with d "/" then d ++ n else d ++ "/" ++ n
  end.

(** Decimal notation, [str(z)]. *)
Definition digit_char (d : nat) : ascii := ascii_of_nat (48 + d).

Fixpoint dec_nat (fuel n : nat) (acc : string) : string :=
  match fuel with
  | O => acc
  | S fuel =>
      let acc := String (digit_char (n mod 10)) acc in
      if Nat.ltb n 10 then acc else dec_nat fuel (n / 10) acc
  end.

Definition str_of_nat (n : nat) : string := dec_nat (S n) n "".

Definition str_of_Z (z : Z) : string :=
  match z with
  | Zneg p => "-" ++ str_of_nat (Pos.to_nat p)
  | _ => str_of_nat (Z.to_nat z)
  end.

Definition digit_val (a : ascii) : option nat :=
  let n := nat_of_ascii a in
  if (Nat.leb 48 n) && (Nat.leb n 57) then Some (n - 48) else None.

(** [re.match(r"flow_(\d+)\.npy$", name)] followed by [int(group(1))],
    src/synthpix/scheduler/numpy.py:66-69 and 108-111.  (Simplified: ASCII digits
    only, no newline at the end of the name.) *)
Fixpoint digits_npy (seen : bool) (acc : nat) (s : string) : option nat :=
  match s with
  | EmptyString => None
  | String a s' =>
      match digit_val a with
      | Some d => digits_npy true (10 * acc + d) s'
      | None => if seen && String.eqb s ".npy" then Some acc else None
      end
  end.

Definition flow_number (name : string) : option nat :=
  if prefix "flow_" name then digits_npy false 0 (substring 5 (String.length name) name)
  else None.

(** The two image paths of a flow path, numpy.py:70-72 and 112-116. *)
Definition img_path (p : string) (t : Z) : string :=
  path_join (dirname p) ("img_" ++ str_of_Z t ++ ".jpg").

(** The image checks of NumpyFlowFieldScheduler.__init__, numpy.py:64-77. *)
Fixpoint check_images (f : fs) (fl : list string) : result unit :=
  match fl with
  | [] => Ok tt
  | p :: fl =>
      match flow_number (basename p) with
      | None => Err ValueError
      | Some t =>
          if fs_isfile f (img_path p (Z.of_nat t - 1)) && fs_isfile f (img_path p (Z.of_nat t))
          then check_images f fl
          else Err FileNotFoundError
      end
  end.

(** NumpyFlowFieldScheduler.__init__, numpy.py:54-77. *)
Definition construct_npy (f : fs) (include_images : bool) (c : cfg) (fl : list string) (k : key)
  : result st :=
  bind (construct_base f "flow_*.npy" c fl k) (fun s =>
  if forallb (fun p => ends_with p ".npy") (s_files s) then
    if include_images then bind (check_images f (s_files s)) (fun _ => Ok s) else Ok s
  else Err ValueError).
