(** Model of the conversion of record files (scripts/download_piv_2.py). *)
From Coq Require Import List Arith ZArith String Bool Ascii.
From Verif Require Import Prelude Model.Base Model.Files Model.Scripts.
Import ListNotations.
Local Open Scope string_scope.
Local Open Scope nat_scope.

(** The bytes of a record's two features, empty by default (lines 27-32); a
    record that cannot be parsed is an exception (line 102). *)
Inductive tfrecord : Type := BadRecord | Record_ (target flow : list Z).

(** [np.frombuffer(b, dtype=np.float32)]: ValueError unless the number of bytes
    is a multiple of four. *)
Fixpoint frombuffer (b : list Z) : option (list f32) :=
  match b with
  | [] => Some []
  | b0 :: b1 :: b2 :: b3 :: b => option_map (cons (b0, b1, b2, b3)) (frombuffer b)
  | _ => None
  end.

(** [x[..., c]] of an array of shape (h, w, 2). *)
Fixpoint every_other {A} (c : bool) (l : list A) : list A :=
  match l with
  | a :: b :: l => (if c then b else a) :: every_other c l
  | _ => []
  end.

(** What is stored: V, I0 and I1 (lines 93-96). *)
Record sample : Type := mkSample { s_v : list f32; s_i0 : list f32; s_i1 : list f32 }.

(** The body of the loop up to line 86; [n] is 256 * 256 * 2 in the code. *)
Definition decode (n : nat) (r : tfrecord) : option sample :=
  match r with
  | BadRecord => None
  | Record_ [] _ | Record_ _ [] => None
  | Record_ target flow =>
      match frombuffer target with
      | None => None
      | Some t =>
          if List.length t =? n then
            match frombuffer flow with
            | None => None
            | Some v => if List.length v =? n then Some (mkSample v (every_other false t) (every_other true t)) else None
            end
          else None
      end
  end.

(** [f"sample_{count:05d}.mat"] *)
Fixpoint zeros_ (n : nat) : string := match n with O => "" | S n => String "0" (zeros_ n) end.
Definition sample_file (count : nat) : string :=
  "sample_" ++ zeros_ (5 - String.length (str_of_nat count)) ++ str_of_nat count ++ ".mat".

(** [process_tfrecord], lines 35-106: the files written, in order. *)
Fixpoint process (n count : nat) (rs : list tfrecord) : list (string * sample) :=
  match rs with
  | [] => []
  | r :: rs =>
      match decode n r with
      | Some s => (sample_file count, s) :: process n (S count) rs
      | None => process n count rs
      end
  end.

Definition contains (m s : string) : bool := match before_first m s with Some _ => true | None => false end.

(** The subdirectory of a record file, lines 148-159. *)
Definition subdir (name : string) : option string :=
  if negb (contains "RAFT256" name) then None
  else if contains "Training" name then Some "train"
  else if contains "Validation" name then Some "val"
  else Some "other".

(** The loop of [main], lines 147-161, over the record files in the order of
    [glob]: what is written, in order. *)
Definition process_all (n : nat) (tfrs : list (string * list tfrecord)) : list ((string * string) * sample) :=
  flat_map (fun t => match subdir (fst t) with
                     | None => []
                     | Some d => map (fun w => ((d, fst w), snd w)) (process n 0 (snd t))
                     end) tfrs.
