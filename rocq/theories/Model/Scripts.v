(** Model of the dataset preparation script (scripts/download_piv_1.py and
    scripts/utils.py): lists, splits, conversion. *)
From Coq Require Import List Arith ZArith QArith String Bool Ascii.
From Verif Require Import Prelude Model.Base Model.Files Model.Loaders.
Import ListNotations.
Local Open Scope string_scope.
Local Open Scope nat_scope.

(** * Texts *)

(** [str.isspace] of an ASCII character. *)
Definition is_space (a : ascii) : bool :=
  let n := nat_of_ascii a in
  ((9 <=? n) && (n <=? 13)) || ((28 <=? n) && (n <=? 32)).

Fixpoint lstrip (s : string) : string :=
  match s with
  | "" => ""
  | String a r => if is_space a then lstrip r else s
  end.
Fixpoint rstrip (s : string) : string :=
  match s with
  | "" => ""
  | String a r => match rstrip r with
                  | "" => if is_space a then "" else String a ""
                  | r => String a r
                  end
  end.
(** [s.strip()] *)
Definition strip (s : string) : string := rstrip (lstrip s).

(** Iteration over a text file: the lines without the line feed (a lone
    carriage return, which Python also takes for a line break, is left out). *)
Fixpoint text_lines (s : string) : list string :=
  match s with
  | "" => []
  | String a r =>
      if Ascii.eqb a (ascii_of_nat 10) then "" :: text_lines r
      else match text_lines r with
           | [] => [String a ""]
           | l :: ls => String a l :: ls
           end
  end.

Definition nonempty (s : string) : bool := negb (String.eqb s "").

(** [read_list], scripts/utils.py:30-40. *)
Definition read_list (text : string) : list string := filter nonempty (map strip (text_lines text)).

(** [write_list], scripts/utils.py:43-52: the text written. *)
Definition write_list (items : list string) : string :=
  String.concat "" (map (fun i => i ++ String (ascii_of_nat 10) "") items).

(** * Splits *)

(** A bound of a Python slice, for a list of length [n]. *)
Definition slice_bound (n : nat) (i : Z) : nat :=
  if (i <? 0)%Z then Z.to_nat (Z.max 0 (Z.of_nat n + i)) else Nat.min n (Z.to_nat i).
(** [l[a:b]] *)
Definition pyslice {A} (l : list A) (a b : Z) : list A :=
  let a := slice_bound (List.length l) a in
  let b := slice_bound (List.length l) b in
  firstn (b - a) (skipn a l).

(** [int(total * r / 100)]: truncation of the quotient.  (The quotient is a
    float; Proofs/ScriptsFloat.v shows that rounding it does not change the result
    below 2^52.) *)
Definition percent (total : nat) (r : Z) : Z := Z.quot (Z.of_nat total * r) 100.

(** download_piv_1.py:114-120, for the shuffled list: train, val, tune. *)
Definition split_lists (l : list string) (r1 r2 : Z) : list string * list string * list string :=
  let total := List.length l in
  let n_val := percent total r1 in
  let n_tune := percent total r2 in
  let n_train := (Z.of_nat total - n_val - n_tune)%Z in
  (pyslice l 0 n_train, pyslice l n_train (n_train + n_val), pyslice l (n_train + n_val) (Z.of_nat total)).

(** The four files of the directory with the splits. *)
Record split_files : Type := mkSplits { f_train : option string; f_val : option string; f_test : option string; f_tune : option string }.

(** [fetch_splits], download_piv_1.py:81-134: the downloads give the text of
    the lists or fail, [shuffle] is [random.shuffle] after [random.seed].  (A
    failed download is taken to leave the file as it was.) *)
Definition fetch_splits (train test : option string) (shuffle : list string -> list string) (ratios : list Z) (old : split_files)
  : result split_files :=
  match train with
  | None => Ok old
  | Some train =>
      let test := match test with Some t => Some t | None => f_test old end in
      let l := shuffle (read_list train) in
      match ratios with
      | _ :: r1 :: r2 :: _ =>
          let '(tr, va, tu) := split_lists l r1 r2 in
          Ok (mkSplits (Some (write_list tr)) (Some (write_list va)) test (Some (write_list tu)))
      | _ => Err IndexError
      end
  end.

(** download_piv_1.py:494-496 *)
Definition ratios_ok (ratios : list Z) : bool :=
  (List.length ratios =? 3) && (fold_right Z.add 0 ratios =? 100)%Z.

(** ** Names *)

(** [s.split(m)[0]] if [m] occurs in [s]. *)
Fixpoint before_first (m s : string) : option string :=
  if prefix m s then Some ""
  else match s with
       | "" => None
       | String a r => option_map (String a) (before_first m r)
       end.
(** [s.rsplit(m, 1)[0]] if [m] occurs in [s]. *)
Fixpoint before_last (m s : string) : option string :=
  match s with
  | "" => if prefix m s then Some "" else None
  | String a r =>
      match before_last m r with
      | Some p => Some (String a p)
      | None => if prefix m s then Some "" else None
      end
  end.

(** The components of a path, as pathlib keeps them. *)
Fixpoint components (s : string) : list string :=
  match s with
  | "" => [""]
  | String a r =>
      if Ascii.eqb a "/" then "" :: components r
      else match components r with
           | [] => [String a ""]
           | c :: cs => String a c :: cs
           end
  end.
(** [Path(s).name] *)
Definition path_name (s : string) : string :=
  last (filter (fun c => nonempty c && negb (String.eqb c ".")) (components s)) "".
(** [Path(s).stem], from the name: without the last suffix, if there is one and
    it is not the whole name. *)
Definition name_stem (n : string) : string :=
  match before_last "." n with
  | Some "" | None => n
  | Some p => if String.eqb n (p ++ ".") then n else p
  end.

(** [line.split()[0]] of a stripped line. *)
Fixpoint first_token (s : string) : string :=
  match s with
  | "" => ""
  | String a r => if is_space a then "" else String a (first_token r)
  end.

(** download_piv_1.py:346-362 *)
Definition canonical (line : string) : string :=
  let n := path_name (first_token line) in
  match before_first "_img1" n with
  | Some c => c
  | None =>
      match before_first "_img2" n with
      | Some c => c
      | None =>
          match before_first "_flow" n with
          | Some c => c
          | None => name_stem n
          end
      end
  end ++ ".mat".

(** [load_split_file], download_piv_1.py:329-363 (as a list; the code makes a
    set of it). *)
Definition load_split (text : string) : list string := map canonical (read_list text).

(** ** Distribution *)

(** A packed file: the components of its directory below the root, its name. *)
Definition packed : Type := list string * string.

(** [\d] of an ASCII character, and the rest after the digits. *)
Definition is_digit (a : ascii) : bool := let n := nat_of_ascii a in (48 <=? n) && (n <=? 57).
Fixpoint digits (s : string) : string * string :=
  match s with
  | "" => ("", "")
  | String a r => if is_digit a then let (d, t) := digits r in (String a d, t) else ("", s)
  end.
(** A match of [_(Re\d+)_] at the beginning: its group. *)
Definition match_re (s : string) : option string :=
  match s with
  | String "_" (String "R" (String "e" r)) =>
      match digits r with
      | (String a d, String "_" _) => Some ("Re" ++ String a d)
      | _ => None
      end
  | _ => None
  end.
(** [re.search(r"_(Re\d+)_", s)]: the leftmost one. *)
Fixpoint search_re (s : string) : option string :=
  match match_re s with
  | Some g => Some g
  | None => match s with "" => None | String _ r => search_re r end
  end.

(** The path of the copy below [split_root], download_piv_1.py:405-418. *)
Definition target (s : string) (f : packed) : list string :=
  (s :: fst f ++ match search_re (snd f) with Some g => [g] | None => [] end ++ [snd f])%list.

Definition in_list (x : string) (l : list string) : bool := existsb (String.eqb x) l.

(** [perform_split], download_piv_1.py:366-422: the copies made, in order, with
    [files] in the order of [rglob]. *)
Definition perform_split (sf : split_files) (files : list packed) : result (list (packed * list string)) :=
  match f_train sf, f_val sf, f_test sf, f_tune sf with
  | Some tr, Some va, Some te, Some tu =>
      let lists := [("train", load_split tr); ("val", load_split va); ("test", load_split te); ("tune", load_split tu)] in
      Ok (flat_map (fun f => map (fun s => (f, target (fst s) f)) (filter (fun s => in_list (snd f) (snd s)) lists)) files)
  | _, _, _, _ => Err FileNotFoundError
  end.

(** * Conversion *)

(** ** .flo files *)

(** Bytes are integers from 0 to 255; a float32 is kept as its four bytes. *)
Definition u32 (b0 b1 b2 b3 : Z) : Z := (b0 + 256 * (b1 + 256 * (b2 + 256 * b3)))%Z.
(** [struct.unpack("i", b)[0]], little endian *)
Definition i32 (b0 b1 b2 b3 : Z) : Z :=
  let u := u32 b0 b1 b2 b3 in if (u <? 2147483648)%Z then u else (u - 4294967296)%Z.
Definition f32 : Type := (Z * Z * Z * Z)%type.
(** [np.fromfile(f, np.float32, count)]: as many as there are, at most [count]. *)
Fixpoint floats (count : nat) (b : list Z) : list f32 :=
  match count, b with
  | S c, b0 :: b1 :: b2 :: b3 :: b => (b0, b1, b2, b3) :: floats c b
  | _, _ => []
  end.

(** The same for any [count]: a negative one means everything. *)
Definition fromfile (count : Z) (b : list Z) : list f32 :=
  if (count <? 0)%Z then floats (List.length b) b else floats (Z.to_nat count) b.

(** [np.reshape(data, (height, width, 2))] for [n] elements: one negative size
    (whichever the value) stands for the one that fits. *)
Definition flo_shape (height width : Z) (n : nat) : result (nat * nat) :=
  let fit known := (negb (known =? 0)) && (n mod known =? 0) in
  if (height <? 0)%Z then
    if (width <? 0)%Z then Err ValueError
    else let known := 2 * Z.to_nat width in
         if fit known then Ok (n / known, Z.to_nat width) else Err ValueError
  else if (width <? 0)%Z then
    let known := 2 * Z.to_nat height in
    if fit known then Ok (Z.to_nat height, n / known) else Err ValueError
  else if n =? 2 * Z.to_nat width * Z.to_nat height then Ok (Z.to_nat height, Z.to_nat width)
  else Err ValueError.

(** [read_flow] for a .flo file, download_piv_1.py:146-155: height, width, and
    the vectors in row-major order.  ([OtherExn 3]: a plain Exception, [OtherExn
    4]: struct.error.) *)
Definition read_flo (bytes : list Z) : result (nat * nat * list f32) :=
  if list_eq_dec Z.eq_dec (firstn 4 bytes) [80; 73; 69; 72]%Z then
    match skipn 4 bytes with
    | a0 :: a1 :: a2 :: a3 :: b0 :: b1 :: b2 :: b3 :: body =>
        let width := i32 a0 a1 a2 a3 in
        let height := i32 b0 b1 b2 b3 in
        let data := fromfile (2 * width * height) body in
        match flo_shape height width (List.length data) with
        | Ok (h, w) => Ok (h, w, data)
        | Err e => Err e
        end
    | _ => Err (OtherExn 4)
    end
  else Err (OtherExn 3).

(** ** Flows *)

(** [read_flow] for a .mat file, download_piv_1.py:159-168. *)
Fixpoint read_flow_keys (d : mat_dict) (keys : list string) : result arr :=
  match keys with
  | [] => Err ValueError
  | k :: keys =>
      match lookup k d with
      | Some (MArr a) =>
          match shape a with
          | [x; _; z] => if z =? 2 then Ok a else if x =? 2 then transpose_120 a else read_flow_keys d keys
          | _ => read_flow_keys d keys
          end
      | Some MOther => Err AttributeError
      | None => read_flow_keys d keys
      end
  end.
Definition read_flow_mat (d : mat_dict) : result arr := read_flow_keys d ["V"; "flow"; "u"; "uv"; "F"].

(** [resize_flow], download_piv_1.py:188-214, on an array with two axes or more. *)
Definition resize_flow (r : pil) (flow : arr) (th tw : nat) : result arr :=
  if head2_is (shape flow) th tw then Ok flow
  else
    let h := nth 0 (shape flow) 0 in
    let w := nth 1 (shape flow) 0 in
    bind (last_index flow 0) (fun u0 =>
    bind (r u0 tw th) (fun u =>
    bind (last_index flow 1) (fun v0 =>
    bind (r v0 tw th) (fun v =>
    if (h =? 0) || (w =? 0) then Err ZeroDivisionError
    else stack_last (scale (qratio tw w) u) (scale (qratio th h) v))))).

(** [pack_triplet], download_piv_1.py:217-238: the packed file; the images keep
    their size. *)
Definition pack (r : pil) (flow i0 i1 : arr) (th tw : nat) : result mat_dict :=
  bind (resize_flow r flow th tw) (fun v => Ok [("V", MArr v); ("I0", MArr i0); ("I1", MArr i1)]).

(** ** Which files are packed *)

(** A raw file: its directory below the root and its name. *)
Definition raw : Type := list string * string.

(** The loop of [convert], download_piv_1.py:252-270, over the sorted matches of
    *_flow.* ([flows]); [ok] tells whether packing succeeds.  Result: for each file
    written, in order, its path and the flow and images it is made of.  (The code
    cuts the path at its last "_flow", which is in the file name.) *)
Fixpoint convert (exists_ : raw -> bool) (ok : raw -> raw -> raw -> bool) (flows : list raw)
  : list (packed * (raw * raw * raw)) :=
  match flows with
  | [] => []
  | (d, n) :: flows =>
      match before_last "_flow" n with
      | None => convert exists_ ok flows
      | Some p =>
          let i1 := (d, p ++ "_img1.tif") in
          let i2 := (d, p ++ "_img2.tif") in
          if exists_ i1 && exists_ i2 && ok (d, n) i1 i2
          then ((d, p ++ ".mat"), ((d, n), i1, i2)) :: convert exists_ ok flows
          else convert exists_ ok flows
      end
  end.
