(** Model of BaseFlowFieldScheduler (src/synthpix/scheduler/base.py). *)
From Coq Require Import List Arith String Bool.
From Verif Require Import Prelude.
Import ListNotations.

(** SchedulerData, src/synthpix/types.py:130-138. *)
Record SchedData : Type := mkSD {
  sd_flow : arr;
  sd_im1 : option arr;
  sd_im2 : option arr;
  sd_mask : option (list bool);
  sd_files : option (list string)
}.

(** Outcome of [get_next_slice]: a slice, FileEndedError
    (src/synthpix/scheduler/protocol.py:102-105), or another exception. *)
Inductive slice_res : Type :=
| SItem (d : SchedData)
| SEnded
| SRaise (e : exn).

(** The abstract methods of the class, src/synthpix/scheduler/base.py:291-321:
    [load_file] and [get_next_slice]; the latter reads [_cached_data],
    [_cached_file] and [_slice_idx] only. *)
Record loader : Type := mkLoader {
  load_file : string -> result SchedData;
  get_next_slice : option SchedData -> option string -> nat -> slice_res
}.

(** Constructor arguments that never change after construction. *)
Record cfg : Type := mkCfg {
  c_loader : loader;
  c_rng : rng;
  c_randomize : bool;
  c_loop : bool
}.

(** Instance attributes, base.py:66-118. *)
Record st : Type := mkSt {
  s_files : list string;          (* _file_list *)
  s_index : nat;                  (* index *)
  s_cdata : option SchedData;     (* _cached_data *)
  s_cfile : option string;        (* _cached_file *)
  s_slice : nat;                  (* _slice_idx *)
  s_key : key                     (* key *)
}.

(** The shuffle, base.py:109-114 and 147-152:
    [[file_list[i] for i in permutation(...)]].  The default of [nth] is
    never used when the generator returns a permutation. *)
Definition shuffle (g : rng) (k : key) (fl : list string) : list string :=
  map (fun i => nth i fl EmptyString) (rperm g k (List.length fl)).

(** State at the end of [__init__], base.py:96-118, on the already expanded
    file list (expansion and validation: Model/Files.v). *)
Definition init (c : cfg) (fl : list string) (k : key) : st :=
  if c_randomize c then
    let (k0, k1) := split2 k in
    mkSt (shuffle (c_rng c) k1 fl) 0 None None 0 k0
  else mkSt fl 0 None None 0 k.

(** [reset], base.py:141-152. *)
Definition reset (c : cfg) (s : st) : st :=
  if c_randomize c then
    let (k0, k1) := split2 (s_key s) in
    mkSt (shuffle (c_rng c) k1 (s_files s)) 0 None None 0 k0
  else mkSt (s_files s) 0 None None 0 (s_key s).

(** The [file_list] setter, base.py:41-48: nothing else is touched. *)
Definition set_files (s : st) (fl : list string) : st :=
  mkSt fl (s_index s) (s_cdata s) (s_cfile s) (s_slice s) (s_key s).

Inductive next_res : Type :=
| NItem (d : SchedData)
| NRaise (e : exn)
| NOutOfFuel.

Definition with_index (s : st) (i : nat) : st :=
  mkSt (s_files s) i (s_cdata s) (s_cfile s) (s_slice s) (s_key s).

Definition with_slice (s : st) (i : nat) : st :=
  mkSt (s_files s) (s_index s) (s_cdata s) (s_cfile s) i (s_key s).

Definition with_cache (s : st) (d : option SchedData) (f : option string)
           (i : nat) : st :=
  mkSt (s_files s) (s_index s) d f i (s_key s).

Definition opt_str_eqb (a : option string) (b : string) : bool :=
  match a with Some a => String.eqb a b | None => false end.

(** One iteration of the loop body of [_get_next], base.py:166-192, after the
    wrap-around test.  [inl s'] means [continue] with state [s']. *)
Definition next_body (c : cfg) (s : st) : st + (next_res * st) :=
  match nth_error (s_files s) (s_index s) with
  | None => inr (NRaise IndexError, s)                     (* line 171 *)
  | Some path =>
      let loaded : st + st :=                              (* lines 174-184 *)
        if opt_str_eqb (s_cfile s) path then inr s
        else
          let s0 := with_cache s None None (s_slice s) in  (* lines 175-176 *)
          match load_file (c_loader c) path with
          | Ok d => inr (with_cache s0 (Some d) (Some path) 0)
          | Err _ => inl (with_index s0 (S (s_index s)))
          end in
      match loaded with
      | inl s1 => inl s1
      | inr s1 =>
          match get_next_slice (c_loader c) (s_cdata s1) (s_cfile s1) (s_slice s1) with
          | SItem d => inr (NItem d, with_slice s1 (S (s_slice s1)))
          | SEnded => inl (with_index s1 (S (s_index s1)))
          | SRaise e => inr (NRaise e, s1)
          end
      end
  end.

(** [_get_next], base.py:154-194; [fuel] bounds the number of loop
    iterations. *)
Fixpoint get_next (c : cfg) (fuel : nat) (s : st) : next_res * st :=
  match fuel with
  | 0 => (NOutOfFuel, s)
  | S fuel =>
      if (s_index s <? List.length (s_files s)) || c_loop c then
        let s1 := if List.length (s_files s) <=? s_index s
                  then reset c s else s in
        match next_body c s1 with
        | inl s2 => get_next c fuel s2
        | inr r => r
        end
      else (NRaise StopIteration, s)
  end.

Inductive call_res : Type :=
| CReturn (d : SchedData)
| CRaise (e : exn)
| COutOfFuel.

(** The collection loop of [get_batch], base.py:212-219: StopIteration stops
    collecting, every other exception propagates. *)
Inductive collected : Type :=
| Collected (l : list SchedData)
| CollectRaise (e : exn)
| CollectOutOfFuel.

Fixpoint collect (c : cfg) (fuel n : nat) (acc : list SchedData) (s : st)
  : collected * st :=
  match n with
  | 0 => (Collected acc, s)
  | S n =>
      match get_next c fuel s with
      | (NItem d, s') => collect c fuel n (acc ++ [d]) s'
      | (NRaise StopIteration, s') => (Collected acc, s')
      | (NRaise e, s') => (CollectRaise e, s')
      | (NOutOfFuel, s') => (CollectOutOfFuel, s')
      end
  end.

Fixpoint opt_all {A} (l : list (option A)) : option (list A) :=
  match l with
  | [] => Some []
  | None :: _ => None
  | Some a :: l => match opt_all l with Some l => Some (a :: l) | None => None end
  end.

(** base.py:230-234: stack the images if every element has them. *)
Definition stack_images (l : list (option arr)) : result (option arr) :=
  match opt_all l with
  | Some l => bind (np_stack l) (fun a => Ok (Some a))
  | None => Ok None
  end.

Definition is_some {A} (o : option A) : bool :=
  match o with Some _ => true | None => false end.

(** base.py:238-257. *)
Definition batch_files (n : nat) (batch : list SchedData)
  : result (option (list string)) :=
  if existsb (fun d => is_some (sd_files d)) batch then
    if forallb (fun d => match sd_files d with
                         | Some l => List.length l <=? 1
                         | None => false end) batch
    then
      let per_item :=
        map (fun d => match sd_files d with
                      | Some (f :: _) => f
                      | _ => EmptyString end) batch in
      Ok (Some (per_item ++ repeat EmptyString (n - List.length batch)))
    else Err ValueError
  else Ok None.

Definition pad_opt (k p : nat) (o : option arr) : result (option arr) :=
  match o with
  | Some a => bind (np_pad0 k p a) (fun a => Ok (Some a))
  | None => Ok None
  end.

(** The tail of [get_batch], base.py:224-289, on a batch of collected slices. *)
Definition assemble (loop : bool) (n : nat) (batch : list SchedData)
  : result SchedData :=
  let m := List.length batch in
  let mask := if (m <? n) && negb loop
              then repeat true m ++ repeat false (n - m)
              else repeat true n in
  bind (stack_images (map sd_im1 batch)) (fun im1 =>
  bind (stack_images (map sd_im2 batch)) (fun im2 =>
  bind (np_stack (map sd_flow batch)) (fun flow =>
  bind (batch_files n batch) (fun files =>
  if m <? n then
    bind (np_pad0 4 (n - m) flow) (fun flow =>
    bind (pad_opt 3 (n - m) im1) (fun im1 =>
    bind (pad_opt 3 (n - m) im2) (fun im2 =>
    Ok (mkSD flow im1 im2 (Some mask) files))))
  else Ok (mkSD flow im1 im2 (Some mask) files))))).

(** [get_batch], base.py:196-289, for a non-negative batch size. *)
Definition get_batch (c : cfg) (fuel n : nat) (s : st) : call_res * st :=
  match collect c fuel n [] s with
  | (CollectOutOfFuel, s') => (COutOfFuel, s')
  | (CollectRaise e, s') => (CRaise e, s')
  | (Collected batch, s') =>
      match batch, c_loop c with
      | [], false => (CRaise StopIteration, s')            (* lines 220-222 *)
      | _, _ =>
          let s'' := match batch with [] => reset c s' | _ => s' end in
          match assemble (c_loop c) n batch with
          | Ok d => (CReturn d, s'')
          | Err e => (CRaise e, s'')
          end
      end
  end.

(** A consumer: a sequence of API calls; exceptions are caught and the
    consumer goes on. *)
Inductive op : Type := OGet (n : nat) | OReset.

Inductive obs : Type := ORes (r : call_res) | OUnit.

Definition do_op (c : cfg) (fuel : nat) (o : op) (s : st) : obs * st :=
  match o with
  | OGet n => let (r, s') := get_batch c fuel n s in (ORes r, s')
  | OReset => (OUnit, reset c s)
  end.

Fixpoint run (c : cfg) (fuel : nat) (ops : list op) (s : st) : list obs * st :=
  match ops with
  | [] => ([], s)
  | o :: ops =>
      let (r, s1) := do_op c fuel o s in
      let (rs, s2) := run c fuel ops s1 in
      (r :: rs, s2)
  end.
