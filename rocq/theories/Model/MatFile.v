(** The contents of .mat files and the dictionaries that load_file makes of
    them, src/synthpix/scheduler/mat.py:80-127.  Model/Loaders.v takes these
    dictionaries as given ([mat_disk]); here they come from the files. *)
From Coq Require Import List Arith String Bool QArith.
From Verif Require Import Prelude Model.Base Model.Files Model.Loaders.
Import ListNotations.
Local Open Scope string_scope.
Local Open Scope nat_scope.

(** A member of an HDF5 group: a dataset ([item[()]]) or a group.  Other kinds
    of members (named types, dangling links) are not modelled. *)
Inductive h5item : Type :=
| HData (v : mat_val)
| HGroup (items : list (string * h5item)).

(** [d[k] = v] of a Python dictionary. *)
Fixpoint put {A} (d : list (string * A)) (k : string) (v : A) : list (string * A) :=
  match d with
  | [] => [(k, v)]
  | (k', v') :: d => if String.eqb k k' then (k, v) :: d else (k', v') :: put d k v
  end.

(** [d.update(e)]. *)
Definition merge {A} (d e : list (string * A)) : list (string * A) :=
  fold_left (fun d p => put d (fst p) (snd p)) e d.

(** [f"{prefix}/{name}" if prefix else name], mat.py:106. *)
Definition child (pre name : string) : string :=
  if String.eqb pre "" then name else pre ++ "/" ++ name.

(** recursively_load_hdf5_group, mat.py:102-111: the loop over the members of a
    group collects a dataset under its path and the dictionary of a subgroup. *)
Fixpoint item_dict (path : string) (i : h5item) : mat_dict :=
  match i with
  | HData v => [(path, v)]
  | HGroup items =>
      (fix go (out : mat_dict) (items : list (string * h5item)) : mat_dict :=
         match items with
         | [] => out
         | (n, i) :: items => go (merge out (item_dict (child path n) i)) items
         end) [] items
  end.

Definition h5_dict (root : list (string * h5item)) : mat_dict := item_dict "" (HGroup root).

(** What [scipy.io.loadmat] does to a stored value under [squeeze_me=True]
    (mat.py:118-122): empty arrays become empty vectors, axes of length one are
    dropped, an array of one element becomes a Python scalar. *)
Definition squeeze (v : mat_val) : mat_val :=
  match v with
  | MOther => MOther
  | MArr a =>
      if size (shape a) =? 0 then MArr (mkArr [0] [])
      else match filter (fun n => negb (n =? 1)) (shape a) with
           | [] => MOther
           | s => MArr (mkArr s (data a))
           end
  end.

(** [{k: v for k, v in mat.items() if not k.startswith("__")}], mat.py:124; the
    entries SciPy adds come first. *)
Definition legacy_dict (vars : list (string * mat_val)) : mat_dict :=
  filter (fun p => negb (prefix "__" (fst p)))
    ([("__header__", MOther); ("__version__", MOther); ("__globals__", MOther)] ++
     map (fun p => (fst p, squeeze (snd p))) vars)%list.

(** A file: MATLAB v4-v7.2 with its variables, HDF5 (v7.3, or written by h5py)
    with its root group, or something that SciPy refuses with [e] and that is
    not HDF5. *)
Inductive mat_file : Type :=
| Legacy (vars : list (string * mat_val))
| Hdf5 (root : list (string * h5item))
| Neither (e : exn).

(** The readers, mat.py:80-89 and 113-131: SciPy raises NotImplementedError for
    v7.3 and ValueError for other HDF5 files ([user] tells them apart: the
    userblock that marks v7.3); h5py's [is_hdf5] recognises both. *)
Definition disk_of (user : string -> bool) (f : string -> mat_file) : mat_disk :=
  mkMat
    (fun p => match f p with
              | Legacy vars => Ok (legacy_dict vars)
              | Hdf5 _ => Err (if user p then NotImplementedError else ValueError)
              | Neither e => Err e
              end)
    (fun p => match f p with Hdf5 _ => true | _ => false end)
    (fun p => match f p with Hdf5 root => Ok (h5_dict root) | _ => Err (OtherExn 0) end).
