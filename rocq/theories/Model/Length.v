(** [len(scheduler)] and [for ... in scheduler]. *)
From Coq Require Import List Arith ZArith String Bool.
From Verif Require Import Prelude Model.Base Model.Episodic Model.Make.
Import ListNotations.
Local Open Scope nat_scope.

(** [__len__]: base.py:125-131, episodic.py:170-176.  The prefetcher
    (prefetch.py) and the protocols it inherits from (protocol.py) define none:
    TypeError. *)
Definition py_len (sch : scheduler) : result nat :=
  match sch with
  | SFile _ _ s => Ok (List.length (s_files s))
  | SEpisodic _ ec _ => Ok (ec_L ec)
  | SPrefetch _ _ _ => Err TypeError
  end.

(** The property [episode_length], episodic.py:178-185 and prefetch.py:308-317:
    a prefetcher has the one of its scheduler, an AttributeError if that has none. *)
Fixpoint episode_length (sch : scheduler) : result nat :=
  match sch with
  | SFile _ _ _ => Err AttributeError
  | SEpisodic _ ec _ => Ok (ec_L ec)
  | SPrefetch _ _ inner => episode_length inner
  end.

(** [iter(scheduler)], the first thing a [for] loop does.  [__iter__] is called
    if there is one (base.py:133-139, episodic.py:114-117); the built-in then
    refuses what it returns because no class defines [__next__]. *)
Definition py_iter_of (sch : scheduler) : result unit * scheduler :=
  match sch with
  | SFile a c s => (Err TypeError, SFile a c s)
  | SEpisodic a ec s => (Err TypeError, SEpisodic a ec (ep_iter s))
  | SPrefetch B N inner => (Err TypeError, SPrefetch B N inner)
  end.

(** [bool(scheduler)], as in [if scheduler:]: false iff there is a length and it
    is zero. *)
Definition py_bool (sch : scheduler) : bool :=
  match py_len sch with Ok n => negb (n =? 0) | Err _ => true end.
