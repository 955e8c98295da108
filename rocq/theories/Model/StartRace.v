(** Model of concurrent callers of PrefetchingFlowFieldScheduler._start_worker
    (src/synthpix/scheduler/prefetch.py:131-136): the flag is read, then
    written, then the thread is started, with no lock.  [Thread.start] raises
    RuntimeError when called a second time. *)
From Coq Require Import List Arith Bool.
Import ListNotations.

(** Where a caller is. *)
Inductive spc : Type :=
| SCheck      (* line 133: about to read [_started] *)
| SSaw        (* read False; line 134: about to write True *)
| SSet        (* line 135: about to call [_thread.start()] *)
| SDone       (* returned *)
| SError.     (* RuntimeError: threads can only be started once *)

Record sst : Type := mkS { s_flag : bool; s_starts : nat; s_pc : nat -> spc }.

Definition sinit : sst := mkS false 0 (fun _ => SCheck).

Definition upd (f : nat -> spc) (i : nat) (c : spc) : nat -> spc :=
  fun j => if j =? i then c else f j.

(** Caller [i] makes its next step. *)
Definition sstep (s : sst) (i : nat) : sst :=
  match s_pc s i with
  | SCheck => mkS (s_flag s) (s_starts s) (upd (s_pc s) i (if s_flag s then SDone else SSaw))
  | SSaw => mkS true (s_starts s) (upd (s_pc s) i SSet)
  | SSet => if s_starts s =? 0 then mkS (s_flag s) 1 (upd (s_pc s) i SDone)
            else mkS (s_flag s) (s_starts s) (upd (s_pc s) i SError)
  | SDone | SError => s
  end.

(** The schedule is the list of callers in the order in which they step. *)
Definition srun (l : list nat) : sst := fold_left sstep l sinit.
