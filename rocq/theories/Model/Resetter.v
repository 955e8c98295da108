(** Another thread calls [reset] of a PrefetchingFlowFieldScheduler
    (src/synthpix/scheduler/prefetch.py:188-217), any number of times, while any
    number of threads are inside [get_batch] (Model/Readers.v).

    [reset] is not protected by a lock and is modelled assignment by assignment.
    It replaces the queue object: a reader that waits keeps waiting on the object it
    evaluated [self._queue] to (lines 106-109).  Nobody puts anything into a
    replaced queue, which was emptied before; a reader waiting on it can only time
    out.

    Simplification: a thread that was never started and is started by a reader
    between lines 202 and 216 would run beside the thread of line 216; executions
    in which this happens are not followed further.  The flag [startup] only selects
    a timeout and is left out. *)
From Coq Require Import List Arith Bool.
From Verif Require Import Model.Prefetch Model.Readers.
Import ListNotations.
Local Open Scope nat_scope.

Section Resetter.
Variable sc : sched.
Variables B N : nat.

(** Where the thread that calls [reset] is. *)
Inductive gpc : Type :=
| GIdle                 (* between calls *)
| GPoll                 (* line 196 *)
| GJoin                 (* lines 201-202 *)
| GClear                (* lines 205-206 *)
| GSched                (* line 211 *)
| GCount                (* line 212 *)
| GFlag                 (* line 213 *)
| GUnset                 (* line 214 *)
| GQueue                (* line 215 *)
| GThread.              (* line 216 *)

(** [g_old i]: the queue object on which reader [i] waits has been replaced. *)
Record gst : Type := mkG { g_r : rst sc; g_pc : gpc; g_old : nat -> bool }.

Definition ginit (u : sc_state sc) : gst := mkG (rinit sc u) GIdle (fun _ => false).

Inductive gevent : Type :=
| GEv (e : revent sc)          (* of the readers and the background thread *)
| GPolled (x : item sc)        (* removed by reset, line 196 *)
| GCleared (q : list (item sc))(* removed by reset, line 206 *)
| GWas (v : sc_state sc)       (* the wrapped scheduler, in this state, was reset *)
| GReturned.                   (* reset returned *)

Inductive glabel : Type :=
| GR (l : rlabel)              (* a step of a reader or of the background thread *)
| GCall                        (* reset is called *)
| GStep                        (* the next step of reset *).

Definition clear_started (s : pst sc) : pst sc :=
  mkP (p_sched s) (p_queue s) (p_stop s) (p_worker s) false (p_t s) (p_pc s).
Definition clear_stop (s : pst sc) : pst sc :=
  mkP (p_sched s) (p_queue s) false (p_worker s) (p_started s) (p_t s) (p_pc s).

(** From here to line 216 the old thread has ended or was never started. *)
Definition joined (c : gpc) : bool :=
  match c with GIdle | GPoll | GJoin => false | _ => true end.

Definition now_waits (s : rst sc) (i : nat) : bool :=
  match r_pc s i with RWait => true | _ => false end.

(** A step of a reader or of the background thread. *)
Definition greader (s : gst) (l : rlabel) : option (list (revent sc) * rst sc) :=
  let r := g_r s in
  match l with
  | RStep i =>
      match r_pc r i, p_worker (r_sh r) with
      | RWait, _ => if g_old s i then None else rstep sc B N r l
      | RSet, WIdle => if joined (g_pc s) then None else rstep sc B N r l
      | _, _ => rstep sc B N r l
      end
  | RExpire i => if now_waits r i && g_old s i
                 then Some ([RStopTimeout i], mkR (r_sh r) (goes r i RIdle))
                 else rstep sc B N r l
  | _ => rstep sc B N r l
  end.

(** A reader that begins to wait waits on the present queue. *)
Definition old_after (s : gst) (r' : rst sc) : nat -> bool :=
  fun i => g_old s i && now_waits (g_r s) i && now_waits r' i.

Definition gstep (s : gst) (l : glabel) : option (list gevent * gst) :=
  let r := g_r s in
  let p := r_sh r in
  let to p c := mkG (mkR p (r_pc r)) c (g_old s) in
  match l with
  | GR l => match greader s l with
            | Some (es, r') => Some (map GEv es, mkG r' (g_pc s) (old_after s r'))
            | None => None
            end
  | GCall => match g_pc s with GIdle => Some ([], to (set_stop sc p) GPoll) | _ => None end
  | GStep =>
      match g_pc s with
      | GIdle => None
      | GPoll => match p_queue p with
                 | [] => Some ([], to p GJoin)
                 | x :: q => Some ([GPolled x], to (set_queue sc p q) GJoin)
                 end
      | GJoin => if alive (p_worker p) then None else Some ([], to p GClear)
      | GClear => Some ([GCleared (p_queue p)], to (set_queue sc p []) GSched)
      | GSched => Some ([GWas (p_sched p)], to (set_sched sc p (sc_reset sc (p_sched p))) GCount)
      | GCount => Some ([], to (set_t sc p 0) GFlag)
      | GFlag => Some ([], to (clear_started p) GUnset)
      | GUnset => Some ([], to (clear_stop p) GQueue)
      | GQueue => Some ([], mkG (mkR (set_queue sc p []) (r_pc r)) GThread (now_waits r))
      | GThread => Some ([GReturned], to (set_worker sc p WIdle) GIdle)
      end
  end.

Inductive gexec (s : gst) : list glabel -> list gevent -> gst -> Prop :=
| gexec_nil : gexec s [] [] s
| gexec_snoc : forall ls l es e s1 s2,
    gexec s ls es s1 -> gstep s1 l = Some (e, s2) -> gexec s (ls ++ [l]) (es ++ e) s2.

End Resetter.

Arguments g_r {sc}. Arguments g_pc {sc}. Arguments g_old {sc}. Arguments mkG {sc}.
Arguments GEv {sc} e. Arguments GPolled {sc} x. Arguments GCleared {sc} q. Arguments GWas {sc} v. Arguments GReturned {sc}.
Arguments now_waits {sc}.
