(** Several consumer threads calling [get_batch] of one
    PrefetchingFlowFieldScheduler (src/synthpix/scheduler/prefetch.py:77-121 and
    131-136), beside its background thread; no other method is called.

    As in Model/Prefetch.v, accesses to the queue and the stop event are atomic;
    what is not protected by a lock is modelled access by access: the flag
    [_started] is read (line 133) and written (134) before the thread is started
    (135), the counter [_t] is read before it is written ([self._t += 1], line
    115).  The flag [startup] only selects a timeout and is left out. *)
From Coq Require Import List Arith Bool.
From Verif Require Import Model.Prefetch.
Import ListNotations.
Local Open Scope nat_scope.

Section Readers.
Variable sc : sched.
Variables B N : nat.

(** Where a reader is inside [get_batch]. *)
Inductive rpc : Type :=
| RIdle                          (* between calls *)
| RFlag                          (* line 133 *)
| RSaw                           (* line 134 *)
| RSet                           (* line 135 *)
| RLen                           (* lines 99-104 *)
| RWait                          (* lines 106-109, waiting for an item *)
| RHas (x : item sc)             (* line 115, about to read [_t] *)
| RAdd (x : item sc) (t : nat)   (* line 115, about to write [t + 1] *)
| RGot (x : item sc).            (* lines 116-119 *)

(** The instance attributes ([p_pc] is not used) and the readers. *)
Record rst : Type := mkR { r_sh : pst sc; r_pc : nat -> rpc }.

Definition rinit (u : sc_state sc) : rst := mkR (pinit sc u) (fun _ => RIdle).

Inductive revent : Type :=
| RWorker (e : event sc)                 (* of the background thread *)
| RTook (i : nat) (x : item sc)          (* removed from the queue by reader [i] *)
| RCount (i : nat)                       (* reader [i] has written [_t] *)
| RReturn (i : nat) (b : sc_batch sc)    (* get_batch returned *)
| RStopEos (i : nat)                     (* StopIteration, marker read *)
| RStopTimeout (i : nat)                 (* StopIteration, timed out *)
| REpisodeEnd (i : nat)
| RValueError (i : nat)
| RRuntimeError (i : nat).               (* the thread was started already *)

Inductive rlabel : Type :=
| RCall (i n : nat)              (* reader [i] calls get_batch(n) *)
| RStep (i : nat)                (* reader [i] makes its next step *)
| RExpire (i : nat)              (* the timeout of reader [i] expires *)
| RWork (l : label).             (* the background thread makes a step *)

Definition goes (s : rst) (i : nat) (c : rpc) : nat -> rpc := fun j => if j =? i then c else r_pc s j.

Definition set_started (s : pst sc) : pst sc :=
  mkP (p_sched s) (p_queue s) (p_stop s) (p_worker s) true (p_t s) (p_pc s).

Definition rstep (s : rst) (l : rlabel) : option (list revent * rst) :=
  let p := r_sh s in
  match l with
  | RCall i n =>
      match r_pc s i with
      | RIdle => if n =? B then Some ([], mkR p (goes s i RFlag)) else Some ([RValueError i], s)
      | _ => None
      end
  | RStep i =>
      match r_pc s i with
      | RIdle => None
      | RFlag => Some ([], mkR p (goes s i (if p_started p then RLen else RSaw)))
      | RSaw => Some ([], mkR (set_started p) (goes s i RSet))
      | RSet =>
          match p_worker p with
          | WIdle => Some ([], mkR (set_worker sc p WCheck) (goes s i RLen))
          | _ => Some ([RRuntimeError i], mkR p (goes s i RIdle))
          end
      | RLen =>
          match sc_len sc with
          | Some L => if L <=? p_t p then Some ([REpisodeEnd i], mkR p (goes s i RIdle))
                      else Some ([], mkR p (goes s i RWait))
          | None => Some ([], mkR p (goes s i RWait))
          end
      | RWait =>
          match p_queue p with
          | x :: q => Some ([RTook i x], mkR (set_queue sc p q) (goes s i (RHas x)))
          | [] => None
          end
      | RHas x => Some ([], mkR p (goes s i (RAdd x (p_t p))))
      | RAdd x t => Some ([RCount i], mkR (set_t sc p (S t)) (goes s i (RGot x)))
      | RGot (Data b) => Some ([RReturn i b], mkR p (goes s i RIdle))
      | RGot EOS => Some ([RStopEos i], mkR p (goes s i RIdle))
      end
  | RExpire i =>
      match r_pc s i, p_queue p with
      | RWait, [] => Some ([RStopTimeout i], mkR p (goes s i RIdle))
      | _, _ => None
      end
  | RWork l =>
      if worker_label l then
        match pstep sc B N p l with
        | Some (es, p') => Some (map RWorker es, mkR p' (r_pc s))
        | None => None
        end
      else None
  end.

Inductive rexec (s : rst) : list rlabel -> list revent -> rst -> Prop :=
| rexec_nil : rexec s [] [] s
| rexec_snoc : forall ls l es e s1 s2,
    rexec s ls es s1 -> rstep s1 l = Some (e, s2) -> rexec s (ls ++ [l]) (es ++ e) s2.

End Readers.

Arguments RIdle {sc}. Arguments RFlag {sc}. Arguments RSaw {sc}. Arguments RSet {sc}. Arguments RLen {sc}.
Arguments RWait {sc}. Arguments RHas {sc} x. Arguments RAdd {sc} x t. Arguments RGot {sc} x.
Arguments r_sh {sc}. Arguments r_pc {sc}. Arguments mkR {sc}.
Arguments RWorker {sc} e. Arguments RTook {sc} i x. Arguments RCount {sc} i. Arguments RReturn {sc} i b.
Arguments RStopEos {sc} i. Arguments RStopTimeout {sc} i. Arguments REpisodeEnd {sc} i.
Arguments RValueError {sc} i. Arguments RRuntimeError {sc} i. Arguments goes {sc}.
