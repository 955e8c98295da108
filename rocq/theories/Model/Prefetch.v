(** Model of PrefetchingFlowFieldScheduler
    (src/synthpix/scheduler/prefetch.py): one consumer thread calling the API,
    one background thread running [_worker], all interleavings.

    A transition is what one thread does between two points at which the other
    can observe it: accesses to [queue.Queue] are atomic (the class holds its
    mutex), the stop event is read and written atomically, and the wrapped
    scheduler is only touched by the background thread while that is alive
    (by [reset] after joining it), so a call to it is one transition.  A wait
    with a timeout may time out exactly when the awaited condition is false
    (queue.Queue.get/put); the deadline of [next_episode] and [join] with a
    timeout may pass at any time.  The durations themselves, and the flag
    [startup] which only selects one, are not modelled. *)
From Coq Require Import List Arith Bool ZArith.
Import ListNotations.
Local Open Scope nat_scope.

(** What the wrapped scheduler's [get_batch] does: return a batch, raise
    EpisodeEnd, raise StopIteration, or raise anything else. *)
Inductive gres (A : Type) : Type :=
| GBatch (b : A)
| GEpisodeEnd
| GStop
| GFail.
Arguments GBatch {A} b.
Arguments GEpisodeEnd {A}.
Arguments GStop {A}.
Arguments GFail {A}.

(** The wrapped scheduler.  [sc_len] is [Some L] if it is an
    EpisodicSchedulerProtocol with episode length [L]; [sc_next] is its
    [next_episode] ([None]: it raises). *)
Record sched : Type := mkSched {
  sc_state : Type;
  sc_batch : Type;
  sc_get : sc_state -> gres sc_batch * sc_state;
  sc_next : sc_state -> option sc_state;
  sc_reset : sc_state -> sc_state;
  sc_len : option nat
}.

Section Prefetch.

Variable sc : sched.
(** [batch_size] and [buffer_size]; both are positive (prefetch.py:51-54). *)
Variables B N : nat.

(** Queue elements; [EOS] is [None]. *)
Inductive item : Type := Data (b : sc_batch sc) | EOS.

(** Where the background thread is in [_worker], prefetch.py:138-186. *)
Inductive wpc : Type :=
| WIdle                         (* Thread object created, not started *)
| WCheck                        (* line 145 *)
| WFetch                        (* line 147 *)
| WPut (b : sc_batch sc)        (* line 186 *)
| WEosPut                       (* line 162 *)
| WForce                        (* line 168 *)
| WSetStop                      (* line 180 *)
| WDone                         (* returned *)
| WCrashed.                     (* died with an exception *)

(** Where the consumer is inside an API call. *)
Inductive cpc : Type :=
| CIdle                         (* between calls *)
| CGet                          (* lines 106-109, waiting for an item *)
| CReset1                       (* line 196 *)
| CReset2                       (* line 201 *)
| CShut1                        (* line 235 *)
| CShut2                        (* line 241 *)
| CShut3                        (* line 246 *)
| CDiscard (todo : nat).        (* lines 292-302, [todo] still to discard *)

(** Instance attributes, prefetch.py:49-75. *)
Record pst : Type := mkP {
  p_sched : sc_state sc;
  p_queue : list item;
  p_stop : bool;
  p_worker : wpc;
  p_started : bool;
  p_t : nat;
  p_pc : cpc
}.

(** [__init__], prefetch.py:58-63, and the end of [reset], lines 212-216. *)
Definition pinit (u : sc_state sc) : pst := mkP u [] false WIdle false 0 CIdle.

(** What happens: results of API calls, and what became of queue items that
    were removed without being returned. *)
Inductive event : Type :=
| EvReturn (b : sc_batch sc)      (* get_batch returned [b] *)
| EvStopEos                       (* get_batch: StopIteration, marker read *)
| EvStopTimeout                   (* get_batch: StopIteration, timed out *)
| EvEpisodeEnd                    (* get_batch: EpisodeEnd *)
| EvValueError                    (* get_batch: ValueError *)
| EvFlush (b : sc_batch sc)       (* next_episode discarded [b] *)
| EvNext                          (* next_episode returned, all discarded *)
| EvNextEos                       (* next_episode returned on the marker *)
| EvNextTimeout                   (* next_episode returned on its deadline *)
| EvReset                         (* reset returned *)
| EvShutdown                      (* shutdown returned *)
| EvPoll (i : item)               (* removed by get_nowait in reset/shutdown *)
| EvDrop (i : item).              (* removed to make room for the marker *)

Inductive label : Type :=
| LCallGet (n : nat) | LTake | LTimeout
| LCallReset | LResetPoll | LResetJoin
| LCallShutdown | LShutPoll | LShutPut | LShutJoin
| LCallNext | LDiscard | LDiscardTimeout
| LWCheck | LWFetch | LWPut | LWEosPut | LWEosFull | LWForce | LWSetStop.

Definition worker_label (l : label) : bool :=
  match l with
  | LWCheck | LWFetch | LWPut | LWEosPut | LWEosFull | LWForce | LWSetStop => true
  | _ => false
  end.

(** [Thread.is_alive()]. *)
Definition alive (w : wpc) : bool :=
  match w with WIdle | WDone | WCrashed => false | _ => true end.

Definition set_pc (s : pst) (c : cpc) : pst :=
  mkP (p_sched s) (p_queue s) (p_stop s) (p_worker s) (p_started s) (p_t s) c.
Definition set_queue (s : pst) (q : list item) : pst :=
  mkP (p_sched s) q (p_stop s) (p_worker s) (p_started s) (p_t s) (p_pc s).
Definition set_stop (s : pst) : pst :=
  mkP (p_sched s) (p_queue s) true (p_worker s) (p_started s) (p_t s) (p_pc s).
Definition set_worker (s : pst) (w : wpc) : pst :=
  mkP (p_sched s) (p_queue s) (p_stop s) w (p_started s) (p_t s) (p_pc s).
Definition set_t (s : pst) (t : nat) : pst :=
  mkP (p_sched s) (p_queue s) (p_stop s) (p_worker s) (p_started s) t (p_pc s).
Definition set_sched (s : pst) (u : sc_state sc) : pst :=
  mkP u (p_queue s) (p_stop s) (p_worker s) (p_started s) (p_t s) (p_pc s).

(** [_start_worker], prefetch.py:131-136 (for one consumer thread; two
    threads: Model/StartRace.v). *)
Definition start (s : pst) : pst :=
  if p_started s then s
  else mkP (p_sched s) (p_queue s) (p_stop s) WCheck true (p_t s) (p_pc s).

(** The consumer's side of [get_batch], prefetch.py:77-121, up to the wait. *)
Definition call_get (n : nat) (s : pst) : list event * pst :=
  if n =? B then
    let s1 := start s in
    match sc_len sc with
    | Some L => if L <=? p_t s1 then ([EvEpisodeEnd], s1) else ([], set_pc s1 CGet)
    | None => ([], set_pc s1 CGet)
    end
  else ([EvValueError], s).

(** The queue delivers an item to [get_batch], prefetch.py:111-118. *)
Definition take (i : item) (q : list item) (s : pst) : list event * pst :=
  ([match i with Data b => EvReturn b | EOS => EvStopEos end],
   set_pc (set_t (set_queue s q) (S (p_t s))) CIdle).

(** [next_episode], prefetch.py:273-306, up to the discarding loop. *)
Definition call_next (s : pst) : list event * pst :=
  match sc_len sc with
  | None => ([EvNext], s)
  | Some L =>
      if p_started s && (p_t s <? L) then ([], set_pc s (CDiscard (L - p_t s)))
      else ([EvNext], set_t (start s) 0)
  end.

(** One iteration of the discarding loop, prefetch.py:292-302. *)
Definition discard (todo : nat) (i : item) (q : list item) (s : pst) : list event * pst :=
  match i with
  | EOS => ([EvNextEos], set_pc (set_t (set_queue s q) 0) CIdle)
  | Data b =>
      if todo <=? 1 then ([EvFlush b; EvNext], set_pc (set_t (set_queue s q) 0) CIdle)
      else ([EvFlush b], set_pc (set_queue s q) (CDiscard (todo - 1)))
  end.

(** The background thread calls the wrapped scheduler, prefetch.py:146-155:
    EpisodeEnd from a scheduler that is not episodic fails the assertion; every
    exception other than EpisodeEnd and StopIteration ends the thread. *)
Definition fetch (s : pst) : pst :=
  let (r, u) := sc_get sc (p_sched s) in
  let s1 := set_sched s u in
  match r with
  | GBatch b => set_worker s1 (WPut b)
  | GStop => set_worker s1 WEosPut
  | GFail => set_worker s1 WCrashed
  | GEpisodeEnd =>
      match sc_len sc with
      | None => set_worker s1 WCrashed
      | Some _ =>
          match sc_next sc u with
          | Some u' => set_worker (set_sched s u') WCheck
          | None => set_worker s1 WCrashed
          end
      end
  end.

(** [get_nowait] in [reset] (lines 195-198) and [shutdown] (lines 234-237). *)
Definition poll (s : pst) : list event * pst :=
  match p_queue s with
  | [] => ([], s)
  | i :: q => ([EvPoll i], set_queue s q)
  end.

(** Replacing the oldest element by the marker, prefetch.py:168-177: whatever
    the fill level is by now. *)
Definition force (s : pst) : list event * pst :=
  match p_queue s with
  | [] => ([], set_worker (set_queue s [EOS]) WSetStop)
  | i :: q => ([EvDrop i], set_worker (set_queue s (q ++ [EOS])) WSetStop)
  end.

Definition pstep (s : pst) (l : label) : option (list event * pst) :=
  match l with
  (* get_batch *)
  | LCallGet n => match p_pc s with CIdle => Some (call_get n s) | _ => None end
  | LTake =>
      match p_pc s, p_queue s with
      | CGet, i :: q => Some (take i q s)
      | _, _ => None
      end
  | LTimeout =>
      match p_pc s, p_queue s with
      | CGet, [] => Some ([EvStopTimeout], set_pc s CIdle)
      | _, _ => None
      end
  (* reset, prefetch.py:188-219 *)
  | LCallReset => match p_pc s with CIdle => Some ([], set_pc (set_stop s) CReset1) | _ => None end
  | LResetPoll =>
      match p_pc s with
      | CReset1 => let (e, s1) := poll s in Some (e, set_pc s1 CReset2)
      | _ => None
      end
  | LResetJoin =>
      match p_pc s with
      | CReset2 => if alive (p_worker s) then None
                   else Some ([EvReset], pinit (sc_reset sc (p_sched s)))
      | _ => None
      end
  (* shutdown, prefetch.py:221-247 *)
  | LCallShutdown => match p_pc s with CIdle => Some ([], set_pc (set_stop s) CShut1) | _ => None end
  | LShutPoll =>
      match p_pc s with
      | CShut1 => let (e, s1) := poll s in Some (e, set_pc s1 CShut2)
      | _ => None
      end
  | LShutPut =>
      match p_pc s with
      | CShut2 =>
          Some ([], set_pc (if List.length (p_queue s) <? N
                            then set_queue s (p_queue s ++ [EOS]) else s) CShut3)
      | _ => None
      end
  | LShutJoin => match p_pc s with CShut3 => Some ([EvShutdown], set_pc s CIdle) | _ => None end
  (* next_episode *)
  | LCallNext => match p_pc s with CIdle => Some (call_next s) | _ => None end
  | LDiscard =>
      match p_pc s, p_queue s with
      | CDiscard todo, i :: q => Some (discard todo i q s)
      | _, _ => None
      end
  | LDiscardTimeout =>
      match p_pc s with
      | CDiscard _ => Some ([EvNextTimeout], set_pc (set_t s 0) CIdle)
      | _ => None
      end
  (* _worker *)
  | LWCheck =>
      match p_worker s with
      | WCheck => Some ([], set_worker s (if p_stop s then WDone else WFetch))
      | _ => None
      end
  | LWFetch => match p_worker s with WFetch => Some ([], fetch s) | _ => None end
  | LWPut =>
      match p_worker s with
      | WPut b => if List.length (p_queue s) <? N
                  then Some ([], set_worker (set_queue s (p_queue s ++ [Data b])) WCheck)
                  else None
      | _ => None
      end
  | LWEosPut =>
      match p_worker s with
      | WEosPut => if List.length (p_queue s) <? N
                   then Some ([], set_worker (set_queue s (p_queue s ++ [EOS])) WSetStop)
                   else None
      | _ => None
      end
  | LWEosFull =>
      match p_worker s with
      | WEosPut => if List.length (p_queue s) <? N then None else Some ([], set_worker s WForce)
      | _ => None
      end
  | LWForce => match p_worker s with WForce => Some (force s) | _ => None end
  | LWSetStop =>
      match p_worker s with
      | WSetStop => Some ([], set_worker (set_stop s) WDone)
      | _ => None
      end
  end.

(** An execution: labels taken one after the other, and the events. *)
Inductive exec (s : pst) : list label -> list event -> pst -> Prop :=
| exec_nil : exec s [] [] s
| exec_snoc : forall ls l es e s1 s2,
    exec s ls es s1 -> pstep s1 l = Some (e, s2) -> exec s (ls ++ [l]) (es ++ e) s2.

(** [steps_remaining], prefetch.py:262-271. *)
Definition psteps_remaining (s : pst) : Z :=
  match sc_len sc with
  | None => 1
  | Some L => Z.of_nat L - Z.of_nat (p_t s)
  end%Z.

(** [is_running], prefetch.py:253-260. *)
Definition is_running (s : pst) : bool := alive (p_worker s).

End Prefetch.

Arguments Data {sc} b.
Arguments EOS {sc}.
Arguments WIdle {sc}. Arguments WCheck {sc}. Arguments WFetch {sc}. Arguments WPut {sc} b.
Arguments WEosPut {sc}. Arguments WForce {sc}. Arguments WSetStop {sc}.
Arguments WDone {sc}. Arguments WCrashed {sc}.
Arguments EvReturn {sc} b. Arguments EvStopEos {sc}. Arguments EvStopTimeout {sc}.
Arguments EvEpisodeEnd {sc}. Arguments EvValueError {sc}. Arguments EvFlush {sc} b.
Arguments EvNext {sc}. Arguments EvNextEos {sc}. Arguments EvNextTimeout {sc}.
Arguments EvReset {sc}. Arguments EvShutdown {sc}. Arguments EvPoll {sc} i. Arguments EvDrop {sc} i.
Arguments p_sched {sc}. Arguments p_queue {sc}. Arguments p_stop {sc}. Arguments p_worker {sc}.
Arguments p_started {sc}. Arguments p_t {sc}. Arguments p_pc {sc}. Arguments mkP {sc}.
Arguments alive {sc} w. Arguments is_running {sc} s. Arguments psteps_remaining {sc} s.
