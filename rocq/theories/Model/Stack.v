(** The schedulers that [make] (src/synthpix/make.py) puts under a sampler,
    each as the interface of Model/Sampler.v. *)
From Coq Require Import List Arith ZArith String Bool.
From Verif Require Import Prelude Model.Base Model.Episodic Model.Prefetch Model.Sampler.
Import ListNotations.
Local Open Scope nat_scope.

(** A batch of the file scheduler, row by row. *)
Definition rows (a : arr) : list arr := map (fun i => row i a) (seq 0 (nrows a)).
Definition fdata_of (d : SchedData) : fdata arr arr :=
  mkFdata (rows (sd_flow d)) (option_map rows (sd_im1 d)) (option_map rows (sd_im2 d)) (sd_mask d) (sd_files d).

(** [OtherExn 0] stands for a call that does not return (no fuel left: an
    endless search for a usable file, base.py:166-192). *)
Definition get_result (r : call_res) : result (fdata arr arr) :=
  match r with
  | CReturn d => Ok (fdata_of d)
  | CRaise e => Err e
  | COutOfFuel => Err (OtherExn 0)
  end.

(** A file scheduler, src/synthpix/scheduler/base.py: not an
    EpisodicSchedulerProtocol. *)
Definition base_sif (c : cfg) (fuel : nat) : sif :=
  mkSif st arr arr
    (fun n s => let (r, s') := get_batch c fuel n s in (get_result r, s'))
    false false (fun _ => 1%Z) (fun s => (Err AttributeError, s)) (reset c).

(** EpisodicFlowFieldScheduler, src/synthpix/scheduler/episodic.py. *)
Definition episodic_sif (ec : ecfg) (fuel : nat) : sif :=
  mkSif est arr arr
    (fun n s => let (r, s') := ep_get ec fuel n s in (get_result r, s'))
    true true (steps_remaining ec) (fun s => (Ok tt, next_episode ec s)) (next_episode ec).

(** The scheduler wrapped by the prefetcher, as its background thread uses it
    (prefetch.py:146-155).  [len] is the episode length if it is an
    EpisodicSchedulerProtocol. *)
Definition sched_of (si : sif) (len : option nat) (B : nat) : sched :=
  mkSched (si_state si) (fdata (si_flow si) (si_img si))
    (fun u => match si_get si B u with
              | (Ok d, u') => (GBatch d, u')
              | (Err EpisodeEnd, u') => (GEpisodeEnd, u')
              | (Err StopIteration, u') => (GStop, u')
              | (Err _, u') => (GFail, u')
              end)
    (fun u => match si_next si u with (Ok _, u') => Some u' | (Err _, _) => None end)
    (si_reset si) len.

(** * PrefetchingFlowFieldScheduler, src/synthpix/scheduler/prefetch.py

    The answers depend on what the background thread does meanwhile, so the
    state carries a timing: for each action of the consumer, what the background
    thread does before it and during it: it takes some number of its steps (as
    many as it can), and a flag says whether its wait for room for the end
    marker (line 162), or the consumer's deadline (lines 289-296), expires
    during that time.  Every choice of timing is an execution of
    Model/Prefetch.v (Proofs/StackProofs.v). *)
Definition timing : Type := nat -> (nat * bool) * (nat * bool).
Definition later (tm : timing) (i : nat) : timing := fun j => tm (i + j).

Section Prefetched.
Variables (si : sif) (len : option nat) (B N : nat).
Notation sc := (sched_of si len B).

(** The step the background thread takes next, if it can take one. *)
Definition wlabel (expire : bool) (s : pst sc) : option label :=
  let room := List.length (p_queue s) <? N in
  match p_worker s with
  | WCheck => Some LWCheck
  | WFetch => Some LWFetch
  | WPut _ => if room then Some LWPut else None
  | WEosPut => if room then Some LWEosPut else if expire then Some LWEosFull else None
  | WForce => Some LWForce
  | WSetStop => Some LWSetStop
  | WIdle | WDone | WCrashed => None
  end.

Fixpoint wrun (k : nat) (expire : bool) (s : pst sc) : pst sc :=
  match k with
  | 0 => s
  | S k =>
      match wlabel expire s with
      | None => s
      | Some l => match pstep sc B N s l with Some (_, s') => wrun k expire s' | None => s end
      end
  end.

Definition wait (t : nat * bool) (s : pst sc) : pst sc := wrun (fst t) (snd t) s.

Record tst : Type := mkTst { t_st : pst sc; t_time : timing }.

(** [get_batch], prefetch.py:77-121.  A consumer stuck in an earlier call
    cannot make another one ([OtherExn 0]; it does not happen, see
    Proofs/StackProofs.v). *)
Definition pf_get (n : nat) (u : tst) : result (fdata (si_flow si) (si_img si)) * tst :=
  let tm := t_time u in
  let s0 := wait (fst (tm 0)) (t_st u) in
  match pstep sc B N s0 (LCallGet n) with
  | None => (Err (OtherExn 0), mkTst s0 (later tm 1))
  | Some (EvValueError :: _, s1) => (Err ValueError, mkTst s1 (later tm 1))
  | Some (_ :: _, s1) => (Err EpisodeEnd, mkTst s1 (later tm 1))
  | Some ([], s1) =>
      let s2 := wait (snd (tm 0)) s1 in
      match pstep sc B N s2 LTake with
      | Some (EvReturn b :: _, s3) => (Ok b, mkTst s3 (later tm 1))
      | Some (_, s3) => (Err StopIteration, mkTst s3 (later tm 1))
      | None =>
          (Err StopIteration,
           mkTst (match pstep sc B N s2 LTimeout with Some (_, s3) => s3 | None => s2 end) (later tm 1))
      end
  end.

(** The loop of [next_episode], prefetch.py:287-302: at most [k] more items. *)
Fixpoint pf_discard (k : nat) (s : pst sc) (tm : timing) : tst :=
  match k with
  | 0 => mkTst s tm
  | S k =>
      match p_pc s with
      | CDiscard _ =>
          let s0 := wait (snd (tm 0)) s in
          match (if snd (snd (tm 0)) then None else pstep sc B N s0 LDiscard) with
          | Some (_, s1) => pf_discard k s1 (later tm 1)
          | None =>
              mkTst (match pstep sc B N s0 LDiscardTimeout with Some (_, s1) => s1 | None => s0 end) (later tm 1)
          end
      | _ => mkTst s tm
      end
  end.

(** [next_episode], prefetch.py:273-306. *)
Definition pf_next (u : tst) : result unit * tst :=
  let tm := t_time u in
  let s0 := wait (fst (tm 0)) (t_st u) in
  match pstep sc B N s0 LCallNext with
  | None => (Err (OtherExn 0), mkTst s0 (later tm 1))
  | Some (_, s1) => (Ok tt, pf_discard (match len with Some L => L | None => 0 end) s1 (later tm 1))
  end.

(** [reset], prefetch.py:188-219.  The join (line 205) returns after at most
    four steps of the background thread (C25_reset_terminates). *)
Definition pf_reset (u : tst) : tst :=
  let tm := t_time u in
  let s0 := wait (fst (tm 0)) (t_st u) in
  match pstep sc B N s0 LCallReset with
  | None => mkTst s0 (later tm 1)
  | Some (_, s1) =>
      let s2 := wait (snd (tm 0)) s1 in
      match pstep sc B N s2 LResetPoll with
      | None => mkTst s2 (later tm 1)
      | Some (_, s3) =>
          let s4 := wrun 4 (snd (snd (tm 1))) s3 in
          match pstep sc B N s4 LResetJoin with
          | None => mkTst s4 (later tm 2)
          | Some (_, s5) => mkTst s5 (later tm 2)
          end
      end
  end.

(** The class inherits from PrefetchedSchedulerProtocol, hence from
    EpisodicSchedulerProtocol, whatever it wraps (protocol.py:91-94,
    prefetch.py:21). *)
Definition prefetch_sif : sif :=
  mkSif tst (si_flow si) (si_img si) pf_get true false
    (fun u => psteps_remaining (t_st u)) pf_next pf_reset.
End Prefetched.
Arguments mkTst {si len B}. Arguments t_st {si len B}. Arguments t_time {si len B}.
