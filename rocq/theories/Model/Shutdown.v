(** Model of [shutdown]: [Sampler.shutdown], src/synthpix/sampler/base.py:61-66,
    and what it calls. *)
From Coq Require Import List Arith ZArith String Bool.
From Verif Require Import Prelude Model.Base Model.Prefetch Model.Sampler Model.Stack Model.Make Model.Real.
Import ListNotations.
Local Open Scope nat_scope.

(** [PrefetchingFlowFieldScheduler.shutdown], prefetch.py:221-247: set the stop
    event, take one item if there is one, put the end marker if there is room,
    wait for the thread (which may or may not finish in time).  Between these
    steps the thread runs as [t_time] says.  The AttributeError of lines 229-231
    is for objects whose constructor raised. *)
Definition pf_shutdown (si : sif) (len : option nat) (B N : nat) (u : @tst si len B) : @tst si len B :=
  let sc := sched_of si len B in
  let tm := t_time u in
  let s0 := wait si len B N (fst (tm 0)) (t_st u) in
  match pstep sc B N s0 LCallShutdown with
  | None => mkTst s0 (later tm 1)
  | Some (_, s1) =>
      let s2 := wait si len B N (snd (tm 0)) s1 in
      match pstep sc B N s2 LShutPoll with
      | None => mkTst s2 (later tm 1)
      | Some (_, s3) =>
          let s4 := wait si len B N (fst (tm 1)) s3 in
          match pstep sc B N s4 LShutPut with
          | None => mkTst s4 (later tm 2)
          | Some (_, s5) =>
              let s6 := wait si len B N (snd (tm 1)) s5 in
              match pstep sc B N s6 LShutJoin with
              | None => mkTst s6 (later tm 2)
              | Some (_, s7) => mkTst s7 (later tm 2)
              end
          end
      end
  end.

(** [scheduler.shutdown()]: the file and the episodic schedulers inherit the
    empty method of protocol.py:11-13; the prefetcher does not pass the call on. *)
Definition shutdown_of (fuel : nat) (sch : scheduler) : si_state (sif_of fuel sch) -> si_state (sif_of fuel sch) :=
  match sch return si_state (sif_of fuel sch) -> si_state (sif_of fuel sch) with
  | SFile _ _ _ => fun u => u
  | SEpisodic _ _ _ => fun u => u
  | SPrefetch B N inner => pf_shutdown (sif_of fuel inner) (episode_len inner) B N
  end.

(** A consumer that may also call [shutdown]. *)
Inductive call : Type := Call (o : sop) | Shutdown.

(** The real-image sampler: [_shutdown] (base.py:55-56) is not overridden. *)
Definition do_rcall (si : sif) (off : si_state si -> si_state si) (B : nat) (o : call) (u : si_state si)
  : @sobs (si_flow si) (si_img si * si_img si) * si_state si :=
  match o with Call o => do_rop si B o u | Shutdown => (SUnit, off u) end.

Fixpoint rcalls (si : sif) (off : si_state si -> si_state si) (B : nat) (os : list call) (u : si_state si) :=
  match os with
  | [] => ([], u)
  | o :: os =>
      let (r, u1) := do_rcall si off B o u in
      let (rs, u2) := rcalls si off B os u1 in
      (r :: rs, u2)
  end.

(** The synthetic sampler: nor is it in synthetic.py. *)
Definition do_scall {si : sif} {oflow bflow img : Type} (c : scfg si oflow bflow img) (off : si_state si -> si_state si)
    (o : call) (s : sst si oflow bflow) : @sobs oflow img * sst si oflow bflow :=
  match o with Call o => do_sop c o s | Shutdown => (SUnit, set_sched s (off (y_sched s))) end.

Fixpoint scalls {si : sif} {oflow bflow img : Type} (c : scfg si oflow bflow img) (off : si_state si -> si_state si)
    (os : list call) (s : sst si oflow bflow) :=
  match os with
  | [] => ([], s)
  | o :: os =>
      let (r, s1) := do_scall c off o s in
      let (rs, s2) := scalls c off os s1 in
      (r :: rs, s2)
  end.
