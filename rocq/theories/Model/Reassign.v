(** The [file_list] setters.  That of the file scheduler
    (src/synthpix/scheduler/base.py:41-48) is [set_files] in Model/Base.v. *)
From Coq Require Import List Arith String Bool.
From Verif Require Import Prelude Model.Base Model.Episodic.
From Verif Require Model.Prefetch.
Import ListNotations.
Local Open Scope nat_scope.

(** EpisodicFlowFieldScheduler.file_list setter,
    src/synthpix/scheduler/episodic.py:128-135: passed on to the wrapped
    scheduler; the tables of windows and the step counter stay. *)
Definition ep_assign (s : est) (fl : list string) : est :=
  mkEst (set_files (e_base s) fl) (e_key s) (e_t s).

(** PrefetchingFlowFieldScheduler.file_list setter,
    src/synthpix/scheduler/prefetch.py:328-335: passed on to the wrapped
    scheduler, on which it acts as [f], at a moment when the background thread
    is not inside that scheduler's [get_batch]. *)
Definition p_assign {sc : Prefetch.sched} (f : Prefetch.sc_state sc -> Prefetch.sc_state sc)
  (s : Prefetch.pst sc) : Prefetch.pst sc := Prefetch.set_sched sc s (f (Prefetch.p_sched s)).

(** The same setter while the background thread is inside [_get_next] of a
    file scheduler (base.py:166-194): the list is an attribute that the loop
    reads anew at lines 166, 168 and 172, and [seen m] is what read number [m]
    finds.  Without shuffling [reset] does not touch the list (lines
    141-152); the field [s_files] of the state is not used. *)
Fixpoint next_race (c : cfg) (seen : nat -> list string) (fuel t : nat) (s : st) : next_res * st * nat :=
  match fuel with
  | 0 => (NOutOfFuel, s, t)
  | S fuel =>
      if (s_index s <? List.length (seen t)) || c_loop c then               (* line 166 *)
        let s1 := if List.length (seen (1 + t)) <=? s_index s               (* line 168 *)
                  then reset c s else s in
        match next_body c (set_files s1 (seen (2 + t))) with                (* lines 172-192 *)
        | inl s2 => next_race c seen fuel (3 + t) s2
        | inr (r, s2) => (r, s2, 3 + t)
        end
      else (NRaise StopIteration, s, 1 + t)
  end.

(** The collecting loop of [get_batch], base.py:212-219, likewise. *)
Fixpoint collect_race (c : cfg) (seen : nat -> list string) (fuel n t : nat) (acc : list SchedData) (s : st)
  : collected * st * nat :=
  match n with
  | 0 => (Collected acc, s, t)
  | S n =>
      match next_race c seen fuel t s with
      | (NItem d, s', t') => collect_race c seen fuel n t' (acc ++ [d]) s'
      | (NRaise StopIteration, s', t') => (Collected acc, s', t')
      | (NRaise e, s', t') => (CollectRaise e, s', t')
      | (NOutOfFuel, s', t') => (CollectOutOfFuel, s', t')
      end
  end.

(** [get_batch], base.py:196-289, likewise: nothing after the collecting loop
    reads the list. *)
Definition batch_race (c : cfg) (seen : nat -> list string) (fuel n : nat) (s : st) : call_res * st :=
  match collect_race c seen fuel n 0 [] s with
  | (CollectOutOfFuel, s', _) => (COutOfFuel, s')
  | (CollectRaise e, s', _) => (CRaise e, s')
  | (Collected batch, s', _) =>
      match batch, c_loop c with
      | [], false => (CRaise StopIteration, s')
      | _, _ =>
          let s'' := match batch with [] => reset c s' | _ => s' end in
          match assemble (c_loop c) n batch with
          | Ok d => (CReturn d, s'')
          | Err e => (CRaise e, s'')
          end
      end
  end.
