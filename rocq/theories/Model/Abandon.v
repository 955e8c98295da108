(** A prefetching scheduler that its user drops,
    src/synthpix/scheduler/prefetch.py:60, 138-186 and 249-251.

    The background thread is started on the bound method [self._worker], so its
    running frame refers to the scheduler; [__del__] is called by the
    interpreter only when nothing refers to it any more, that is, after the
    thread has ended (or when it was never started).  The user is between calls
    when the last reference of theirs goes away, and no calls follow. *)
From Coq Require Import List Arith Bool.
From Verif Require Import Model.Prefetch.
Import ListNotations.
Local Open Scope nat_scope.

Section Abandon.

Variable sc : sched.
Variables B N : nat.

(** [__del__], prefetch.py:249-251: [shutdown], lines 228-247; the thread is not
    alive, so nothing is joined. *)
Definition del (s : pst sc) : pst sc :=
  let s1 := snd (poll sc (set_stop sc s)) in
  if List.length (p_queue s1) <? N then set_queue sc s1 (p_queue s1 ++ [EOS]) else s1.

(** What can still happen: the thread goes on, or [__del__] is called once; the
    flag tells that it was. *)
Inductive dstep : pst sc * bool -> pst sc * bool -> Prop :=
| d_work : forall s l e s', worker_label l = true -> pstep sc B N s l = Some (e, s') -> dstep (s, false) (s', false)
| d_del : forall s, alive (p_worker s) = false -> dstep (s, false) (del s, true).

Inductive dsteps : pst sc * bool -> pst sc * bool -> Prop :=
| ds_nil : forall x, dsteps x x
| ds_cons : forall x y z, dstep x y -> dsteps y z -> dsteps x z.

End Abandon.

Arguments del {sc}. Arguments dstep {sc}. Arguments dsteps {sc}.
