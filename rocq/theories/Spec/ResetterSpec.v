(** Readers of a prefetching scheduler that another thread resets: vocabulary for
    C129. *)
From Coq Require Import List Arith Bool.
From Verif Require Import Model.Prefetch Spec.PrefetchSpec Model.Readers Spec.ReadersSpec Model.Resetter.
Import ListNotations.
Local Open Scope nat_scope.

Section Spec.
Variable sc : sched.

(** What the readers and the background thread did. *)
Definition reading (es : list (gevent sc)) : list (revent sc) :=
  flat_map (fun e => match e with GEv e => [e] | _ => [] end) es.

(** What happened since the wrapped scheduler was last reset. *)
Definition since (es : list (gevent sc)) : list (gevent sc) :=
  fold_left (fun acc e => match e with GWas _ => [] | e => acc ++ [e] end) es [].

(** The state from which the wrapped scheduler goes on since then. *)
Definition restarted (u : sc_state sc) (es : list (gevent sc)) : sc_state sc :=
  fold_left (fun v e => match e with GWas w => sc_reset sc w | _ => v end) es u.

(** No call of [reset] is under way, the thread counts as started but was not,
    and nobody is about to start it. *)
Definition stuck (s : gst sc) : Prop :=
  g_pc s = GIdle /\ p_started (r_sh (g_r s)) = true /\ p_worker (r_sh (g_r s)) = WIdle /\ p_queue (r_sh (g_r s)) = [] /\
  forall i, r_pc (g_r s) i <> RSaw /\ r_pc (g_r s) i <> RSet.

(** Nobody but the background thread and timeouts beside [reset]. *)
Definition undisturbed (l : glabel) : Prop :=
  match l with GStep | GR (RExpire _) | GR (RWork _) => True | _ => False end.

End Spec.
Arguments reading {sc}. Arguments since {sc}. Arguments restarted {sc}.
