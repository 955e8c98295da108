(** Readers of a prefetching scheduler that another thread shuts down:
    vocabulary for C128. *)
From Coq Require Import List Arith Bool.
From Verif Require Import Model.Prefetch Spec.PrefetchSpec Model.Readers Spec.ReadersSpec Model.Stopper.
Import ListNotations.
Local Open Scope nat_scope.

Section Spec.
Variable sc : sched.

(** What the readers and the background thread did. *)
Definition readers_events (es : list (kevent sc)) : list (revent sc) :=
  flat_map (fun e => match e with KEv e => [e] | _ => [] end) es.

(** The steps of the readers and the background thread. *)
Definition readers_labels (ls : list klabel) : list rlabel :=
  flat_map (fun l => match l with KR l => [l] | _ => [] end) ls.

(** How often shutdown was called. *)
Definition shutdowns (ls : list klabel) : nat :=
  List.length (filter (fun l => match l with KCall => true | _ => false end) ls).

End Spec.
Arguments readers_events {sc}.
