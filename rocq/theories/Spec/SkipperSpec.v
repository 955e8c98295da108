(** Readers of a prefetching scheduler beside a thread that calls [next_episode]:
    vocabulary for C130. *)
From Coq Require Import List Arith Bool.
From Verif Require Import Model.Prefetch Spec.PrefetchSpec Model.Readers Spec.ReadersSpec Model.Skipper.
Import ListNotations.
Local Open Scope nat_scope.

Section Spec.
Variable sc : sched.

(** What the readers and the background thread did. *)
Definition read_events (es : list (hevent sc)) : list (revent sc) :=
  flat_map (fun e => match e with HEv e => [e] | _ => [] end) es.

(** The steps of the readers and the background thread. *)
Definition read_labels (ls : list hlabel) : list rlabel :=
  flat_map (fun l => match l with HR l => [l] | _ => [] end) ls.

(** The batches that calls of [next_episode] discarded. *)
Definition discards (es : list (hevent sc)) : list (sc_batch sc) :=
  flat_map (fun e => match e with HFlushed (Data b) => [b] | _ => [] end) es.

(** How often [next_episode] was called. *)
Definition skips (ls : list hlabel) : nat :=
  List.length (filter (fun l => match l with HCall => true | _ => false end) ls).

(** No reader does anything but time out. *)
Definition unread (l : hlabel) : Prop :=
  match l with HStep | HR (RExpire _) | HR (RWork _) => True | _ => False end.

End Spec.
Arguments read_events {sc}. Arguments discards {sc}.
