(** Several consumers of one prefetching scheduler: vocabulary for C127. *)
From Coq Require Import List Arith Bool.
From Verif Require Import Model.Prefetch Spec.PrefetchSpec Model.Readers.
Import ListNotations.
Local Open Scope nat_scope.

Section Spec.
Variable sc : sched.

(** What was removed from the queue, by all readers or by reader [i]. *)
Definition took (es : list (revent sc)) : list (item sc) :=
  flat_map (fun e => match e with RTook _ x => [x] | _ => [] end) es.
Definition took_by (i : nat) (es : list (revent sc)) : list (item sc) :=
  flat_map (fun e => match e with RTook j x => if i =? j then [x] else [] | _ => [] end) es.

(** What the calls of reader [i] ended with, as items. *)
Definition got_by (i : nat) (es : list (revent sc)) : list (item sc) :=
  flat_map (fun e => match e with
                     | RReturn j b => if i =? j then [Data b] else []
                     | RStopEos j => if i =? j then [EOS] else []
                     | _ => []
                     end) es.

(** The item reader [i] has removed and not yet returned. *)
Definition holds (i : nat) (s : rst sc) : list (item sc) :=
  match r_pc s i with RHas x | RAdd x _ | RGot x => [x] | _ => [] end.

(** What the background thread dropped. *)
Definition worker_events (es : list (revent sc)) : list (event sc) :=
  flat_map (fun e => match e with RWorker e => [e] | _ => [] end) es.

(** How often the wrapped scheduler has been called. *)
Definition rfetches (ls : list rlabel) : nat :=
  List.length (filter (fun l => match l with RWork LWFetch => true | _ => false end) ls).

(** How often the counter was written. *)
Definition counted (es : list (revent sc)) : nat :=
  List.length (filter (fun e => match e with RCount _ => true | _ => false end) es).

Definition markers (l : list (item sc)) : nat :=
  List.length (filter (fun x => match x with EOS => true | _ => false end) l).
End Spec.
Arguments took {sc}. Arguments took_by {sc}. Arguments got_by {sc}. Arguments holds {sc}. Arguments worker_events {sc}.
Arguments counted {sc}. Arguments markers {sc}.
