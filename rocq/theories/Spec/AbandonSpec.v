(** How much a wrapped scheduler still delivers: vocabulary for C123. *)
From Coq Require Import List Arith Bool.
From Verif Require Import Model.Prefetch Model.Abandon.
Import ListNotations.
Local Open Scope nat_scope.

(** From state [v], exactly [k] batches come before the scheduler raises
    StopIteration or fails, episodes being renewed in between. *)
Inductive drains (sc : sched) : nat -> sc_state sc -> Prop :=
| dr_stop : forall v w, sc_get sc v = (GStop, w) -> drains sc 0 v
| dr_fail : forall v w, sc_get sc v = (GFail, w) -> drains sc 0 v
| dr_batch : forall k v b w, sc_get sc v = (GBatch b, w) -> drains sc k w -> drains sc (S k) v
| dr_next : forall k v w x L, sc_get sc v = (GEpisodeEnd, w) -> sc_len sc = Some L -> sc_next sc w = Some x ->
    drains sc k x -> drains sc k v.

(** A scheduler that, as long as it is in the states [P], always has a batch, at
    most after renewing the episode, and stays there. *)
Definition endless (sc : sched) (P : sc_state sc -> Prop) : Prop :=
  (forall v, P v -> (exists b w, sc_get sc v = (GBatch b, w) /\ P w) \/
    exists w x L b y, sc_get sc v = (GEpisodeEnd, w) /\ sc_len sc = Some L /\ sc_next sc w = Some x /\ P x /\
      sc_get sc x = (GBatch b, y)) /\
  forall v, P v -> P (sc_reset sc v).

(** The thread is at work: it has neither ended nor met the end of the data. *)
Definition reading {sc} (s : pst sc) : Prop := p_worker s = WCheck \/ p_worker s = WFetch \/ exists b, p_worker s = WPut b.

(** Nothing can happen any more. *)
Definition final {sc} (B N : nat) (x : pst sc * bool) : Prop := forall y, ~ dstep B N x y.

(** Every run from here comes to an end. *)
Definition ends {sc} (B N : nat) (x : pst sc * bool) : Prop := Acc (fun y z => dstep B N z y) x.

(** The batch the thread holds in its hands, waiting for room. *)
Definition in_hand {sc} (s : pst sc) : nat := match p_worker s with WPut _ => 1 | _ => 0 end.

(** The thread waits for room in a full queue. *)
Definition blocked {sc} (N : nat) (s : pst sc) : Prop :=
  (exists b, p_worker s = WPut b) /\ List.length (p_queue s) = N.
