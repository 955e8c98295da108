(** Vocabulary for the properties of the prefetcher: what the wrapped
    scheduler produces when driven on its own, and what a list of events means
    for the consumer. *)
From Coq Require Import List Arith Bool.
Import ListNotations.
From Verif Require Import Model.Prefetch.
Local Open Scope nat_scope.

(** [subseq a b]: [a] is obtained from [b] by deleting elements. *)
Inductive subseq {A : Type} : list A -> list A -> Prop :=
| sub_nil : subseq [] []
| sub_skip : forall x a b, subseq a b -> subseq a (x :: b)
| sub_keep : forall x a b, subseq a b -> subseq (x :: a) (x :: b).

Section Spec.
Variable sc : sched.

(** The batches returned by the first [n] calls of the wrapped scheduler's
    [get_batch] starting from state [u] (with [next_episode] after each
    EpisodeEnd), and the state afterwards: no prefetching, no threads. *)
Fixpoint calls (n : nat) (u : sc_state sc) : list (sc_batch sc) * sc_state sc :=
  match n with
  | 0 => ([], u)
  | S k =>
      let (l, v) := calls k u in
      match sc_get sc v with
      | (GBatch b, w) => (l ++ [b], w)
      | (GEpisodeEnd, w) =>
          match sc_len sc, sc_next sc w with
          | Some _, Some x => (l, x)
          | _, _ => (l, w)
          end
      | (_, w) => (l, w)
      end
  end.

(** The batches [get_batch] returned to the consumer. *)
Definition returned (es : list (event sc)) : list (sc_batch sc) :=
  flat_map (fun e => match e with EvReturn b => [b] | _ => [] end) es.

(** The batches handed out: returned, or discarded by [next_episode]. *)
Definition handed (es : list (event sc)) : list (sc_batch sc) :=
  flat_map (fun e => match e with EvReturn b | EvFlush b => [b] | _ => [] end) es.

(** The batches thrown away to make room for the end-of-stream marker. *)
Definition dropped (es : list (event sc)) : list (sc_batch sc) :=
  flat_map (fun e => match e with EvDrop (Data b) => [b] | _ => [] end) es.

(** The batches thrown away by [reset] and [shutdown]. *)
Definition polled (es : list (event sc)) : list (sc_batch sc) :=
  flat_map (fun e => match e with EvPoll (Data b) => [b] | _ => [] end) es.

(** The batches in the queue, oldest first. *)
Definition queued (q : list (item sc)) : list (sc_batch sc) :=
  flat_map (fun i => match i with Data b => [b] | EOS => [] end) q.

(** The batch the background thread has fetched and not yet put. *)
Definition inflight (s : pst sc) : list (sc_batch sc) :=
  match p_worker s with WPut b => [b] | _ => [] end.

(** How often the wrapped scheduler has been called. *)
Definition fetches (ls : list label) : nat :=
  List.length (filter (fun l => match l with LWFetch => true | _ => false end) ls).

(** The execution contains no completed [reset] / no [shutdown] call. *)
Definition no_reset (ls : list label) : Prop := ~ In LResetJoin ls.
Definition no_shutdown (ls : list label) : Prop := ~ In LCallShutdown ls.

(** What the wrapped scheduler's call number [n] (from 0) answers. *)
Definition answer (n : nat) (u : sc_state sc) : gres (sc_batch sc) :=
  fst (sc_get sc (snd (calls n u))).

(** Call number [n] ends the stream: StopIteration, an exception, or the end of
    an episode that no [next_episode] follows. *)
Definition last_call (n : nat) (u : sc_state sc) : Prop :=
  answer n u = GStop \/ answer n u = GFail \/
  answer n u = GEpisodeEnd /\
  (sc_len sc = None \/ sc_next sc (snd (sc_get sc (snd (calls n u)))) = None).

(** The wrapped scheduler yields episodes of [L] batches: [ep e t] is step [t]
    of episode [e]. *)
Definition yields_episodes (L : nat) (u : sc_state sc) (ep : nat -> nat -> sc_batch sc) : Prop :=
  exists at_ : sc_state sc -> nat -> nat -> Prop,
    at_ u 0 0 /\
    (forall v e t, at_ v e t -> t < L ->
       exists w, sc_get sc v = (GBatch (ep e t), w) /\ at_ w e (S t)) /\
    (forall v e, at_ v e L ->
       exists w x, sc_get sc v = (GEpisodeEnd, w) /\ sc_next sc w = Some x /\ at_ x (S e) 0).

(** The consumer's own book-keeping: the number of the episode it is in, the
    number of batches it has received in it, and whether it has made a call at
    all (the first [next_episode] of all only starts the thread). *)
Definition place_step (p : nat * nat * bool) (e : event sc) : nat * nat * bool :=
  let '(ep, s, begun) := p in
  match e with
  | EvReturn _ => (ep, S s, true)
  | EvStopEos | EvStopTimeout | EvEpisodeEnd => (ep, s, true)
  | EvNext | EvNextEos | EvNextTimeout => (if begun then S ep else ep, 0, true)
  | EvReset => (0, 0, false)
  | _ => p
  end.
Definition place (es : list (event sc)) : nat * nat * bool := fold_left place_step es (0, 0, false).

(** Queue items [get_batch] consumed since the last [next_episode] or [reset]. *)
Definition taken_step (n : nat) (e : event sc) : nat :=
  match e with
  | EvReturn _ | EvStopEos => S n
  | EvNext | EvNextEos | EvNextTimeout | EvReset => 0
  | _ => n
  end.
Definition taken_in_episode (es : list (event sc)) : nat := fold_left taken_step es 0.

(** The background thread can make a step. *)
Definition worker_enabled (B N : nat) (s : pst sc) : Prop :=
  exists l r, worker_label l = true /\ pstep sc B N s l = Some r.

End Spec.

Arguments calls {sc}. Arguments answer {sc}. Arguments last_call {sc}. Arguments returned {sc}. Arguments handed {sc}. Arguments dropped {sc}.
Arguments polled {sc}. Arguments queued {sc}. Arguments inflight {sc}. Arguments place {sc}.
Arguments taken_in_episode {sc}. Arguments yields_episodes {sc}. Arguments worker_enabled {sc}.
