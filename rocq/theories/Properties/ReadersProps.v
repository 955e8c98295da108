(** Property C127: several threads calling [get_batch] of one prefetching
    scheduler, under every interleaving.  [rexec sc B N (rinit sc u) ls es s] is an
    execution from the construction over a scheduler in state [u]; [calls n u] is
    what the wrapped scheduler returns in its first [n] calls when used directly. *)
From Coq Require Import List Arith Bool ZArith Lia.
From Verif Require Import Model.Prefetch Spec.PrefetchSpec Model.Readers Spec.ReadersSpec
  Proofs.PrefetchProofs Proofs.PrefetchWitness Proofs.ReadersProofs.
Import ListNotations.
Local Open Scope nat_scope.

(** The batches the readers have removed, in that order, are a subsequence of
    what the wrapped scheduler returned: each goes to one reader only. *)
Theorem C127_order : forall sc B N u ls es s, 1 <= N -> rexec sc B N (rinit sc u) ls es s ->
  subseq (queued (took es)) (fst (calls (rfetches ls) u)).
Proof. intros sc B N u ls es s HN. exact (order sc B N HN u ls es s). Qed.
Print Assumptions C127_order.

(** Each reader returns what it removed, in that order. *)
Theorem C127_own : forall sc B N i u ls es s, rexec sc B N (rinit sc u) ls es s ->
  took_by i es = got_by i es ++ holds i s.
Proof. intros sc B N i u ls es s. exact (own sc B N i u ls es s). Qed.
Print Assumptions C127_own.

(** As long as no batch was dropped for the marker nothing is lost; at most one
    is. *)
Theorem C127_no_loss : forall sc B N u ls es s, 1 <= N -> rexec sc B N (rinit sc u) ls es s ->
  dropped (worker_events es) = [] ->
  fst (calls (rfetches ls) u) = queued (took es) ++ queued (p_queue (r_sh s)) ++ inflight (r_sh s).
Proof. intros sc B N u ls es s HN. exact (none_lost sc B N HN u ls es s). Qed.
Print Assumptions C127_no_loss.

Theorem C127_loss_bound : forall sc B N u ls es s, 1 <= N -> rexec sc B N (rinit sc u) ls es s ->
  List.length (fst (calls (rfetches ls) u)) <=
  List.length (queued (took es)) + List.length (queued (p_queue (r_sh s))) + List.length (inflight (r_sh s)) + 1 /\
  List.length (p_queue (r_sh s)) <= N.
Proof. intros sc B N u ls es s HN. exact (one_lost sc B N HN u ls es s). Qed.
Print Assumptions C127_loss_bound.

(** Once a reader has removed the marker no reader gets anything more, and one
    that waits can only time out. *)
Theorem C127_one_marker : forall sc B N u ls1 es1 s1 ls2 es2 s2, 1 <= N ->
  rexec sc B N (rinit sc u) ls1 es1 s1 -> rexec sc B N s1 ls2 es2 s2 -> In EOS (took es1) ->
  took es2 = [] /\
  forall i, r_pc s2 i = RWait ->
    rstep sc B N s2 (RStep i) = None /\
    exists s3, rstep sc B N s2 (RExpire i) = Some ([RStopTimeout i], s3) /\ r_pc s3 i = RIdle.
Proof.
  intros sc B N u ls1 es1 s1 ls2 es2 s2 HN H1 H2 K. split; [exact (marker_last sc B N HN u _ _ _ _ _ _ H1 H2 K)|].
  intros i W. destruct (marker_empties sc B N HN u _ _ _ (rexec_app sc B N _ _ _ _ _ _ _ H1 H2)) as [Q _].
  { rewrite took_app. apply in_app_iff. auto. }
  cbn [rstep]. rewrite W, Q. split; [reflexivity|]. eexists. split; [reflexivity|]. cbn [r_pc]. apply goes_self.
Qed.
Print Assumptions C127_one_marker.

(** A reader times out only when all that the wrapped scheduler has returned
    was removed, except for the batch the background thread holds. *)
Theorem C127_timeout : forall sc B N u ls es s i r, 1 <= N -> rexec sc B N (rinit sc u) ls es s ->
  dropped (worker_events es) = [] -> rstep sc B N s (RExpire i) = Some r ->
  fst (calls (rfetches ls) u) = queued (took es) ++ inflight (r_sh s).
Proof.
  intros sc B N u ls es s i r HN H D K. rewrite (none_lost sc B N HN u ls es s H D). cbn [rstep] in K.
  destruct (r_pc s i); try discriminate. destruct (p_queue (r_sh s)); [reflexivity|discriminate].
Qed.
Print Assumptions C127_timeout.

(** The counter of steps never exceeds the number of items read, so EpisodeEnd
    is never raised before an episode's worth of items was read. *)
Theorem C127_counter : forall sc B N u ls es s, 1 <= N -> rexec sc B N (rinit sc u) ls es s ->
  p_t (r_sh s) <= counted es /\ counted es <= List.length (took es).
Proof. intros sc B N u ls es s HN. exact (counter sc B N HN u ls es s). Qed.
Print Assumptions C127_counter.

Theorem C127_episode_not_early : forall sc B N u ls es s i L, 1 <= N -> rexec sc B N (rinit sc u) ls es s ->
  sc_len sc = Some L -> In (REpisodeEnd i) es -> L <= List.length (took es).
Proof. intros sc B N u ls es s i L HN. exact (not_early sc B N HN u ls es s i L). Qed.
Print Assumptions C127_episode_not_early.

(** It is exact if never two readers are between reading and writing it. *)
Theorem C127_counter_exact : forall sc B N u ls es s, 1 <= N -> rexec sc B N (rinit sc u) ls es s ->
  (forall ls1 ls2 es1 s1, ls = ls1 ++ ls2 -> rexec sc B N (rinit sc u) ls1 es1 s1 ->
     forall i j x y t t', r_pc s1 i = RAdd x t -> r_pc s1 j = RAdd y t' -> i = j) ->
  p_t (r_sh s) = counted es.
Proof. intros sc B N u ls es s HN. exact (counter_exact sc B N HN u ls es s). Qed.
Print Assumptions C127_counter_exact.

(** Executing a list of labels. *)
Fixpoint rrun (sc : sched) (B N : nat) (s : rst sc) (ls : list rlabel) : option (list (revent sc) * rst sc) :=
  match ls with
  | [] => Some ([], s)
  | l :: r =>
      match rstep sc B N s l with
      | None => None
      | Some (e, s1) =>
          match rrun sc B N s1 r with
          | None => None
          | Some (es, s2) => Some (e ++ es, s2)
          end
      end
  end.

Lemma rrun_exec : forall sc B N ls s es s', rrun sc B N s ls = Some (es, s') -> rexec sc B N s ls es s'.
Proof.
  induction ls as [|l ls IH]; intros s es s' H; cbn in H.
  - injection H as <- <-. constructor.
  - destruct (rstep sc B N s l) as [[e s1]|] eqn:E; [|discriminate].
    destruct (rrun sc B N s1 ls) as [[es1 s2]|] eqn:E2; [|discriminate].
    injection H as <- <-. apply (rexec_app sc B N s [l] e s1 ls es1 s2); [|apply IH; exact E2].
    apply (rexec_snoc sc B N s [] l [] e s s1); [constructor | exact E].
Qed.

(** What a run shows: events, the counter, and what is queued. *)
Definition shows (sc : sched) (B N : nat) (u : sc_state sc) (ls : list rlabel)
  : option (list (revent sc) * nat * list (item sc)) :=
  match rrun sc B N (rinit sc u) ls with
  | Some (es, s) => Some (es, p_t (r_sh s), p_queue (r_sh s))
  | None => None
  end.

Lemma shows_exec : forall sc B N u ls es t q, shows sc B N u ls = Some (es, t, q) ->
  exists s, rexec sc B N (rinit sc u) ls es s /\ p_t (r_sh s) = t /\ p_queue (r_sh s) = q.
Proof.
  intros sc B N u ls es t q H. unfold shows in H.
  destruct (rrun sc B N (rinit sc u) ls) as [[es' s]|] eqn:E; [|discriminate].
  injection H as <- <- <-. exists s. split; [apply rrun_exec; exact E | auto].
Qed.

Definition produce : list rlabel := [RWork LWCheck; RWork LWFetch; RWork LWPut].
Definition begin_ (i : nat) : list rlabel := [RCall i 1; RStep i; RStep i; RStep i; RStep i].
Definition enter (i : nat) : list rlabel := [RCall i 1; RStep i; RStep i].
Definition finish (i : nat) : list rlabel := [RStep i; RStep i; RStep i; RStep i].

(** Two readers share three batches; one of them reads the marker, the other
    times out. *)
Example exR_shared :
  shows (numbers (Some 3) GStop) 1 2 0
    (begin_ 0 ++ produce ++ produce ++ enter 1 ++ finish 1 ++ finish 0 ++ produce ++ enter 0 ++ enter 1 ++ finish 0 ++
     [RWork LWCheck; RWork LWFetch; RWork LWEosPut; RWork LWSetStop] ++ finish 1 ++ enter 0 ++ [RExpire 0])
  = let took_ i b := @RTook (numbers (Some 3) GStop) i (Data (sc := numbers (Some 3) GStop) b) in
    let return_ i b := @RReturn (numbers (Some 3) GStop) i b in
    Some ([took_ 1 0; RCount 1; return_ 1 0; took_ 0 1; RCount 0; return_ 0 1;
           took_ 0 2; RCount 0; return_ 0 2; RTook 1 EOS; RCount 1; RStopEos 1; RStopTimeout 0], 4, []).
Proof. vm_compute. reflexivity. Qed.

(** Two readers start together: the one that comes second to the thread gets
    RuntimeError. *)
Example exR_start :
  shows (numbers None GStop) 1 2 0 [RCall 0 1; RCall 1 1; RStep 0; RStep 1; RStep 0; RStep 1; RStep 0; RStep 1]
  = Some ([RRuntimeError 1], 0, []).
Proof. vm_compute. reflexivity. Qed.

(** That an episode ends after its length is false with two readers: for
    episodes of two steps, the updates of the counter overlap, both readers have
    returned the whole first episode, one step is said to remain, and the next call
    returns the first step of the next episode; nobody has called [next_episode] and
    nobody was told that the episode has ended. *)
Theorem C127_episode_length_refuted :
  let return_ i b := @RReturn (grid 2) i b in
  let took_ i b := @RTook (grid 2) i (Data (sc := grid 2) b) in
  exists ls es s, rexec (grid 2) 1 2 (rinit (grid 2) (0, 0)) ls
      (es ++ [return_ 0 (0, 0); return_ 1 (0, 1); took_ 0 (1, 0); RCount 0; return_ 0 (1, 0)]) s /\
    counted (es ++ [return_ 0 (0, 0); return_ 1 (0, 1)]) = 2 /\
    (forall i, ~ In (REpisodeEnd i) es) /\ p_t (r_sh s) = 2.
Proof.
  intros return_ took_.
  destruct (shows_exec (grid 2) 1 2 (0, 0)
    (begin_ 0 ++ enter 1 ++ produce ++ produce ++ [RStep 0; RStep 1; RStep 0; RStep 1; RStep 0; RStep 1; RStep 0; RStep 1] ++
     [RWork LWCheck; RWork LWFetch] ++ produce ++ enter 0 ++ finish 0)
    ([took_ 0 (0, 0); took_ 1 (0, 1); RCount 0; RCount 1] ++
     [return_ 0 (0, 0); return_ 1 (0, 1); took_ 0 (1, 0); RCount 0; return_ 0 (1, 0)]) 2 []) as (s & E & T & _).
  { vm_compute. reflexivity. }
  eexists. eexists. exists s. split; [exact E|]. split; [reflexivity|]. split; [|exact T].
  cbn [In]. intros i. unfold took_. intuition discriminate.
Qed.
Print Assumptions C127_episode_length_refuted.
