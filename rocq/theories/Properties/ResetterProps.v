(** Property C129: [reset] of a prefetching scheduler called by one thread while
    others are inside [get_batch], under every interleaving. *)
From Coq Require Import List Arith Bool Lia.
From Verif Require Import Model.Prefetch Spec.PrefetchSpec Model.Readers Spec.ReadersSpec Model.Resetter Spec.ResetterSpec
  Proofs.ReadersProofs Proofs.ResetterProofs Proofs.ResetterLive Proofs.PrefetchWitness Properties.ReadersProps.
Import ListNotations.
Local Open Scope nat_scope.

(** What the readers have taken since the wrapped scheduler was last reset is, in
    this order, among what it returns from its reset state on: nothing fetched
    before, nothing twice. *)
Theorem C129_order : forall sc B N u ls es s, 1 <= N -> gexec sc B N (ginit sc u) ls es s ->
  exists n, subseq (queued (took (reading (since es)))) (fst (calls n (restarted u es))).
Proof. exact g_order. Qed.
Print Assumptions C129_order.

(** When no reset is under way at most one of the batches fetched since the last
    reset is neither taken nor waiting. *)
Theorem C129_loss_bound : forall sc B N u ls es s, 1 <= N -> gexec sc B N (ginit sc u) ls es s -> g_pc s = GIdle ->
  exists n bs, calls n (restarted u es) = (bs, p_sched (r_sh (g_r s))) /\ subseq (queued (took (reading (since es)))) bs /\
    List.length bs <= List.length (queued (took (reading (since es)))) +
      List.length (queued (p_queue (r_sh (g_r s)))) + List.length (inflight (r_sh (g_r s))) + 1.
Proof. exact g_loss. Qed.
Print Assumptions C129_loss_bound.

(** Each reader returns what it took, be it after a reset. *)
Theorem C129_own : forall sc B N i u ls es s, gexec sc B N (ginit sc u) ls es s ->
  took_by i (reading es) = got_by i (reading es) ++ holds i (g_r s).
Proof. exact g_own. Qed.
Print Assumptions C129_own.

(** A reader that is waiting when [reset] replaces the queue receives nothing any
    more: whatever is fetched afterwards, its call ends with the timeout. *)
Theorem C129_left_behind : forall sc B N s e s1 ls es s2 i,
  g_pc s = GQueue -> r_pc (g_r s) i = RWait -> gstep sc B N s GStep = Some (e, s1) -> gexec sc B N s1 ls es s2 ->
  (r_pc (g_r s2) i = RWait /\ took_by i (reading es) = [] /\ gstep sc B N s2 (GR (RStep i)) = None) \/
  In (GEv (RStopTimeout i)) es.
Proof.
  intros sc B N s e s1 ls es s2 i PC W K H. cbn [gstep] in K. rewrite PC in K. injection K as <- <-.
  destruct (g_left sc B N _ _ _ _ i H) as [(W2 & O & T)|I]; [exact W | cbn; unfold now_waits; rewrite W; reflexivity | left | right; exact I].
  split; [exact W2|]. split; [exact T|]. cbn [gstep greader]. rewrite W2, O. destruct (p_worker (r_sh (g_r s2))); reflexivity.
Qed.
Print Assumptions C129_left_behind.

(** If the flag says that the thread was started although it was not, no reader
    ever receives anything, until [reset] is called again. *)
Theorem C129_stuck : forall sc B N s ls es s', stuck sc s -> gexec sc B N s ls es s' -> ~ In GCall ls ->
  stuck sc s' /\ took (reading es) = [].
Proof. exact g_stuck. Qed.
Print Assumptions C129_stuck.

(** [reset] returns: when it waits for the thread, the thread can end by its own
    steps, without a reader removing anything, and then [reset] goes on. *)
Theorem C129_returns : forall sc B N u ls es s, 1 <= N -> gexec sc B N (ginit sc u) ls es s -> g_pc s = GJoin ->
  exists ls2 es2 s2, gexec sc B N s (map GR (map RWork ls2)) es2 s2 /\ g_pc s2 = GJoin /\ gstep sc B N s2 GStep <> None.
Proof. intros sc B N u ls es s HN. exact (g_returns sc B N HN u ls es s). Qed.
Print Assumptions C129_returns.

(** If nobody calls [get_batch] while lines 211-216 are executed (readers may be
    waiting, and time out), the next call gets the first batch of the reset
    scheduler. *)
Theorem C129_delivers : forall sc B N u ls es s ls2 es2 s2 i b v', 1 <= N ->
  gexec sc B N (ginit sc u) ls es s -> g_pc s = GSched ->
  gexec sc B N s ls2 es2 s2 -> Forall undisturbed ls2 -> g_pc s2 = GIdle -> r_pc (g_r s2) i = RIdle ->
  sc_get sc (sc_reset sc (p_sched (r_sh (g_r s)))) = (GBatch b, v') -> (forall L, sc_len sc = Some L -> 1 <= L) ->
  exists s3, gexec sc B N s2
    (map GR [RCall i B; RStep i; RStep i; RStep i; RStep i; RWork LWCheck; RWork LWFetch; RWork LWPut; RStep i; RStep i; RStep i; RStep i])
    [GEv (RTook i (Data b)); GEv (RCount i); GEv (RReturn i b)] s3.
Proof. intros sc B N u ls es s ls2 es2 s2 i b v' HN. exact (g_again sc B N HN u ls es s ls2 es2 s2 i b v'). Qed.
Print Assumptions C129_delivers.

(** Concrete runs. *)
Fixpoint grun (sc : sched) (B N : nat) (s : gst sc) (ls : list glabel) : option (list (gevent sc) * gst sc) :=
  match ls with
  | [] => Some ([], s)
  | l :: ls => match gstep sc B N s l with
               | None => None
               | Some (e, s1) => match grun sc B N s1 ls with
                                 | None => None
                                 | Some (es, s2) => Some (e ++ es, s2)
                                 end
               end
  end.

Lemma grun_exec : forall sc B N ls s es s', grun sc B N s ls = Some (es, s') -> gexec sc B N s ls es s'.
Proof.
  induction ls as [|l ls IH]; intros s es s' H; cbn in H.
  - injection H as <- <-. constructor.
  - destruct (gstep sc B N s l) as [[e s1]|] eqn:E; [|discriminate].
    destruct (grun sc B N s1 ls) as [[es1 s2]|] eqn:E2; [|discriminate].
    injection H as <- <-. apply (gexec_app sc B N s [l] e s1 ls es1 s2); [|apply IH; exact E2].
    apply (gexec_snoc sc B N s [] l [] e s s1); [constructor | exact E].
Qed.

(** What a run shows: events, what is queued, whether reader 1 waits, whether the
    thread counts as started, whether it was not started. *)
Definition gshows (sc : sched) (B N : nat) (u : sc_state sc) (ls : list glabel)
  : option (list (gevent sc) * list (item sc) * bool * bool * bool) :=
  match grun sc B N (ginit sc u) ls with
  | Some (es, s) => Some (es, p_queue (r_sh (g_r s)), now_waits (g_r s) 1, p_started (r_sh (g_r s)),
                          match p_worker (r_sh (g_r s)) with WIdle => true | _ => false end)
  | None => None
  end.
(** Whether no reset is under way, whether reader 1 waits on a replaced queue,
    whether reader 0 is between calls. *)
Definition gwhere (sc : sched) (B N : nat) (u : sc_state sc) (ls : list glabel) : option (bool * bool * bool) :=
  match grun sc B N (ginit sc u) ls with
  | Some (_, s) => Some (match g_pc s with GIdle => true | _ => false end, g_old s 1,
                         match r_pc (g_r s) 0 with RIdle => true | _ => false end)
  | None => None
  end.

Lemma gshows_exec : forall sc B N u ls es q w a n, gshows sc B N u ls = Some (es, q, w, a, n) ->
  exists s, gexec sc B N (ginit sc u) ls es s /\
    p_queue (r_sh (g_r s)) = q /\ now_waits (g_r s) 1 = w /\ p_started (r_sh (g_r s)) = a /\
    (n = true -> p_worker (r_sh (g_r s)) = WIdle) /\
    forall o z, gwhere sc B N u ls = Some (true, o, z) -> g_pc s = GIdle /\ g_old s 1 = o /\ (z = true -> r_pc (g_r s) 0 = RIdle).
Proof.
  intros sc B N u ls es q w a n H. unfold gshows, gwhere in *.
  destruct (grun sc B N (ginit sc u) ls) as [[es' s]|] eqn:E; [|discriminate].
  injection H as <- <- <- <- N1. exists s. split; [apply grun_exec; exact E|].
  repeat split; try (intros ->; destruct (p_worker (r_sh (g_r s))); congruence);
    injection H as P O Z; [destruct (g_pc s); congruence | exact O | intros ->; destruct (r_pc (g_r s) 0); congruence].
Qed.

(** One call of [reset], the thread ending when it looks at the stop event. *)
Definition whole_reset : list glabel :=
  [GCall; GStep; GR (RWork LWCheck); GStep; GStep; GStep; GStep; GStep; GStep; GStep; GStep].

(** A batch fetched before is returned after [reset] has returned: the reader had
    taken it.  Then it gets the first batch of the new pass. *)
Example exG_held :
  gshows (numbers None GStop) 1 2 0
    (map GR (begin_ 0 ++ produce ++ finish 0 ++ produce ++ enter 0 ++ [RStep 0]) ++ whole_reset ++
     map GR ([RStep 0; RStep 0; RStep 0] ++ begin_ 0 ++ produce ++ finish 0))
  = let took_ b := GEv (@RTook (numbers None GStop) 0 (Data (sc := numbers None GStop) b)) in
    let return_ b := GEv (@RReturn (numbers None GStop) 0 b) in
    let was_ v := @GWas (numbers None GStop) v in
    Some ([took_ 0; GEv (RCount 0); return_ 0; took_ 1; GCleared []; was_ 2; GReturned;
           GEv (RCount 0); return_ 1; took_ 0; GEv (RCount 0); return_ 0], [], false, true, false).
Proof. vm_compute. reflexivity. Qed.

(** That no batch fetched before is returned after [reset] has returned is false. *)
Theorem C129_no_stale_refuted :
  let sc := numbers None GStop in
  exists ls es1 es2 s, gexec sc 1 2 (ginit sc 0) ls (es1 ++ [GReturned] ++ es2) s /\
    In (GEv (@RTook sc 0 (Data (sc := sc) 1))) es1 /\ In (GEv (@RReturn sc 0 1)) es2 /\ took (reading es2) = [].
Proof.
  intros sc.
  destruct (gshows_exec sc 1 2 0
    (map GR (begin_ 0 ++ produce ++ finish 0 ++ produce ++ enter 0 ++ [RStep 0]) ++ whole_reset ++ map GR [RStep 0; RStep 0; RStep 0])
    ([GEv (@RTook sc 0 (Data (sc := sc) 0)); GEv (RCount 0); GEv (@RReturn sc 0 0); GEv (@RTook sc 0 (Data (sc := sc) 1));
      GCleared []; @GWas sc 2] ++ [GReturned] ++ [GEv (RCount 0); GEv (@RReturn sc 0 1)]) [] false false true) as (s & E & _).
  { vm_compute. reflexivity. }
  eexists. eexists. eexists. exists s. split; [exact E|]. cbn [In]. split; [auto 10|]. split; [auto 10|]. reflexivity.
Qed.
Print Assumptions C129_no_stale_refuted.

(** That a reader waiting in [get_batch] receives what is fetched after [reset] is
    false: reader 1 waits, [reset] has returned, reader 0 has started the new
    thread, a batch is queued, and reader 1 can only time out. *)
Theorem C129_waiting_refuted :
  let sc := numbers None GStop in
  exists ls es s, gexec sc 1 2 (ginit sc 0) ls es s /\
    In GReturned es /\ g_pc s = GIdle /\ r_pc (g_r s) 1 = RWait /\ p_queue (r_sh (g_r s)) = [Data (sc := sc) 0] /\
    gstep sc 1 2 s (GR (RStep 1)) = None /\
    exists s', gstep sc 1 2 s (GR (RExpire 1)) = Some ([GEv (RStopTimeout 1)], s').
Proof.
  intros sc.
  destruct (gshows_exec sc 1 2 0 (map GR (begin_ 1) ++ whole_reset ++ map GR (begin_ 0 ++ produce))
    ([GCleared []; @GWas sc 0; GReturned]) [Data (sc := sc) 0] true true false) as (s & E & Q & W & _ & _ & X).
  { vm_compute. reflexivity. }
  assert (W' : r_pc (g_r s) 1 = RWait) by (unfold now_waits in W; destruct (r_pc (g_r s) 1); congruence).
  destruct (X true false) as (P & O & _); [vm_compute; reflexivity|].
  eexists. eexists. exists s. split; [exact E|]. split; [cbn [In]; auto 10|]. split; [exact P|]. split; [exact W'|]. split; [exact Q|].
  cbn [gstep greader]. rewrite W', O, W. split; [destruct (p_worker (r_sh (g_r s))); reflexivity|]. eexists. reflexivity.
Qed.
Print Assumptions C129_waiting_refuted.

(** That [reset] makes the scheduler deliver again is false: reader 0 calls
    [get_batch] after line 213, tries to start the old thread and gets RuntimeError,
    and the flag stays set; nobody will start the new thread. *)
Theorem C129_restarts_refuted :
  let sc := numbers None GStop in
  exists ls es s, gexec sc 1 2 (ginit sc 0) ls (es ++ [GReturned]) s /\ In (GEv (RRuntimeError 0)) es /\ stuck sc s.
Proof.
  intros sc.
  destruct (gshows_exec sc 1 2 0
    (map GR (begin_ 0 ++ produce ++ finish 0) ++
     [GCall; GStep; GR (RWork LWCheck); GStep; GStep; GStep; GStep; GStep] ++ map GR [RCall 0 1; RStep 0; RStep 0; RStep 0] ++
     [GStep; GStep; GStep])
    ([GEv (@RTook sc 0 (Data (sc := sc) 0)); GEv (RCount 0); GEv (@RReturn sc 0 0); GCleared []; @GWas sc 1; GEv (RRuntimeError 0)] ++ [GReturned])
    [] false true true) as (s & E & Q & _ & A & W & X).
  { vm_compute. reflexivity. }
  destruct (X false true) as (P & _ & Z); [vm_compute; reflexivity|].
  eexists. eexists. exists s. split; [exact E|]. split; [cbn [In]; auto 10|].
  split; [exact P|]. split; [exact A|]. split; [exact (W eq_refl)|]. split; [exact Q|].
  intros i. assert (I : r_pc (g_r s) i = RIdle).
  { destruct (Nat.eq_dec i 0) as [->|NE]; [exact (Z eq_refl)|].
    rewrite (idle_stays sc 1 2 0 i _ _ _ _ E); [reflexivity | reflexivity | exact NE]. }
  rewrite I. split; discriminate.
Qed.
Print Assumptions C129_restarts_refuted.

(** That after [reset] an episode has its full length is false: a reader that took
    an item before writes the counter afterwards.  For episodes of two steps, EpisodeEnd
    comes when one step was returned since the reset. *)
Theorem C129_episode_refuted :
  let sc := grid 2 in
  exists ls es s, gexec sc 1 2 (ginit sc (0, 0)) ls es s /\
    In GReturned (since es) /\ queued (took (reading (since es))) = [(0, 0)] /\ In (GEv (REpisodeEnd 0)) (since es).
Proof.
  intros sc.
  destruct (gshows_exec sc 1 2 (0, 0)
    (map GR (begin_ 0 ++ produce ++ [RStep 0; RStep 0]) ++ whole_reset ++
     map GR ([RStep 0; RStep 0] ++ begin_ 0 ++ produce ++ finish 0 ++ enter 0))
    [GEv (@RTook sc 0 (Data (sc := sc) (0, 0))); GCleared []; @GWas sc (0, 1); GReturned; GEv (RCount 0); GEv (@RReturn sc 0 (0, 0));
     GEv (@RTook sc 0 (Data (sc := sc) (0, 0))); GEv (RCount 0); GEv (@RReturn sc 0 (0, 0)); GEv (REpisodeEnd 0)]
    [] false true false) as (s & E & _).
  { vm_compute. reflexivity. }
  eexists. eexists. exists s. split; [exact E|]. cbn [since fold_left app In]. split; [auto 10|]. split; [reflexivity|]. auto 10.
Qed.
Print Assumptions C129_episode_refuted.
