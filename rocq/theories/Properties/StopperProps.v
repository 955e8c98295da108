(** C128: readers of a prefetching scheduler that another thread shuts down. *)
From Coq Require Import List Arith Bool Lia.
From Verif Require Import Model.Prefetch Spec.PrefetchSpec Model.Readers Spec.ReadersSpec Model.Stopper Spec.StopperSpec
  Proofs.ReadersProofs Proofs.StopperProofs Proofs.PrefetchWitness Properties.ReadersProps.
Import ListNotations.
Local Open Scope nat_scope.

(** However readers, background thread and calls of [shutdown] interleave, what
    the readers take together is, in this order, among the batches of the wrapped
    scheduler, none twice. *)
Theorem C128_order : forall sc B N u ls es s, 1 <= N -> kexec sc B N (kinit sc u) ls es s ->
  subseq (queued (took (readers_events es))) (fst (calls (rfetches (readers_labels ls)) u)).
Proof. exact k_order. Qed.
Print Assumptions C128_order.

(** Each reader returns what it took. *)
Theorem C128_own : forall sc B N i u ls es s, kexec sc B N (kinit sc u) ls es s ->
  took_by i (readers_events es) = got_by i (readers_events es) ++ holds i (k_r s).
Proof. exact k_own. Qed.
Print Assumptions C128_own.

(** What is neither taken nor still there is at most one batch for the end of
    the stream and one for each call of [shutdown]. *)
Theorem C128_loss_bound : forall sc B N u ls es s, 1 <= N -> kexec sc B N (kinit sc u) ls es s ->
  List.length (fst (calls (rfetches (readers_labels ls)) u)) <=
  List.length (queued (took (readers_events es))) + List.length (queued (p_queue (r_sh (k_r s)))) +
  List.length (inflight (r_sh (k_r s))) + 1 + shutdowns ls.
Proof. exact k_loss. Qed.
Print Assumptions C128_loss_bound.

(** Once [shutdown] is called the wrapped scheduler is called at most once more. *)
Theorem C128_fetches : forall sc B N s e s1 ls es s2,
  kstep sc B N s KCall = Some (e, s1) -> kexec sc B N s1 ls es s2 -> rfetches (readers_labels ls) <= 1.
Proof. exact k_fetches. Qed.
Print Assumptions C128_fetches.

(** After [shutdown] has looked at the queue, the readers together get at most
    [buffer_size] more batches. *)
Theorem C128_bound : forall sc B N u ls1 es1 s1 e s2 ls2 es2 s3, 1 <= N ->
  kexec sc B N (kinit sc u) ls1 es1 s1 -> k_pc s1 = KPoll -> kstep sc B N s1 KStep = Some (e, s2) ->
  kexec sc B N s2 ls2 es2 s3 ->
  List.length (queued (took (readers_events es2))) <= N.
Proof. exact k_bound. Qed.
Print Assumptions C128_bound.

(** [shutdown] wakes a waiting reader: from the moment it has put its marker (or
    found the queue full) until something is removed, every waiting reader can take
    an item and none can time out. *)
Theorem C128_wakes : forall sc B N s e s1 ls es s2 i, 1 <= N ->
  k_pc s = KPut -> kstep sc B N s KStep = Some (e, s1) -> kexec sc B N s1 ls es s2 ->
  took (readers_events es) = [] -> (forall x, ~ In (KPolled x) es) -> r_pc (k_r s2) i = RWait ->
  (exists x s', kstep sc B N s2 (KR (RStep i)) = Some ([KEv (RTook i x)], s')) /\
  kstep sc B N s2 (KR (RExpire i)) = None.
Proof.
  intros sc B N s e s1 ls es s2 i HN PC K H T P W. apply k_takes; [exact W|].
  apply (kexec_nonempty sc B N _ _ _ _ H); auto. exact (k_wakes sc B N _ _ _ HN PC K).
Qed.
Print Assumptions C128_wakes.

(** Concrete runs. *)
Fixpoint krun (sc : sched) (B N : nat) (s : kst sc) (ls : list klabel) : option (list (kevent sc) * kst sc) :=
  match ls with
  | [] => Some ([], s)
  | l :: ls => match kstep sc B N s l with
               | None => None
               | Some (e, s1) => match krun sc B N s1 ls with
                                 | None => None
                                 | Some (es, s2) => Some (e ++ es, s2)
                                 end
               end
  end.

Lemma krun_exec : forall sc B N ls s es s', krun sc B N s ls = Some (es, s') -> kexec sc B N s ls es s'.
Proof.
  induction ls as [|l ls IH]; intros s es s' H; cbn in H.
  - injection H as <- <-. constructor.
  - destruct (kstep sc B N s l) as [[e s1]|] eqn:E; [|discriminate].
    destruct (krun sc B N s1 ls) as [[es1 s2]|] eqn:E2; [|discriminate].
    injection H as <- <-. apply (kexec_app sc B N s [l] e s1 ls es1 s2); [|apply IH; exact E2].
    apply (kexec_snoc sc B N s [] l [] e s s1); [constructor | exact E].
Qed.

Definition waits {sc : sched} (c : rpc sc) : bool := match c with RWait => true | _ => false end.
Definition done {sc : sched} (w : wpc sc) : bool := match w with WDone => true | _ => false end.

(** What a run shows: events, what is queued, whether the thread has ended and
    whether reader 1 waits. *)
Definition kshows (sc : sched) (B N : nat) (u : sc_state sc) (ls : list klabel)
  : option (list (kevent sc) * list (item sc) * bool * bool) :=
  match krun sc B N (kinit sc u) ls with
  | Some (es, s) => Some (es, p_queue (r_sh (k_r s)), done (p_worker (r_sh (k_r s))), waits (r_pc (k_r s) 1))
  | None => None
  end.

Lemma kshows_exec : forall sc B N u ls es q, kshows sc B N u ls = Some (es, q, true, true) ->
  exists s, kexec sc B N (kinit sc u) ls es s /\ p_queue (r_sh (k_r s)) = q /\ p_worker (r_sh (k_r s)) = WDone /\ r_pc (k_r s) 1 = RWait.
Proof.
  intros sc B N u ls es q H. unfold kshows in H.
  destruct (krun sc B N (kinit sc u) ls) as [[es' s]|] eqn:E; [|discriminate].
  injection H as <- <- D W. exists s. split; [apply krun_exec; exact E|]. split; [reflexivity|].
  split; [destruct (p_worker (r_sh (k_r s))); congruence || discriminate | destruct (r_pc (k_r s) 1); congruence || discriminate].
Qed.

(** A full buffer when [shutdown] is called: one batch is lost to it, the thread
    adds the one it holds, and the reader gets two more, as many as the buffer
    holds. *)
Example exK_full :
  kshows (numbers None GStop) 1 2 0
    (map KR (begin_ 0 ++ produce ++ produce ++ [RWork LWCheck; RWork LWFetch]) ++ [KCall; KStep; KR (RWork LWPut); KStep; KStep] ++
     map KR ([RWork LWCheck] ++ finish 0 ++ enter 0 ++ finish 0))
  = let took_ b := KEv (@RTook (numbers None GStop) 0 (Data (sc := numbers None GStop) b)) in
    let return_ b := KEv (@RReturn (numbers None GStop) 0 b) in
    Some ([KPolled (Data (sc := numbers None GStop) 0); KReturned; took_ 1; KEv (RCount 0); return_ 1;
           took_ 2; KEv (RCount 0); return_ 2], [], true, false).
Proof. vm_compute. reflexivity. Qed.

(** That [shutdown] wakes every waiting reader is false: of two waiting readers
    one gets the marker; [shutdown] has returned, the thread has ended, and the other
    one waits for its timeout. *)
Theorem C128_all_woken_refuted :
  exists ls es s, kexec (numbers None GStop) 1 2 (kinit (numbers None GStop) 0) ls es s /\
    In KReturned es /\ In (KEv (RStopEos 0)) es /\ p_worker (r_sh (k_r s)) = WDone /\ r_pc (k_r s) 1 = RWait /\
    kstep (numbers None GStop) 1 2 s (KR (RStep 1)) = None /\
    exists s', kstep (numbers None GStop) 1 2 s (KR (RExpire 1)) = Some ([KEv (RStopTimeout 1)], s').
Proof.
  destruct (kshows_exec (numbers None GStop) 1 2 0
    (map KR (begin_ 0 ++ enter 1) ++ [KCall; KStep; KStep] ++ map KR ([RWork LWCheck] ++ finish 0) ++ [KStep])
    [KEv (RTook 0 EOS); KEv (RCount 0); KEv (RStopEos 0); KReturned] []) as (s & E & Q & D & W).
  { vm_compute. reflexivity. }
  eexists. eexists. exists s. split; [exact E|].
  split; [cbn [In]; auto 10|]. split; [cbn [In]; auto 10|]. split; [exact D|]. split; [exact W|].
  cbn [kstep rstep]. rewrite W, Q. split; [reflexivity|]. eexists. reflexivity.
Qed.
Print Assumptions C128_all_woken_refuted.
