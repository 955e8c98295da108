(** Property C130: [next_episode] of a prefetching scheduler called by one thread
    while others are inside [get_batch], under every interleaving. *)
From Coq Require Import List Arith Bool Lia.
From Verif Require Import Model.Prefetch Spec.PrefetchSpec Model.Readers Spec.ReadersSpec Model.Skipper Spec.SkipperSpec
  Proofs.ReadersProofs Proofs.SkipperProofs Proofs.PrefetchWitness Properties.ReadersProps.
Import ListNotations.
Local Open Scope nat_scope.

(** What the readers take together is, in this order, among the batches of the
    wrapped scheduler, none twice. *)
Theorem C130_order : forall sc B N u ls es s, 1 <= N -> hexec sc B N (hinit sc u) ls es s ->
  subseq (queued (took (read_events es))) (fst (calls (rfetches (read_labels ls)) u)).
Proof. exact h_order. Qed.
Print Assumptions C130_order.

(** Each reader returns what it took. *)
Theorem C130_own : forall sc B N i u ls es s, hexec sc B N (hinit sc u) ls es s ->
  took_by i (read_events es) = got_by i (read_events es) ++ holds i (h_r s).
Proof. exact h_own. Qed.
Print Assumptions C130_own.

(** Every batch is taken, discarded by [next_episode] or still there, except at
    most one for the end of the stream. *)
Theorem C130_loss_bound : forall sc B N u ls es s, 1 <= N -> hexec sc B N (hinit sc u) ls es s ->
  List.length (fst (calls (rfetches (read_labels ls)) u)) <=
  List.length (queued (took (read_events es))) + List.length (discards es) +
  List.length (queued (p_queue (r_sh (h_r s)))) + List.length (inflight (r_sh (h_r s))) + 1.
Proof. exact h_loss. Qed.
Print Assumptions C130_loss_bound.

(** A call discards at most as many batches as an episode has. *)
Theorem C130_few : forall sc B N L u ls es s, sc_len sc = Some L -> hexec sc B N (hinit sc u) ls es s ->
  List.length (discards es) <= L * skips ls.
Proof. intros sc B N L u ls es s LE H. pose proof (h_few sc B N L u ls es s LE H). lia. Qed.
Print Assumptions C130_few.

(** A call beside which nobody reads (readers that wait may time out), and which
    meets neither its deadline nor the end of the stream, discards what remained of the
    episode by the counter, and the counter is zero afterwards. *)
Theorem C130_rest : forall sc B N L s e s1 ls es s2, sc_len sc = Some L ->
  h_pc s = HIdle -> p_started (r_sh (h_r s)) = true -> p_t (r_sh (h_r s)) < L ->
  hstep sc B N s HCall = Some (e, s1) -> hexec sc B N s1 ls es s2 -> Forall unread ls -> ~ In (HFlushed EOS) es ->
  h_pc s2 = HIdle ->
  List.length (discards es) = L - p_t (r_sh (h_r s)) /\ p_t (r_sh (h_r s2)) = 0.
Proof.
  intros sc B N L s e s1 ls es s2 LE PC ST TL K H U NE P2.
  pose proof (h_alone sc B N L s e s1 ls es s2 LE PC ST TL K H U NE) as C. unfold counts in C. rewrite P2 in C. exact C.
Qed.
Print Assumptions C130_rest.

(** After the end marker or the deadline the call removes nothing any more. *)
Theorem C130_ends : forall sc B N s l e s1 ls es s2, hstep sc B N s l = Some (e, s1) ->
  In (HFlushed EOS) e \/ In HGaveUp e -> hexec sc B N s1 ls es s2 -> ~ In HReturned es ->
  forall x, ~ In (HFlushed x) es.
Proof. intros sc B N s l e s1 ls es s2 K I H NR. exact (proj2 (h_ends sc B N s l e s1 ls es s2 K I H NR)). Qed.
Print Assumptions C130_ends.

(** When a call returns, the flag is set, and the thread has been started or a
    reader is about to start it. *)
Theorem C130_starts : forall sc B N L u ls es s1 l e s2, sc_len sc = Some L -> hexec sc B N (hinit sc u) ls es s1 ->
  hstep sc B N s1 l = Some (e, s2) -> In HReturned e ->
  p_started (r_sh (h_r s2)) = true /\ (p_worker (r_sh (h_r s2)) <> WIdle \/ exists i, r_pc (h_r s2) i = RSet).
Proof. exact h_starts. Qed.
Print Assumptions C130_starts.

(** Concrete runs. *)
Fixpoint hrun (sc : sched) (B N : nat) (s : hst sc) (ls : list hlabel) : option (list (hevent sc) * hst sc) :=
  match ls with
  | [] => Some ([], s)
  | l :: ls => match hstep sc B N s l with
               | None => None
               | Some (e, s1) => match hrun sc B N s1 ls with
                                 | None => None
                                 | Some (es, s2) => Some (e ++ es, s2)
                                 end
               end
  end.

Lemma hrun_exec : forall sc B N ls s es s', hrun sc B N s ls = Some (es, s') -> hexec sc B N s ls es s'.
Proof.
  induction ls as [|l ls IH]; intros s es s' H; cbn in H.
  - injection H as <- <-. constructor.
  - destruct (hstep sc B N s l) as [[e s1]|] eqn:E; [|discriminate].
    destruct (hrun sc B N s1 ls) as [[es1 s2]|] eqn:E2; [|discriminate].
    injection H as <- <-. apply (hexec_app sc B N s [l] e s1 ls es1 s2); [|apply IH; exact E2].
    apply (hexec_snoc sc B N s [] l [] e s s1); [constructor | exact E].
Qed.

(** What a run shows: events and the counter. *)
Definition hshows (sc : sched) (B N : nat) (u : sc_state sc) (ls : list hlabel) : option (list (hevent sc) * nat) :=
  match hrun sc B N (hinit sc u) ls with
  | Some (es, s) => Some (es, p_t (r_sh (h_r s)))
  | None => None
  end.

Lemma hshows_exec : forall sc B N u ls es t, hshows sc B N u ls = Some (es, t) ->
  exists s, hexec sc B N (hinit sc u) ls es s /\ p_t (r_sh (h_r s)) = t.
Proof.
  intros sc B N u ls es t H. unfold hshows in H.
  destruct (hrun sc B N (hinit sc u) ls) as [[es' s]|] eqn:E; [|discriminate].
  injection H as <- <-. exists s. split; [apply hrun_exec; exact E | reflexivity].
Qed.

(** Episodes of three steps; after the first step the rest is skipped, and the
    reader goes on with the next episode. *)
Example exH_rest :
  hshows (grid 3) 1 3 (0, 0)
    (map HR (begin_ 0 ++ produce ++ produce ++ produce ++ finish 0) ++ [HCall; HStep; HStep; HStep; HStep; HStep; HStep] ++
     map HR ([RWork LWCheck; RWork LWFetch] ++ produce ++ enter 0 ++ finish 0))
  = let took_ b := HEv (@RTook (grid 3) 0 (Data (sc := grid 3) b)) in
    let return_ b := HEv (@RReturn (grid 3) 0 b) in
    let flushed_ b := HFlushed (Data (sc := grid 3) b) in
    Some ([took_ (0, 0); HEv (RCount 0); return_ (0, 0); flushed_ (0, 1); flushed_ (0, 2); HReturned;
           took_ (1, 0); HEv (RCount 0); return_ (1, 0)], 1).
Proof. vm_compute. reflexivity. Qed.

(** The first call starts the thread; episodes have three steps, but there are
    only two batches, so the second call discards one and meets the end marker. *)
Definition two_batches : sched :=
  mkSched nat nat (fun n => if n <? 2 then (GBatch n, S n) else (GStop, n)) (fun n => Some n) (fun _ => 0) (Some 3).

Example exH_end :
  hshows two_batches 1 3 0
    ([HCall; HStep; HStep; HStep; HStep] ++
     map HR (enter 0 ++ produce ++ finish 0 ++ produce ++ [RWork LWCheck; RWork LWFetch; RWork LWEosPut]) ++
     [HCall; HStep; HStep; HStep; HStep; HStep])
  = let sc := two_batches in
    Some ([HReturned; HEv (@RTook sc 0 (Data (sc := sc) 0)); HEv (RCount 0); HEv (@RReturn sc 0 0);
           HFlushed (Data (sc := sc) 1); HFlushed EOS; HReturned], 0).
Proof. vm_compute. reflexivity. Qed.

(** That after [next_episode] the readers go on with the first step of an episode
    is false: a reader takes a step after the remaining number was read, the call
    discards the first step of the next episode in its place, and the first batch read
    afterwards is the second step. *)
Theorem C130_boundary_refuted :
  let sc := grid 2 in
  exists ls es1 es2 s, hexec sc 1 2 (hinit sc (0, 0)) ls (es1 ++ [HReturned] ++ es2) s /\
    ~ In HGaveUp es1 /\ discards es1 = [(0, 1); (1, 0)] /\
    queued (took (read_events es2)) = [(1, 1)] /\ p_t (r_sh (h_r s)) = 1.
Proof.
  intros sc.
  set (took_ := fun b => HEv (@RTook sc 0 (Data (sc := sc) b))).
  set (return_ := fun b => HEv (@RReturn sc 0 b)).
  set (flushed_ := fun b => HFlushed (Data (sc := sc) b)).
  destruct (hshows_exec sc 1 2 (0, 0)
    (map HR (begin_ 0 ++ produce ++ produce) ++ [HCall; HStep; HStep] ++ map HR (finish 0) ++ [HStep] ++
     map HR ([RWork LWCheck; RWork LWFetch] ++ produce) ++ [HStep; HStep; HStep] ++ map HR (produce ++ enter 0 ++ finish 0))
    ([took_ (0, 0); HEv (RCount 0); return_ (0, 0); flushed_ (0, 1); flushed_ (1, 0)] ++ [HReturned] ++
     [took_ (1, 1); HEv (RCount 0); return_ (1, 1)]) 1) as (s & E & T).
  { vm_compute. reflexivity. }
  eexists. eexists. eexists. exists s. split; [exact E|].
  split; [cbn [In]; unfold took_, return_, flushed_; intuition discriminate|].
  split; [reflexivity|]. split; [reflexivity | exact T].
Qed.
Print Assumptions C130_boundary_refuted.
