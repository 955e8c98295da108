(** C123: what becomes of a prefetching scheduler that its user drops. *)
From Coq Require Import List Arith Bool ZArith String Lia.
From Verif Require Import Prelude Model.Base Model.Prefetch Model.Sampler Model.Stack Model.Abandon.
From Verif Require Import Spec.BaseSpec Spec.PrefetchSpec Spec.AbandonSpec.
From Verif Require Import Proofs.BaseFinal Proofs.PrefetchProofs Proofs.PrefetchWitness Proofs.AbandonProofs Properties.BaseProps.
Import ListNotations.
Local Open Scope string_scope.
Local Open Scope nat_scope.
Local Open Scope list_scope.

(** Dropped at any moment while the thread is at work: everything comes to rest,
    and whether the scheduler is ever collected is a matter of counting: what is
    stored, in hand and still to come fits into the queue, or it does not. *)
Theorem C123_finite : forall sc B N u ls es (s : pst sc) k, 1 <= N -> exec sc B N (pinit sc u) ls es s ->
  p_stop s = false -> reading s -> drains sc k (p_sched s) ->
  ends B N (s, false) /\
  forall y, dsteps B N (s, false) y -> final B N y ->
    (List.length (p_queue s) + in_hand s + k <= N /\ snd y = true /\ p_stop (fst y) = true /\ is_running (fst y) = false) \/
    (N < List.length (p_queue s) + in_hand s + k /\ snd y = false /\ blocked N (fst y)).
Proof.
  intros sc B N u ls es s k HN X S R D. split; [exact (drains_acc sc B N k _ D s eq_refl (conj S R))|].
  intros y H F.
  assert (HO : holds sc N (List.length (p_queue s) + in_hand s + k) s).
  { split; [exact (conj S R)|]. split; [exact (b_queue _ _ _ (basic_exec sc B N HN _ _ _ _ (basic_init sc N u) X))|].
    exists k. split; [exact D|reflexivity]. }
  destruct (holds_steps sc B N _ _ _ H s eq_refl HO F) as [[T E]|[T [E K]]]; [left|right; auto].
  split; [exact T|]. split; [exact E|]. exact (collected_fields sc B N _ _ H eq_refl E).
Qed.
Print Assumptions C123_finite.

(** A thread that has met the end of the data, or has ended, or was never
    started: the scheduler is collected. *)
Theorem C123_ended : forall sc B N (s : pst sc), ~ reading s ->
  ends B N (s, false) /\
  forall y, dsteps B N (s, false) y -> final B N y -> snd y = true /\ p_stop (fst y) = true /\ is_running (fst y) = false.
Proof.
  intros sc B N s R.
  assert (L : late sc s \/ p_worker s = WIdle).
  { unfold late, reading in *. destruct (p_worker s) eqn:W; auto 8; exfalso; apply R; eauto. }
  destruct L as [L|W].
  - split; [exact (late_acc sc B N s L)|]. intros y H F.
    pose proof (late_steps sc B N _ _ H s eq_refl L F) as E. split; [exact E|]. exact (collected_fields sc B N _ _ H eq_refl E).
  - assert (A : alive (p_worker s) = false) by (rewrite W; reflexivity). split.
    + constructor. intros y D. inversion D; subst; [exfalso; eapply work_dead; eauto|apply over_acc].
    + intros y H F. inversion H; subst.
      * exfalso. exact (F _ (d_del sc B N s A)).
      * assert (E : snd y = true).
        { inversion H0; subst; [exfalso; eapply work_dead; eauto|]. inversion H1; subst; [reflexivity|].
          match goal with K : dstep _ _ (_, true) _ |- _ => inversion K end. }
        split; [exact E|]. exact (collected_fields sc B N _ _ H eq_refl E).
Qed.
Print Assumptions C123_ended.

(** Over a scheduler that never runs out, a prefetcher dropped while its thread
    lives is never collected: the thread fills the queue, waits for room for one
    batch more, and keeps all of that for ever. *)
Theorem C123_endless : forall sc I B N u ls es (s : pst sc), 1 <= N -> endless sc I -> I u ->
  exec sc B N (pinit sc u) ls es s -> p_stop s = false -> is_running s = true ->
  ends B N (s, false) /\
  forall y, dsteps B N (s, false) y ->
    snd y = false /\ p_stop (fst y) = false /\ is_running (fst y) = true /\ (final B N y <-> blocked N (fst y)).
Proof.
  intros sc I B N u ls es s HN H U X S A.
  destruct (endless_early sc B N I H u ls es s U X) as [V W].
  assert (R : reading s).
  { unfold reading, is_running in *. destruct (p_worker s); try discriminate A; try contradiction; eauto. }
  pose proof (b_queue _ _ _ (basic_exec sc B N HN _ _ _ _ (basic_init sc N u) X)) as Q.
  split; [exact (endless_acc sc B N I H _ s (le_n _) V (conj S R))|].
  intros y D. destruct (endless_steps sc B N I H _ _ D s eq_refl (conj S R) V Q) as [s' [-> [E' Q']]].
  split; [reflexivity|]. split; [exact (proj1 E')|]. split; [exact (early_alive sc s' E')|]. split.
  - intro F. destruct (final_early sc B N s' E' F) as [K L]. split; [exact K|]. cbn in *. lia.
  - intros [[b K] L] z D'. cbn in K, L. destruct (early_step sc B N s' z E' D') as [s2 [-> C]].
    destruct C as [[C _]|[[C _]|[b' [_ [C _]]]]]; [congruence|congruence|lia].
Qed.
Print Assumptions C123_endless.

(** Shutting down first helps when that leaves room in the queue ... *)
Theorem C123_stopped : forall sc B N (s : pst sc), p_stop s = true -> List.length (p_queue s) < N ->
  ends B N (s, false) /\
  forall y, dsteps B N (s, false) y -> final B N y -> snd y = true /\ is_running (fst y) = false.
Proof.
  intros sc B N s S Q.
  assert (C : reading s \/ ~ reading s).
  { unfold reading. destruct (p_worker s); eauto; right; intros [K|[K|[b' K]]]; discriminate. }
  destruct C as [C|C].
  - assert (T : stopping sc N s).
    { split; [exact S|]. destruct C as [C|C]; [left; exact C|right; split; [exact Q|exact C]]. }
    split; [exact (stopping_acc sc B N s T)|]. intros y H F.
    pose proof (stopping_steps sc B N _ _ H s eq_refl T F) as E. split; [exact E|]. exact (proj2 (collected_fields sc B N _ _ H eq_refl E)).
  - destruct (C123_ended sc B N s C) as [A K]. split; [exact A|]. intros y H F. destruct (K y H F) as [K1 [_ K3]]. auto.
Qed.
Print Assumptions C123_stopped.

(** ... but the marker put by [shutdown] can take the very place it had freed;
    then even a prefetcher that was shut down stays for ever. *)
Theorem C123_shutdown_refuted : exists sc B N u ls es (s : pst sc), 1 <= N /\ exec sc B N (pinit sc u) ls es s /\
  In EvShutdown es /\ p_pc s = CIdle /\ p_stop s = true /\ blocked N s /\ final B N (s, false).
Proof.
  exists (numbers None GStop), 1, 1, 0.
  pose (ls := [LCallGet 1; LWCheck; LWFetch; LWPut; LTake; LWCheck; LWFetch; LWPut; LWCheck; LWFetch;
               LCallShutdown; LShutPoll; LShutPut; LShutJoin]).
  destruct (prun (numbers None GStop) 1 1 (pinit (numbers None GStop) 0) ls) as [[es s]|] eqn:E; [|vm_compute in E; discriminate].
  exists ls, es, s. split; [lia|]. split; [apply prun_exec; exact E|].
  vm_compute in E. injection E as <- <-. split; [cbn; auto|]. split; [reflexivity|]. split; [reflexivity|].
  split; [split; [exists 2; reflexivity|reflexivity]|].
  intros y D. inversion D as [s0 l e s' W P|s0 A]; subst; [|discriminate].
  destruct l; try discriminate W; cbn in P; discriminate.
Qed.
Print Assumptions C123_shutdown_refuted.

(** ** A file scheduler that loops *)
Definition looped (c : cfg) (fl : list string) (fuel B : nat) (v : st) : Prop :=
  exists k m, v = snd (run c fuel (BaseSpec.gets (repeat B m)) (init c fl k)).

Lemma run_snoc : forall c fuel ops o s,
  run c fuel (ops ++ [o]) s = (fst (run c fuel ops s) ++ [fst (do_op c fuel o (snd (run c fuel ops s)))],
                               snd (do_op c fuel o (snd (run c fuel ops s)))).
Proof.
  intros c fuel ops o. induction ops as [|p ops IH]; intro s; cbn [run app].
  - cbn [fst snd app]. destruct (do_op c fuel o s). reflexivity.
  - destruct (do_op c fuel p s) as [r s1]. rewrite IH. destruct (run c fuel ops s1). reflexivity.
Qed.

Lemma run_fst_length : forall c fuel ops s, List.length (fst (run c fuel ops s)) = List.length ops.
Proof.
  intros c fuel ops. induction ops as [|o ops IH]; intro s; [reflexivity|]. cbn [run].
  destruct (do_op c fuel o s) as [r s1]. specialize (IH s1). destruct (run c fuel ops s1). cbn in *. lia.
Qed.

Lemma looped_endless : forall c C fl fuel B, disk (c_loader c) C -> c_loop c = true -> c_randomize c = false ->
  no_adjacent_equal fl -> no_faults C fl -> same_shapes C fl -> epoch C fl <> [] -> 2 * List.length fl < fuel -> 0 < B ->
  endless (sched_of (base_sif c fuel) None B) (looped c fl fuel B).
Proof.
  intros c C fl fuel B D HL HR NA NF SS NE FU BP. split.
  - intros v [k [m ->]]. left.
    assert (HI : forall n, In n (repeat B (S m)) -> 0 < n) by (intros n I; apply repeat_spec in I; lia).
    destruct (C05_loop_periodic c C fl k (repeat B (S m)) fuel D HL HR NA NF SS NE FU HI m B) as [b [l [G _]]].
    { rewrite (nth_error_nth' _ B) by (rewrite repeat_length; lia). rewrite nth_repeat. reflexivity. }
    replace (repeat B (S m)) with (repeat B m ++ [B]) in G by (symmetry; apply repeat_cons).
    unfold BaseSpec.gets in G. rewrite map_app in G. cbn [map] in G. rewrite run_snoc in G. cbn [fst] in G.
    rewrite nth_error_app2 in G by (rewrite run_fst_length, map_length, repeat_length; lia).
    rewrite run_fst_length, map_length, repeat_length, Nat.sub_diag in G. cbn [nth_error] in G.
    set (v := snd (run c fuel (map OGet (repeat B m)) (init c fl k))) in *.
    cbn [do_op] in G. destruct (get_batch c fuel B v) as [r w] eqn:E. cbn [fst] in G. injection G as G. subst r.
    exists (fdata_of b), w. split.
    + cbn [sched_of sc_get base_sif si_get]. unfold BaseSpec.gets. fold v. rewrite E. reflexivity.
    + exists k, (S m). replace (repeat B (S m)) with (repeat B m ++ [B]) by (symmetry; apply repeat_cons).
      unfold BaseSpec.gets. rewrite map_app. cbn [map]. rewrite run_snoc. cbn [snd do_op]. fold v. rewrite E. reflexivity.
  - intros v [k [m ->]]. cbn [sched_of sc_reset base_sif si_reset]. exists k, 0. cbn [repeat BaseSpec.gets map run snd].
    destruct (run_frame c fuel (BaseSpec.gets (repeat B m)) (init c fl k) HR) as [F1 F2].
    unfold reset, init in *. rewrite HR in *. rewrite F1, F2. reflexivity.
Qed.

(** Prefetching from files in a loop: once a batch was asked for, dropping the
    prefetcher without shutting it down keeps the thread, the queue and the file
    scheduler in memory for ever. *)
Theorem C123_looping_files : forall c C fl fuel B N k ls es s, disk (c_loader c) C -> c_loop c = true -> c_randomize c = false ->
  no_adjacent_equal fl -> no_faults C fl -> same_shapes C fl -> epoch C fl <> [] -> 2 * List.length fl < fuel -> 0 < B -> 1 <= N ->
  exec (sched_of (base_sif c fuel) None B) B N (pinit (sched_of (base_sif c fuel) None B) (init c fl k)) ls es s -> p_stop s = false -> is_running s = true ->
  ends B N (s, false) /\
  forall y, dsteps B N (s, false) y ->
    snd y = false /\ is_running (fst y) = true /\ (final B N y <-> blocked N (fst y)).
Proof.
  intros c C fl fuel B N k ls es s D HL HR NA NF SS NE FU BP HN X S A.
  pose proof (looped_endless c C fl fuel B D HL HR NA NF SS NE FU BP) as E.
  destruct (C123_endless (sched_of (base_sif c fuel) None B) (looped c fl fuel B) B N (init c fl k) ls es s HN E) as [K1 K2]; auto.
  - exists k, 0. reflexivity.
  - split; [exact K1|]. intros y H. destruct (K2 y H) as [E1 [_ [E3 E4]]]. auto.
Qed.
Print Assumptions C123_looping_files.

(** ** Concrete cases *)
(** Three batches numbered 0, 1, 2; the first was taken. *)
Definition exA_labels : list label := [LCallGet 1; LWCheck; LWFetch; LWPut; LTake].
Definition exA_state (k : option nat) (N : nat) : pst (numbers k GStop) :=
  match prun (numbers k GStop) 1 N (pinit (numbers k GStop) 0) exA_labels with
  | Some (_, s) => s
  | None => pinit (numbers k GStop) 0
  end.

Lemma exA_exec : forall k N, In (k, N) [(Some 3, 1); (Some 3, 2); (None, 2)] ->
  exists es, exec (numbers k GStop) 1 N (pinit (numbers k GStop) 0) exA_labels es (exA_state k N).
Proof.
  intros k N I. repeat (destruct I as [I|I]; [injection I as <- <-; eexists; apply prun_exec; reflexivity|]). destruct I.
Qed.

Lemma exA_drains : drains (numbers (Some 3) GStop) 2 1.
Proof.
  eapply dr_batch; [reflexivity|]. eapply dr_batch; [reflexivity|]. eapply dr_stop. reflexivity.
Qed.

(** Two to come, room for two: collected.  Room for one: kept. *)
Example exA_fits : forall y, dsteps 1 2 (exA_state (Some 3) 2, false) y -> final 1 2 y -> snd y = true.
Proof.
  intros y H F. destruct (exA_exec (Some 3) 2) as [es X]; [cbn; auto|].
  destruct (C123_finite (numbers (Some 3) GStop) 1 2 0 _ _ _ 2 ltac:(lia) X eq_refl (or_introl eq_refl) exA_drains) as [_ K].
  destruct (K y H F) as [[_ [E _]]|[E _]]; [exact E|cbn in E; lia].
Qed.
Example exA_kept : forall y, dsteps 1 1 (exA_state (Some 3) 1, false) y -> final 1 1 y -> blocked 1 (fst y).
Proof.
  intros y H F. destruct (exA_exec (Some 3) 1) as [es X]; [cbn; auto|].
  destruct (C123_finite (numbers (Some 3) GStop) 1 1 0 _ _ _ 2 ltac:(lia) X eq_refl (or_introl eq_refl) exA_drains) as [_ K].
  destruct (K y H F) as [[E _]|[_ [_ E]]]; [cbn in E; lia|exact E].
Qed.
(** Batches without end. *)
Example exA_endless : endless (numbers None GStop) (fun _ => True).
Proof. split; [|auto]. intros v _. left. exists v, (S v). split; [reflexivity|exact I]. Qed.
Example exA_endless_kept : forall y, dsteps 1 2 (exA_state None 2, false) y -> snd y = false.
Proof.
  intros y H. destruct (exA_exec None 2) as [es X]; [cbn; auto|].
  destruct (C123_endless (numbers None GStop) (fun _ => True) 1 2 0 _ _ _ ltac:(lia) exA_endless I X eq_refl eq_refl) as [_ K]. exact (proj1 (K y H)).
Qed.
Lemma prun_dsteps : forall sc B N ls (s : pst sc) es s', forallb worker_label ls = true -> prun sc B N s ls = Some (es, s') ->
  dsteps B N (s, false) (s', false).
Proof.
  induction ls as [|l ls IH]; intros s es s' W H; cbn in H, W.
  - injection H as <- <-. constructor.
  - apply andb_prop in W. destruct W as [W1 W]. destruct (pstep sc B N s l) as [[e s1]|] eqn:E; [|discriminate].
    destruct (prun sc B N s1 ls) as [[es1 s2]|] eqn:E2; [|discriminate]. injection H as <- <-.
    eapply ds_cons; [eapply d_work; eauto|]. eapply IH; eauto.
Qed.
(** The thread really BaseSpec.gets there: the queue full and one batch in hand. *)
Example exA_endless_run : exists s, dsteps 1 2 (exA_state None 2, false) (s, false) /\ p_queue s = [@Data (numbers None GStop) 1; @Data (numbers None GStop) 2] /\ p_worker s = @WPut (numbers None GStop) 3 /\
  blocked 2 s /\ final 1 2 (s, false).
Proof.
  pose (ls := [LWCheck; LWFetch; LWPut; LWCheck; LWFetch; LWPut; LWCheck; LWFetch]).
  destruct (prun (numbers None GStop) 1 2 (exA_state None 2) ls) as [[es s]|] eqn:E; [|vm_compute in E; discriminate].
  exists s. split; [exact (prun_dsteps _ 1 2 ls _ es s eq_refl E)|].
  vm_compute in E. injection E as <- <-. split; [reflexivity|]. split; [reflexivity|]. split; [split; [exists 3; reflexivity|reflexivity]|].
  intros y D. inversion D as [s0 l e s' W P|s0 A]; subst; [|discriminate].
  destruct l; try discriminate W; cbn in P; discriminate.
Qed.
(** Shut down with room left. *)
Example exA_stopped : forall y, dsteps 1 2 (set_stop (numbers None GStop) (exA_state None 2), false) y -> final 1 2 y -> snd y = true.
Proof. intros y H F. exact (proj1 (proj2 (C123_stopped (numbers None GStop) 1 2 (set_stop (numbers None GStop) (exA_state None 2)) eq_refl ltac:(cbn; lia)) y H F)). Qed.
Lemma exA_shapes : same_shapes ex_C ex_fl.
Proof. destruct ex_uniform as [F [I1 [I2 [_ [_ [_ H]]]]]]. exists F, I1, I2. exact H. Qed.
(** Files in a loop: the first batch was taken. *)
Definition exA_sched : sched := sched_of (base_sif (ex_cfg false true) 20) None 2.
Definition exA_start : pst exA_sched := pinit exA_sched (init (ex_cfg false true) ex_fl (Seed 0)).
Example exA_files : exists es s, exec exA_sched 2 3 exA_start [LCallGet 2; LWCheck; LWFetch; LWPut; LTake] es s /\ List.length es = 1 /\
  forall y, dsteps 2 3 (s, false) y -> snd y = false /\ is_running (fst y) = true.
Proof.
  destruct (prun exA_sched 2 3 exA_start [LCallGet 2; LWCheck; LWFetch; LWPut; LTake]) as [[es s]|] eqn:E; [|vm_compute in E; discriminate].
  exists es, s. pose proof (prun_exec _ _ _ _ _ _ _ E) as X. split; [exact X|].
  assert (F : List.length es = 1 /\ p_stop s = false /\ is_running s = true).
  { vm_compute in E. injection E as <- <-. repeat split; reflexivity. }
  destruct F as [F1 [F2 F3]]. split; [exact F1|].
  destruct (C123_looping_files (ex_cfg false true) ex_C ex_fl 20 2 3 (Seed 0) _ es s ex_disk eq_refl eq_refl ex_no_adjacent ex_no_faults
     exA_shapes ltac:(discriminate) ltac:(cbn; lia) ltac:(lia) ltac:(lia) X F2 F3) as [_ K].
  intros y H. destruct (K y H) as [K1 [K2 _]]. auto.
Qed.
