(** Assigning a file list while the background thread of a prefetcher runs. *)
From Coq Require Import List Arith Lia String Bool.
From Verif Require Import Prelude Model.Base Model.Reassign Spec.BaseSpec Spec.ReassignSpec.
From Verif Require Import Proofs.BaseProofs Proofs.BaseBatch Proofs.BaseRun Proofs.BaseFinal Proofs.ReassignProofs.
From Verif Require Model.Prefetch Spec.PrefetchSpec Proofs.PrefetchProofs Proofs.PrefetchWitness.
Import ListNotations.
Local Open Scope nat_scope.

(** * Between two fetches *)
Section Between.
Import Model.Prefetch Spec.PrefetchSpec Proofs.PrefetchProofs.
Variable sc : sched.
Variables B N : nat.
Hypothesis Npos : 1 <= N.
Notation st := (pst sc).
Notation step := (pstep sc B N).
Notation exec := (exec sc B N).

Definition kept (P : list (sc_batch sc)) (u : sc_state sc) (ls : list label) (es : list (event sc)) (s : st) : Prop :=
  exists l, calls (fetches ls) u = (l, p_sched s) /\ P ++ l = removed sc es ++ queued (p_queue s) ++ inflight s.

Lemma kept_step : forall P u ls es s l e s', basic sc N s -> kept P u ls es s ->
  step s l = Some (e, s') -> l <> LResetJoin -> kept P u (ls ++ [l]) (es ++ e) s'.
Proof.
  intros P u ls es s l e s' BB (x & C & E) H NR.
  pose proof (b_started _ _ _ BB) as I1. apply step_R in H.
  unfold kept. rewrite fetches_snoc, removed_app.
  pose proof (inflight_start sc s I1) as F.
  destruct (start_fields sc s) as (F1 & F2 & F3 & F4 & F5 & F6).
  destruct H; try congruence;
  try (match goal with K : p_queue s = _ |- _ => rewrite K in E end);
  try (match goal with K : p_worker s = _ |- _ => unfold inflight in *; rewrite K in * end);
  cbn [plus calls]; rewrite C;
  try (match goal with K : sc_get sc _ = _ |- _ => rewrite K end);
  try (match goal with K : sc_len sc = _ |- _ => rewrite K end);
  try (match goal with K : sc_next sc _ = _ |- _ => rewrite K end);
  try (destruct (sc_len sc), (sc_next sc u0); [exfalso; match goal with K : _ \/ _ |- _ => destruct K; discriminate end | | |]);
  eexists; (split; [cbn [p_sched set_pc set_t set_queue set_stop set_worker set_sched]; rewrite ?F1; reflexivity|]);
  unfold inflight in *; cbn in *; rewrite ?F1, ?F2, ?F, ?queued_app, ?app_nil_r, <- ?app_assoc in *;
  try (match goal with i : item sc |- _ => destruct i end);
  cbn in *; rewrite ?app_nil_r, <- ?app_assoc in *; cbn; auto;
  try (match goal with K : p_worker s = _ |- _ => rewrite K in * end); cbn in *; rewrite ?app_nil_r in *; auto.
  all: try (rewrite app_assoc, E; rewrite <- ?app_assoc; cbn; rewrite ?app_nil_r; auto; fail).
  all: try (match goal with K : p_queue _ = _ :: _ |- _ => rewrite K | K : p_queue _ = [] |- _ => rewrite K end); rewrite ?flat_map_app, <- ?app_assoc; cbn; rewrite ?app_nil_r; auto.
Qed.

Lemma kept_exec : forall s ls es s', basic sc N s -> exec s ls es s' -> no_reset ls ->
  kept (queued (p_queue s) ++ inflight s) (p_sched s) ls es s'.
Proof.
  intros s ls es s' BB H. induction H; intros NR.
  - exists []. split; [reflexivity | rewrite app_nil_r; reflexivity].
  - unfold no_reset in *. rewrite in_app_iff in NR.
    apply (kept_step _ _ ls es s1 l e s2 (basic_exec sc B N Npos _ _ _ _ BB H)); [apply IHexec; tauto | exact H0|].
    intros ->. apply NR. right. left. reflexivity.
Qed.

Lemma assign_basic : forall f s, basic sc N s -> basic sc N (p_assign f s).
Proof. intros f s [I1 I2 I3 I4 I5 I6 I7 I8 I9]. constructor; assumption. Qed.

Lemma queued_length : forall q : list (item sc), List.length (queued q) <= List.length q.
Proof. induction q as [|[b|] q IH]; cbn [queued flat_map app List.length] in *; unfold queued in *; lia. Qed.

Lemma assigned_between : forall u ls1 es1 s1 f ls2 es2 s2,
  exec (pinit sc u) ls1 es1 s1 -> exec (p_assign f s1) ls2 es2 s2 -> no_reset ls2 ->
  let old := queued (p_queue s1) ++ inflight s1 in
  List.length old <= N + 1 /\
  exists l, fst (calls (fetches ls2) (f (p_sched s1))) = l /\
    (dropped es2 = [] -> polled es2 = [] -> exists rest, old ++ l = handed es2 ++ rest).
Proof.
  intros u ls1 es1 s1 f ls2 es2 s2 E1 E2 NR old.
  pose proof (basic_exec sc B N Npos _ _ _ _ (basic_init sc N u) E1) as B1. split.
  - unfold old. rewrite app_length. pose proof (queued_length (p_queue s1)). pose proof (b_queue _ _ _ B1).
    unfold inflight. destruct (p_worker s1); cbn [List.length]; lia.
  - eexists. split; [reflexivity|]. intros D P.
    destruct (kept_exec _ _ _ _ (assign_basic f s1 B1) E2 NR) as (l & C & K).
    change (p_sched (p_assign f s1)) with (f (p_sched s1)) in C. rewrite C. cbn [fst].
    rewrite (removed_handed sc es2 D P) in K. eexists. exact K.
Qed.
End Between.

(** * During a fetch *)
Section During.
Variable c : cfg.
Variable C : string -> content.
Hypothesis HD : disk (c_loader c) C.

Lemma set_files_same : forall s, set_files s (s_files s) = s.
Proof. intros []; reflexivity. Qed.

Lemma body_files : forall s, match next_body c s with inl s' => s_files s' | inr (_, s') => s_files s' end = s_files s.
Proof.
  intros s. unfold next_body. destruct (nth_error (s_files s) (s_index s)) as [p|]; [|reflexivity].
  destruct (opt_str_eqb (s_cfile s) p).
  - destruct (get_next_slice _ _ _ _); reflexivity.
  - destruct (load_file _ _); [|reflexivity]. cbn [s_cdata s_cfile s_slice with_cache].
    destruct (get_next_slice _ _ _ _); reflexivity.
Qed.

(** With a list that stays the race is no race. *)
Lemma race_still : forall fl, c_randomize c = false -> forall fuel t s, s_files s = fl ->
  exists t', next_race c (fun _ => fl) fuel t s = (get_next c fuel s, t').
Proof.
  intros fl HR. induction fuel as [|fuel IH]; intros t s F; cbn [next_race get_next]; [eauto|].
  rewrite F. destruct ((s_index s <? List.length fl) || c_loop c); [|eauto].
  set (s1 := if List.length fl <=? s_index s then reset c s else s).
  assert (F1 : s_files s1 = fl).
  { unfold s1. destruct (_ <=? _); [|exact F]. unfold reset. rewrite HR. exact F. }
  replace (set_files s1 fl) with s1 by (rewrite <- F1; symmetry; apply set_files_same). pose proof (body_files s1) as K.
  destruct (next_body c s1) as [s2|[r s2]]; [|eauto]. apply IH. congruence.
Qed.

Lemma no_bad : forall fl prev e, no_faults C fl -> ~ In (Bad e) (tail_events C prev fl).
Proof.
  induction fl as [|p fl IH]; intros prev e NF H; [exact H|]. cbn [tail_events] in H. apply in_app_or in H. destruct H as [H|H].
  - destruct (opt_str_eqb prev p); [exact H|]. unfold events in H. destruct (C p) as [|l|l x] eqn:E.
    + exact H.
    + apply in_map_iff in H. destruct H as (y & Y & _). discriminate.
    + exact (NF p l x (or_introl eq_refl) E).
  - refine (IH _ _ _ H). intros q l x Q. apply NF. right. exact Q.
Qed.

Lemma pending_no_bad : forall s e, no_faults C (s_files s) -> ~ In (Bad e) (pending C s).
Proof.
  intros s e NF H. unfold pending in H. pose proof (nf_skip C (s_files s) (s_index s) NF) as NS.
  destruct (skipn (s_index s) (s_files s)) as [|p l]; [exact H|]. apply in_app_or in H. destruct H as [H|H].
  - apply (no_bad [p] None e); [intros q l' x [->|[]]; apply NS; left; reflexivity|]. cbn [tail_events opt_str_eqb]. rewrite app_nil_r.
    destruct (opt_str_eqb (s_cfile s) p); [eapply in_skipn; exact H | exact H].
  - apply (no_bad l _ e) in H; [exact H|]. intros q l' x Q. apply NS. right. exact Q.
Qed.

Lemma still_collect : forall fl, c_randomize c = false -> forall fuel n t acc s, s_files s = fl ->
  exists t', collect_race c (fun _ => fl) fuel n t acc s = (collect c fuel n acc s, t').
Proof.
  intros fl HR fuel. induction n as [|n IH]; intros t acc s F; cbn [collect_race collect]; [eauto|].
  destruct (race_still fl HR fuel t s F) as (t1 & K). rewrite K.
  pose proof (proj1 (get_next_frame c fuel s HR)) as FR. destruct (get_next c fuel s) as [r s1]. cbn [snd] in FR.
  destruct r as [x|e|]; [apply IH; congruence | destruct e; eauto | eauto].
Qed.

Lemma race_undisturbed : forall fl fuel n s, c_randomize c = false -> s_files s = fl ->
  batch_race c (fun _ => fl) fuel n s = get_batch c fuel n s.
Proof.
  intros fl fuel n s HR F. unfold batch_race, get_batch. destruct (still_collect fl HR fuel n 0 [] s F) as (t & K). rewrite K.
  destruct (collect c fuel n [] s). reflexivity.
Qed.

Section Lists.
Variable seen : nat -> list string.
Hypothesis GR : growing seen.
Hypothesis NF : forall m, no_faults C (seen m).
Hypothesis HR : c_randomize c = false.
Hypothesis NE : c_loop c = true -> forall m, seen m <> [].

Lemma race_next : forall fuel t s r s' t', Inv c C s -> next_race c seen fuel t s = (r, s', t') ->
  t <= t' /\ Inv c C s' /\
  match r with
  | NItem x => exists m, t <= m < t' /\ In x (epoch C (seen m))
  | NRaise e => e = StopIteration /\ c_loop c = false
  | NOutOfFuel => True
  end.
Proof.
  induction fuel as [|fuel IH]; intros t s r s' t' I H; cbn [next_race] in H.
  - injection H as <- <- <-. split; [lia|]. split; [exact I | exact Logic.I].
  - destruct ((s_index s <? List.length (seen t)) || c_loop c) eqn:G.
    2:{ injection H as <- <- <-. split; [lia|]. split; [exact I|]. apply orb_false_iff in G. split; [reflexivity | apply G]. }
    set (s1 := if List.length (seen (1 + t)) <=? s_index s then reset c s else s) in *.
    assert (I1 : Inv c C (set_files s1 (seen (2 + t)))).
    { change (Inv c C s1). unfold s1. destruct (_ <=? _); [apply reset_inv | exact I]. }
    assert (L1 : s_index (set_files s1 (seen (2 + t))) < List.length (s_files (set_files s1 (seen (2 + t))))).
    { cbn [s_index s_files set_files]. pose proof (GR (1 + t) (2 + t) ltac:(lia)) as G12. pose proof (GR t (1 + t) ltac:(lia)) as G01.
      unfold s1. destruct (List.length (seen (1 + t)) <=? s_index s) eqn:Q.
      - rewrite reset_index. apply Nat.leb_le in Q. destruct (c_loop c) eqn:HL.
        + specialize (NE eq_refl (2 + t)). destruct (seen (2 + t)); [congruence | cbn [List.length]; lia].
        + rewrite orb_false_r in G. apply Nat.ltb_lt in G. lia.
      - apply Nat.leb_gt in Q. lia. }
    pose proof (next_body_spec c C HD _ I1 L1) as K.
    destruct (next_body c (set_files s1 (seen (2 + t)))) as [s2|[r2 s2]].
    + destruct (IH (3 + t) s2 r s' t' (proj1 K) H) as (T & I2 & R). split; [lia|]. split; [exact I2|].
      destruct r as [x|e|]; auto. destruct R as (m & M & X). exists m. split; [lia | exact X].
    + injection H as <- <- <-. split; [lia|].
      destruct r2 as [x|e|].
      * destruct K as (I2 & P & _). split; [exact I2|]. exists (2 + t). split; [lia|].
        apply (pending_in C (set_files s1 (seen (2 + t)))). rewrite P. left. reflexivity.
      * exfalso. destruct K as (_ & (rr & P) & _). apply (pending_no_bad (set_files s1 (seen (2 + t))) e (NF (2 + t))). rewrite P. left. reflexivity.
      * exfalso. exact K.
Qed.

Lemma race_collect : forall fuel n t acc s, Inv c C s ->
  exists s' t', Inv c C s' /\ t <= t' /\
  (collect_race c seen fuel n t acc s = (CollectOutOfFuel, s', t') \/
   exists l, collect_race c seen fuel n t acc s = (Collected (acc ++ l), s', t') /\ List.length l <= n /\
     (c_loop c = true -> List.length l = n) /\
     forall x, In x l -> exists m, In x (epoch C (seen m))).
Proof.
  intros fuel. induction n as [|n IH]; intros t acc s I; cbn [collect_race].
  - exists s, t. split; [exact I|]. split; [lia|]. right. exists []. rewrite app_nil_r. repeat split; auto. intros x [].
  - destruct (next_race c seen fuel t s) as [[r s1] t1] eqn:E. destruct (race_next fuel t s r s1 t1 I E) as (T & I1 & R).
    destruct r as [x|e|].
    + destruct R as (m & M & X). destruct (IH t1 (acc ++ [x]) s1 I1) as (s2 & t2 & I2 & T2 & [K|(l & K & LN & LL & IN)]).
      * exists s2, t2. split; [exact I2|]. split; [lia|]. left. exact K.
      * exists s2, t2. split; [exact I2|]. split; [lia|]. right. exists (x :: l). rewrite <- app_assoc in K. cbn [app] in K.
        split; [exact K|]. cbn [List.length]. split; [lia|]. split; [intros HL; rewrite (LL HL); reflexivity|].
        intros y [<-|Y]; [exists m; exact X | exact (IN y Y)].
    + destruct R as [-> HL]. exists s1, t1. split; [exact I1|]. split; [lia|]. right. exists []. rewrite app_nil_r.
      split; [reflexivity|]. cbn [List.length]. split; [lia|]. split; [congruence | intros x []].
    + exists s1, t1. split; [exact I1|]. split; [lia|]. left. reflexivity.
Qed.

Lemma race_batch : forall fuel n s, Inv c C s -> all_uniform C seen -> 0 < n ->
  exists r s', batch_race c seen fuel n s = (r, s') /\ Inv c C s' /\
  (r = COutOfFuel \/ (r = CRaise StopIteration /\ c_loop c = false) \/
   exists b l, r = CReturn b /\ batch_of n l b /\ l <> [] /\ forall x, In x l -> exists m, In x (epoch C (seen m))).
Proof.
  intros fuel n s I (F & I1 & I2 & L1 & L2 & L3 & ST) N0. unfold batch_race.
  destruct (race_collect fuel n 0 [] s I) as (s1 & t1 & IS & _ & [K|(l & K & LN & LL & IN)]); rewrite K.
  - eexists _, _. split; [reflexivity|]. split; [exact IS|]. left. reflexivity.
  - cbn [app]. destruct l as [|x l].
    + destruct (c_loop c) eqn:HL; [specialize (LL eq_refl); cbn [List.length] in LL; lia|].
      eexists _, _. split; [reflexivity|]. split; [exact IS|]. right. left. auto.
    + destruct (assemble_ok F I1 I2 (c_loop c) n (x :: l)) as (b & Hb1 & Hb2); auto.
      { intros _. unfold paddable. auto. }
      { discriminate. }
      { intros y Y. destruct (IN y Y) as (m & M). exact (ST m y M). }
      rewrite Hb1. eexists _, _. split; [reflexivity|]. split; [exact IS|]. right. right.
      exists b, (x :: l). split; [reflexivity|]. split; [exact Hb2|]. split; [discriminate | exact IN].
Qed.

(** Enough iterations for a scheduler that does not loop. *)
Lemma race_fuel : c_loop c = false -> forall M, (forall m, List.length (seen m) <= M) ->
  forall fuel t s, Inv c C s -> M - s_index s < fuel ->
  forall r s' t', next_race c seen fuel t s = (r, s', t') -> r <> NOutOfFuel.
Proof.
  intros HL M BD. induction fuel as [|fuel IH]; intros t s I F r s' t' H; [lia|]. cbn [next_race] in H. rewrite HL, orb_false_r in H.
  destruct (s_index s <? List.length (seen t)) eqn:G; [|injection H as <- _ _; discriminate].
  apply Nat.ltb_lt in G. pose proof (GR t (1 + t) ltac:(lia)) as G1. pose proof (GR (1 + t) (2 + t) ltac:(lia)) as G2. pose proof (BD (2 + t)) as B2.
  rewrite (proj2 (Nat.leb_gt _ _)) in H by lia.
  assert (L1 : s_index (set_files s (seen (2 + t))) < List.length (s_files (set_files s (seen (2 + t))))) by (cbn [s_index s_files set_files]; lia).
  pose proof (next_body_spec c C HD (set_files s (seen (2 + t))) I L1) as K.
  destruct (next_body c (set_files s (seen (2 + t)))) as [s2|[r2 s2]].
  - destruct K as (I2 & _ & IX & _). cbn [s_index set_files] in IX. refine (IH (3 + t) s2 I2 _ r s' t' H). lia.
  - injection H as <- <- <-. destruct r2; [discriminate | discriminate | destruct K].
Qed.

Lemma race_collect_fuel : c_loop c = false -> forall fuel, (forall m, List.length (seen m) < fuel) ->
  forall n t acc s, Inv c C s -> forall s' t', collect_race c seen fuel n t acc s <> (CollectOutOfFuel, s', t').
Proof.
  intros HL fuel BD. induction n as [|n IH]; intros t acc s I s' t' H; cbn [collect_race] in H; [discriminate|].
  destruct (next_race c seen fuel t s) as [[r s1] t1] eqn:E. destruct (race_next fuel t s r s1 t1 I E) as (_ & I1 & _).
  assert (NO : r <> NOutOfFuel).
  { pose proof (BD 0). destruct fuel as [|fuel]; [lia|]. refine (race_fuel HL fuel _ (S fuel) t s I _ r s1 t1 E); [intros m; pose proof (BD m); lia | lia]. }
  destruct r as [x|e|]; [exact (IH _ _ _ I1 _ _ H) | destruct e; discriminate | congruence].
Qed.

Lemma race_batch_fuel : c_loop c = false -> forall fuel n s, (forall m, List.length (seen m) < fuel) -> Inv c C s ->
  fst (batch_race c seen fuel n s) <> COutOfFuel.
Proof.
  intros HL fuel n s BD I H. unfold batch_race in H.
  pose proof (race_collect_fuel HL fuel BD n 0 [] s I) as K.
  destruct (collect_race c seen fuel n 0 [] s) as [[[l|e|] s1] t1]; [| discriminate | exact (K _ _ eq_refl)].
  rewrite HL in H. destruct l; [discriminate|]. destruct (assemble false n (s0 :: l)); discriminate.
Qed.
End Lists.
End During.

(** * The bound is reached *)
Section Reached.
Import Model.Prefetch Spec.PrefetchSpec Proofs.PrefetchProofs Proofs.PrefetchWitness.

Lemma queued_data : forall sc (l : list (sc_batch sc)), queued (map (@Data sc) l) = l.
Proof. intros sc l. induction l as [|x l IH]; [reflexivity|]. cbn. unfold queued in IH. rewrite IH. reflexivity. Qed.

Lemma returned_map : forall sc (l : list (sc_batch sc)), returned (map (@EvReturn sc) l) = l.
Proof. intros sc l. induction l as [|x l IH]; [reflexivity|]. cbn. unfold returned in IH. rewrite IH. reflexivity. Qed.

Lemma gets_no_reset : forall B m, ~ In LResetJoin (PrefetchWitness.gets B m).
Proof. induction m as [|m IH]; cbn; [auto|]. intros [H|[H|H]]; [discriminate | discriminate | auto]. Qed.

Lemma bound_reached : forall B N f, 1 <= N -> let sc := numbers None GStop in
  exists ls1 es1 s1 ls2 es2 s2,
    exec sc B N (pinit sc 0) ls1 es1 s1 /\ exec sc B N (p_assign f s1) ls2 es2 s2 /\ no_reset ls2 /\
    List.length (queued (p_queue s1) ++ inflight s1) = N + 1 /\
    returned es2 = queued (p_queue s1) ++ inflight s1.
Proof.
  intros B N f HN sc.
  set (s1 := @mkP sc (S (S N)) (map (@Data sc) (seq 1 N)) false (WPut (S N : sc_batch sc)) true 1 CIdle).
  exists ((LCallGet B :: cycles 1 ++ LTake :: cycles N) ++ [LWCheck; LWFetch]), ([@EvReturn sc 0] ++ []), s1.
  destruct N as [|N']; [lia|]. set (N := S N') in *.
  exists (LCallGet B :: LTake :: LWPut :: PrefetchWitness.gets B N), (map (@EvReturn sc) (seq 1 (S N))).
  eexists. split; [|split; [|split; [|split]]].
  - eapply exec_app; [exact (primed None GStop B N HN Logic.I)|].
    apply prun_exec. reflexivity.
  - change (seq 1 (S N)) with (1 :: seq 2 N). cbn [map].
    change (@EvReturn sc 1 :: map (@EvReturn sc) (seq 2 N)) with ([] ++ [@EvReturn sc 1] ++ [] ++ map (@EvReturn sc) (seq 2 N)).
    eapply exec_cons.
    { unfold pstep, p_assign, call_get. cbn [s1 set_sched p_pc]. rewrite Nat.eqb_refl. reflexivity. }
    eapply exec_cons; [reflexivity|].
    eapply exec_cons.
    { instantiate (1 := @mkP sc (f (S (S N))) (map (@Data sc) (seq 2 N') ++ [@Data sc (S N)]) false WCheck true 2 CIdle).
      change ((if List.length (map (@Data sc) (seq 2 N')) <? N
        then Some (@nil (event sc), @mkP sc (f (S (S N))) (map (@Data sc) (seq 2 N') ++ [@Data sc (S N)]) false WCheck true 2 CIdle) else None) =
        Some (@nil (event sc), @mkP sc (f (S (S N))) (map (@Data sc) (seq 2 N') ++ [@Data sc (S N)]) false WCheck true 2 CIdle)).
      rewrite map_length, seq_length. replace (N' <? N) with true by (symmetry; apply Nat.ltb_lt; unfold N; lia). reflexivity. }
    replace (map (@Data sc) (seq 2 N') ++ [@Data sc (S N)]) with (map (@Data sc) (seq 2 N) ++ []).
    + replace (PrefetchWitness.gets B N) with (PrefetchWitness.gets B (List.length (seq 2 N))) by (rewrite seq_length; reflexivity).
      apply drain.
    + rewrite app_nil_r. replace N with (N' + 1) by (unfold N; lia). rewrite seq_app, map_app. cbn [seq map]. do 3 f_equal; lia.
  - intros [H|[H|[H|H]]]; [discriminate | discriminate | discriminate | exact (gets_no_reset _ _ H)].
  - unfold s1. cbn [p_queue inflight p_worker]. rewrite queued_data, app_length, seq_length. reflexivity.
  - rewrite returned_map. unfold s1. cbn [p_queue inflight p_worker]. rewrite queued_data.
    replace (S N) with (N + 1) at 1 by lia. rewrite seq_app. cbn [seq]. reflexivity.
Qed.
End Reached.
