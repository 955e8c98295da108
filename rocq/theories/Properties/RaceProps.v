(** Property C102: assigning a new [file_list] to a prefetching scheduler. *)
From Coq Require Import List Arith Lia String Bool QArith.
From Verif Require Import Prelude Model.Base Model.Reassign Spec.BaseSpec Spec.ReassignSpec.
From Verif Require Import Proofs.BaseProofs Proofs.BaseRun Proofs.BaseFinal Proofs.ReassignProofs Proofs.RaceProofs.
From Verif Require Model.Prefetch Spec.PrefetchSpec Proofs.PrefetchProofs Proofs.PrefetchWitness.
From Verif Require Properties.BaseProps.
Import ListNotations.
Local Open Scope nat_scope.

(** ** C102 *)

(** The batches already fetched when the list is assigned, at most
    [buffer_size + 1] of them, come first, and then what the wrapped scheduler
    gives from then on. *)
Theorem C102_fetched_first : forall sc B N u ls1 es1 s1 f ls2 es2 s2, 1 <= N ->
  Prefetch.exec sc B N (Prefetch.pinit sc u) ls1 es1 s1 ->
  Prefetch.exec sc B N (p_assign f s1) ls2 es2 s2 -> PrefetchSpec.no_reset ls2 ->
  let old := PrefetchSpec.queued (Prefetch.p_queue s1) ++ PrefetchSpec.inflight s1 in
  List.length old <= N + 1 /\
  exists l, fst (PrefetchSpec.calls (PrefetchSpec.fetches ls2) (f (Prefetch.p_sched s1))) = l /\
    (PrefetchSpec.dropped es2 = [] -> PrefetchSpec.polled es2 = [] ->
     exists rest, old ++ l = PrefetchSpec.handed es2 ++ rest).
Proof. intros sc B N u ls1 es1 s1 f ls2 es2 s2 HN. exact (assigned_between sc B N HN u ls1 es1 s1 f ls2 es2 s2). Qed.
Print Assumptions C102_fetched_first.

(** That many can indeed come: whatever the buffer size, [buffer_size + 1]
    batches fetched before the assignment are returned after it. *)
Theorem C102_bound_reached : forall B N f, 1 <= N -> let sc := PrefetchWitness.numbers None Prefetch.GStop in
  exists ls1 es1 s1 ls2 es2 s2,
    Prefetch.exec sc B N (Prefetch.pinit sc 0) ls1 es1 s1 /\
    Prefetch.exec sc B N (p_assign f s1) ls2 es2 s2 /\ PrefetchSpec.no_reset ls2 /\
    List.length (PrefetchSpec.queued (Prefetch.p_queue s1) ++ PrefetchSpec.inflight s1) = N + 1 /\
    PrefetchSpec.returned es2 = (PrefetchSpec.queued (Prefetch.p_queue s1) ++ PrefetchSpec.inflight s1).
Proof. exact bound_reached. Qed.
Print Assumptions C102_bound_reached.

(** During a fetch, with lists that do not get shorter: the batch being fetched
    consists of slices of the lists seen meanwhile, and nothing is raised but
    the StopIteration of a scheduler without loop (which needs no more
    iterations than the lists are long). *)
Theorem C102_while_fetching : forall c C fl k f0 ops seen fuel n,
  disk (c_loader c) C -> c_randomize c = false -> 0 < n ->
  growing seen -> (forall m, no_faults C (seen m)) -> (c_loop c = true -> forall m, seen m <> []) -> all_uniform C seen ->
  exists r s', batch_race c seen fuel n (snd (run c f0 ops (init c fl k))) = (r, s') /\
  (c_loop c = false -> (forall m, List.length (seen m) < fuel) -> r <> COutOfFuel) /\
  (r = COutOfFuel \/ (r = CRaise StopIteration /\ c_loop c = false) \/
   exists b l, r = CReturn b /\ batch_of n l b /\ l <> [] /\ forall x, In x l -> exists m, In x (epoch C (seen m))).
Proof.
  intros c C fl k f0 ops seen fuel n HD HR N0 GR NF NE U.
  assert (I : Inv c C (snd (run c f0 ops (init c fl k)))).
  { apply (run_reach c C HD f0 ops (init c fl k)); [congruence | apply init_inv]. }
  destruct (race_batch c C HD seen GR NF NE fuel n _ I U N0) as (r & s' & E & _ & K). exists r, s'. split; [exact E|]. split; [|exact K].
  intros HL BD. pose proof (race_batch_fuel c C HD seen GR NF NE HL fuel n _ BD I) as Z. rewrite E in Z. exact Z.
Qed.
Print Assumptions C102_while_fetching.

(** With a list that stays, the fetch is the one of Model/Base.v. *)
Theorem C102_undisturbed : forall c fl k f0 ops fuel n, c_randomize c = false ->
  let s := snd (run c f0 ops (init c fl k)) in
  batch_race c (fun _ => fl) fuel n s = get_batch c fuel n s.
Proof.
  intros c fl k f0 ops fuel n HR s. apply race_undisturbed; [exact HR|].
  unfold s. rewrite (proj1 (run_frame c f0 ops _ HR)). apply init_files, HR.
Qed.
Print Assumptions C102_undisturbed.

(** With a shorter list the fetch can raise IndexError, which ends the
    background thread (C29), or start over from the first file although the
    scheduler does not loop; both lists being in order, and the moment of the
    assignment making the difference. *)
Theorem C102_shorter_list_refuted : exists c C fl fl' k n,
  disk (c_loader c) C /\ c_randomize c = false /\ c_loop c = false /\
  no_faults C fl /\ no_faults C fl' /\ fl <> [] /\ fl' <> [] /\ uniform C (fl ++ fl') /\
  let s := snd (run c 10 (gets [2]) (init c fl k)) in
  fst (batch_race c (replaced fl fl' 0) 10 n s) <> CRaise IndexError /\
  (exists b, fst (batch_race c (replaced fl fl' 4) 10 n s) = CReturn b /\ sd_files b = Some ["a"]%string) /\
  fst (batch_race c (replaced fl fl' 5) 10 n s) = CRaise IndexError.
Proof.
  exists (BaseProps.ex_cfg false false), BaseProps.ex_C, ["a"; "c"]%string, ["a"]%string, (Seed 0), 1.
  split; [apply BaseProps.ex_disk|]. split; [reflexivity|]. split; [reflexivity|].
  split; [intros p l e [<-|[<-|[]]]; discriminate|].
  split; [intros p l e [<-|[]]; discriminate|]. split; [discriminate|]. split; [discriminate|].
  split. { exists [1; 1; 2], [1; 1], [1; 1]. repeat split; auto; simpl in H;
    destruct H as [<-|[<-|[<-|[<-|[<-|[]]]]]]; simpl; auto; try discriminate; eexists; reflexivity. }
  cbn zeta. split; [vm_compute; discriminate|]. split; [eexists; split; reflexivity | reflexivity].
Qed.
Print Assumptions C102_shorter_list_refuted.

(** ** Non-vacuity *)
Example ex_growing : growing (replaced ["a"; "b"]%string ["a"; "c"]%string 3).
Proof. intros m n _. unfold replaced. destruct (m <? 3), (n <? 3); cbn; lia. Qed.

(** A batch with one slice of the old list and one of a file that only the new
    list has. *)
Example ex_mixed :
  match fst (batch_race (BaseProps.ex_cfg false false) (replaced ["a"; "b"]%string ["a"; "c"]%string 3) 10 2
          (snd (run (BaseProps.ex_cfg false false) 10 (gets [1]) (init (BaseProps.ex_cfg false false) ["a"; "b"]%string (Seed 0))))) with
  | CReturn b => sd_files b = Some ["a"; "c"]%string
  | _ => False
  end.
Proof. reflexivity. Qed.
