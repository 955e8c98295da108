(** Property C101: assigning a new [file_list] to a scheduler in use. *)
From Coq Require Import List Arith Lia String Bool QArith.
From Verif Require Import Prelude Model.Base Model.Episodic Model.Reassign Spec.BaseSpec Spec.ReassignSpec.
From Verif Require Import Proofs.BaseProofs Proofs.BaseFinal Proofs.ReassignProofs.
From Verif Require Properties.BaseProps Properties.EpisodicProps.
Import ListNotations.
Local Open Scope nat_scope.

(** ** C101 *)

(** A scheduler making one pass has delivered [sum ns] slices, the last one
    being slice [r] of the file at place [i], when the list is replaced: it
    goes on like one over the new list that has delivered [counted] slices,
    that is from the start of the file at place [i], or, where the new list
    has the same path there, from the slice after. *)
Theorem C101_one_pass : forall c C fl fl' k ns ns' fuel i r,
  disk (c_loader c) C -> c_loop c = false -> c_randomize c = false ->
  no_adjacent_equal fl -> no_faults C fl -> uniform C fl ->
  no_adjacent_equal fl' -> no_faults C fl' -> uniform C fl' ->
  2 * List.length fl < fuel -> List.length fl' < fuel ->
  (forall n, In n ns -> 0 < n) -> ns <> [] -> sum ns <= List.length (epoch C fl) ->
  last_place C fl (sum ns) i r ->
  forall j n, nth_error ns' j = Some n ->
    let next := firstn n (skipn (counted C fl fl' i r + sum (firstn j ns')) (epoch C fl')) in
    let res := nth_error (fst (run c fuel (gets ns') (set_files (snd (run c fuel (gets ns) (init c fl k))) fl'))) j in
    (next = [] -> res = Some (ORes (CRaise StopIteration))) /\
    (next <> [] -> exists b, res = Some (ORes (CReturn b)) /\ batch_of n next b).
Proof.
  intros c C fl fl' k ns ns' fuel i r HD HL HR NA NF U NA' NF' U' F F' POS N0 FIN LP.
  exact (assigned_once c C HD fl fl' k ns ns' fuel i r HL NA NF U HR F F' POS N0 FIN NA' NF' U' LP).
Qed.
Print Assumptions C101_one_pass.

(** The same for a scheduler that starts over at the end, whatever the number
    of passes already made: the rest of the new list, then passes over it. *)
Theorem C101_looping : forall c C fl fl' k ns ns' fuel i r,
  disk (c_loader c) C -> c_loop c = true -> c_randomize c = false ->
  no_adjacent_equal fl -> no_faults C fl -> uniform C fl -> epoch C fl <> [] ->
  no_adjacent_equal fl' -> no_faults C fl' -> same_shapes C fl' -> epoch C fl' <> [] ->
  2 * List.length fl < fuel -> 2 * List.length fl' < fuel ->
  (forall n, In n ns -> 0 < n) -> ns <> [] -> (forall n, In n ns' -> 0 < n) ->
  last_place C fl ((sum ns - 1) mod List.length (epoch C fl) + 1) i r ->
  forall j n, nth_error ns' j = Some n ->
    exists b l,
      nth_error (fst (run c fuel (gets ns') (set_files (snd (run c fuel (gets ns) (init c fl k))) fl'))) j = Some (ORes (CReturn b)) /\
      batch_of n l b /\ List.length l = n /\
      forall m, m < n -> nth_error l m =
        nth_error (epoch C fl') ((counted C fl fl' i r + sum (firstn j ns') + m) mod List.length (epoch C fl')).
Proof.
  intros c C fl fl' k ns ns' fuel i r HD HL HR NA NF U NE NA' NF' U' NE' F F' POS N0 POS' LP.
  exact (assigned_loop c C HD fl fl' k ns ns' fuel i r HL NA NF U NE HR F F' POS N0 NA' NF' U' NE' POS' LP).
Qed.
Print Assumptions C101_looping.

(** The place of the last slice always exists and there is only one. *)
Theorem C101_place : forall C fl N, 1 <= N <= List.length (epoch C fl) ->
  exists i r, last_place C fl N i r /\ forall i' r', last_place C fl N i' r' -> i' = i /\ r' = r.
Proof.
  intros C fl N H. destruct (place_exists C fl N H) as (i & r & P). exists i, r. split; [exact P|].
  intros i' r' P'. exact (place_unique C fl N i' r' i r P' P).
Qed.
Print Assumptions C101_place.

(** Before the first batch, and after a [reset], the scheduler is one over the
    new list. *)
Theorem C101_afresh : forall c fl fl' k f0 ops fuel ops', c_randomize c = false ->
  fst (run c fuel ops' (set_files (init c fl k) fl')) = fst (run c fuel ops' (init c fl' k)) /\
  fst (run c fuel ops' (reset c (set_files (snd (run c f0 ops (init c fl k))) fl'))) = fst (run c fuel ops' (init c fl' k)).
Proof.
  intros c fl fl' k f0 ops fuel ops' HR. split.
  - f_equal. apply assigned_first, HR.
  - rewrite assigned_reset, run_key by exact HR. reflexivity.
Qed.
Print Assumptions C101_afresh.

(** Once StopIteration has been raised, none of a list that is no longer than
    the old one is shown. *)
Theorem C101_ended : forall c fl fl' k f0 ops fuel n s1 f1 ns,
  c_loop c = false -> c_randomize c = false -> slice_never_stops (c_loader c) -> 0 < n ->
  get_batch c fuel n (snd (run c f0 ops (init c fl k))) = (CRaise StopIteration, s1) ->
  List.length fl' <= List.length fl ->
  fst (run c (S f1) (gets ns) (set_files s1 fl')) = map (fun _ => ORes (CRaise StopIteration)) ns.
Proof.
  intros c fl fl' k f0 ops fuel n s1 f1 ns HL HR HN Hn G L.
  refine (assigned_ended c _ s1 fuel n fl' f1 ns HL HN Hn G _).
  pose proof (proj1 (run_frame c fuel [OGet n] (snd (run c f0 ops (init c fl k))) HR)) as K.
  cbn [run do_op] in K. rewrite G in K. cbn [snd] in K.
  rewrite K, (proj1 (run_frame c f0 ops (init c fl k) HR)), init_files by exact HR. exact L.
Qed.
Print Assumptions C101_ended.

(** An episodic scheduler passes the list on to the scheduler below, where it
    stays until the next episode only: after [next_episode] or [reset]
    everything is as if nothing had been assigned. *)
Theorem C101_episodic : forall D c g base B L k ec s0 f0 ops0 fl' fuel o ops,
  ep_construct D c g base B L k = Ok (ec, s0) -> o = ENext \/ o = EReset ->
  fst (erun ec fuel (o :: ops) (ep_assign (snd (erun ec f0 ops0 s0)) fl')) =
  fst (erun ec fuel (o :: ops) (snd (erun ec f0 ops0 s0))).
Proof.
  intros D c g base B L k ec s0 f0 ops0 fl' fuel o ops H HO. f_equal.
  apply erun_next_assigned; [eapply construct_starts; exact H | exact HO].
Qed.
Print Assumptions C101_episodic.

(** Within the episode the batches are those the scheduler below gives under
    the same assignment, so [C101_one_pass] and [C101_looping] say what they
    hold. *)
Theorem C101_episode : forall D c g base B L k ec s0 f0 ops0 fuel t u fl',
  ep_construct D c g base B L k = Ok (ec, s0) -> c_randomize c = false -> t + u <= L ->
  let s := snd (erun ec f0 ops0 s0) in
  let e := next_episode ec s in
  fst (erun ec fuel (repeat (EGet B) u) (ep_assign (snd (erun ec fuel (repeat (EGet B) t) e)) fl')) =
  fst (run c fuel (gets (repeat B u))
         (set_files (snd (run c fuel (gets (repeat B t)) (init c (s_files (e_base e)) (s_key (e_base s))))) fl')).
Proof.
  intros D c g base B L k ec s0 f0 ops0 fuel t u fl' H HR LE s e.
  pose proof (construct_starts D c g base B L k ec s0 H) as NE.
  assert (E : ec_base ec = c /\ ec_B ec = B /\ ec_L ec = L).
  { unfold ep_construct in H. destruct (B =? 0); [discriminate|]. destruct (L =? 0); [discriminate|].
    destruct (calculate_starts D L (s_files base)) as [st|x]; [|discriminate]. cbn [bind] in H.
    destruct (sample (mkEcfg c g B L (dir_files D) st) (mkEst base k 0)) as [s1|x]; [|discriminate]. cbn [bind] in H.
    injection H as <- <-. auto. }
  destruct E as (E1 & E2 & E3). rewrite <- E1, <- E2. apply episode_assigned; [exact NE | rewrite E1; exact HR | lia].
Qed.
Print Assumptions C101_episode.

(** The episode ends when it would have ended without the assignment. *)
Theorem C101_episode_ends : forall D c g base B L k ec s0 f0 ops0 fuel t u fl',
  ep_construct D c g base B L k = Ok (ec, s0) -> t + u = L ->
  let e := next_episode ec (snd (erun ec f0 ops0 s0)) in
  let a := ep_assign (snd (erun ec fuel (repeat (EGet B) t) e)) fl' in
  steps_remaining ec a = Z.of_nat u /\
  fst (erun ec fuel (repeat (EGet B) u ++ [EGet B]) a) = fst (erun ec fuel (repeat (EGet B) u) a) ++ [ORes (CRaise EpisodeEnd)].
Proof.
  intros D c g base B L k ec s0 f0 ops0 fuel t u fl' H LE e a.
  pose proof (construct_starts D c g base B L k ec s0 H) as NE.
  assert (E : ec_B ec = B /\ ec_L ec = L).
  { unfold ep_construct in H. destruct (B =? 0); [discriminate|]. destruct (L =? 0); [discriminate|].
    destruct (calculate_starts D L (s_files base)) as [st|x]; [|discriminate]. cbn [bind] in H.
    destruct (sample (mkEcfg c g B L (dir_files D) st) (mkEst base k 0)) as [s1|x]; [|discriminate]. cbn [bind] in H.
    injection H as <- <-. auto. }
  destruct E as [E2 E3]. assert (ET : e_t e = 0) by (unfold e, next_episode, sample; destruct (ec_starts ec); [congruence | reflexivity]).
  assert (EA : e_t a = t). { unfold a. rewrite <- E2, (erun_gets ec fuel t e) by lia. cbn [snd ep_assign e_t]. lia. }
  split; [unfold steps_remaining; rewrite EA; lia|]. rewrite <- E2.
  assert (G : forall n s, e_t s + n = ec_L ec -> fst (erun ec fuel (repeat (EGet (ec_B ec)) n ++ [EGet (ec_B ec)]) s) = fst (erun ec fuel (repeat (EGet (ec_B ec)) n) s) ++ [ORes (CRaise EpisodeEnd)]).
  { induction n as [|n IH]; intros s LN; cbn [repeat app erun do_eop]; unfold ep_get; rewrite Nat.eqb_refl; cbn [negb].
    - rewrite (proj2 (Nat.leb_le _ _)) by lia. reflexivity.
    - rewrite (proj2 (Nat.leb_gt _ _)) by lia. destruct (get_batch (ec_base ec) fuel (ec_B ec) (e_base s)) as [r b].
      specialize (IH (mkEst b (e_key s) (S (e_t s))) ltac:(cbn [e_t]; lia)).
      destruct (erun ec fuel (repeat (EGet (ec_B ec)) n ++ [EGet (ec_B ec)]) (mkEst b (e_key s) (S (e_t s)))) as [r1 s1].
      destruct (erun ec fuel (repeat (EGet (ec_B ec)) n) (mkEst b (e_key s) (S (e_t s)))) as [r2 s2]. cbn [fst] in *. rewrite IH. reflexivity. }
  apply G. lia.
Qed.
Print Assumptions C101_episode_ends.

(** That the slices of the assigned list are all shown is false: here none is,
    however long one asks. *)
Theorem C101_list_shown_refuted : exists c C fl fl' k s1 x,
  disk (c_loader c) C /\ c_loop c = false /\ c_randomize c = false /\ no_adjacent_equal fl' /\ no_faults C fl' /\ uniform C fl' /\
  get_batch c 10 1 (snd (run c 10 (gets [2; 1]) (init c fl k))) = (CRaise StopIteration, s1) /\
  In x (epoch C fl') /\ ~ In x (epoch C fl) /\
  forall fuel ns, received (fst (run c (S fuel) (gets ns) (set_files s1 fl'))) = [].
Proof.
  set (c := BaseProps.ex_cfg false false).
  exists c, BaseProps.ex_C, ["a"; "b"]%string, ["c"]%string, (Seed 0),
    (snd (get_batch c 10 1 (snd (run c 10 (gets [2; 1]) (init c ["a"; "b"]%string (Seed 0)))))), (BaseProps.ex_slice 3 "c").
  split; [apply BaseProps.ex_disk|]. split; [reflexivity|]. split; [reflexivity|].
  split; [intros [|[|j]] p q Hp Hq; discriminate|].
  split; [intros p l e [<-|[]]; discriminate|].
  split. { exists [1; 1; 2], [1; 1], [1; 1]. repeat split; auto; simpl in H; destruct H as [<-|[]]; simpl; auto; try discriminate; eexists; reflexivity. }
  split; [reflexivity|]. split; [left; reflexivity|]. split; [intros [H|[H|[]]]; discriminate|].
  intros fuel ns. rewrite (C101_ended c ["a"; "b"]%string ["c"]%string (Seed 0) 10 (gets [2; 1]) 10 1
    (snd (get_batch c 10 1 (snd (run c 10 (gets [2; 1]) (init c ["a"; "b"]%string (Seed 0)))))) fuel ns eq_refl eq_refl
    BaseProps.ex_stops ltac:(lia) eq_refl ltac:(cbn [List.length]; lia)).
  apply received_stops.
Qed.
Print Assumptions C101_list_shown_refuted.

(** ** Non-vacuity *)

(** File a has two slices, b is unreadable, c has one.  The hypotheses about
    [a; b; c] are those of Properties/BaseProps.v. *)
Example ex_place : last_place BaseProps.ex_C BaseProps.ex_fl 1 0 1 /\ last_place BaseProps.ex_C BaseProps.ex_fl 3 2 1.
Proof. split; [exists "a"%string | exists "c"%string]; split; try reflexivity; cbn; lia. Qed.

Example ex_counted :
  counted BaseProps.ex_C BaseProps.ex_fl ["a"; "c"; "a"]%string 0 1 = 1 /\
  counted BaseProps.ex_C BaseProps.ex_fl ["c"; "a"]%string 0 1 = 0 /\
  counted BaseProps.ex_C BaseProps.ex_fl ["c"; "b"; "a"]%string 2 1 = 1.
Proof. repeat split. Qed.

Example ex_new_list : no_adjacent_equal ["a"; "c"; "a"]%string /\ no_faults BaseProps.ex_C ["a"; "c"; "a"]%string /\
  uniform BaseProps.ex_C ["a"; "c"; "a"]%string.
Proof.
  split; [intros [|[|[|j]]] p q Hp Hq; cbn in Hp, Hq; try congruence; destruct j; discriminate|].
  split; [intros p l e [<-|[<-|[<-|[]]]]; discriminate|].
  exists [1; 1; 2], [1; 1], [1; 1]. repeat split; auto; simpl in H;
    destruct H as [<-|[<-|[<-|[<-|[<-|[]]]]]]; simpl; auto; try discriminate; eexists; reflexivity.
Qed.

(** One slice of a delivered: a list with a in the first place goes on with
    its second slice, one without is shown from the start; the second slice of
    a is then lost. *)
Example ex_same_path :
  received (fst (run (BaseProps.ex_cfg false false) 10 (gets [2; 5])
    (set_files (snd (run (BaseProps.ex_cfg false false) 10 (gets [1]) (init (BaseProps.ex_cfg false false) BaseProps.ex_fl (Seed 0)))) ["a"; "c"; "a"]%string)))
  = map slice_row [BaseProps.ex_slice 2 "a"; BaseProps.ex_slice 3 "c"; BaseProps.ex_slice 1 "a"; BaseProps.ex_slice 2 "a"].
Proof. reflexivity. Qed.

Example ex_other_path :
  received (fst (run (BaseProps.ex_cfg false false) 10 (gets [2; 5])
    (set_files (snd (run (BaseProps.ex_cfg false false) 10 (gets [1]) (init (BaseProps.ex_cfg false false) BaseProps.ex_fl (Seed 0)))) ["c"]%string)))
  = map slice_row [BaseProps.ex_slice 3 "c"].
Proof. reflexivity. Qed.

(** A looping scheduler in its second pass. *)
Example ex_looping :
  map snd (received (fst (run (BaseProps.ex_cfg false true) 10 (gets [2; 3])
    (set_files (snd (run (BaseProps.ex_cfg false true) 10 (gets [4]) (init (BaseProps.ex_cfg false true) BaseProps.ex_fl (Seed 0)))) ["a"; "c"]%string))))
  = ["a"; "c"; "a"; "a"; "c"]%string.
Proof. reflexivity. Qed.

(** Episodes of two steps over directories d and e: a list assigned after the
    first step gives the second batch, from its second entry on (the place of
    the last file shown, not the one after), and is
    forgotten in the next episode. *)
Example ex_episode :
  match ep_construct (EpisodicProps.exE EpisodicProps.exE_enum) (EpisodicProps.exE_cfg false false) EpisodicProps.exE_rng2 EpisodicProps.exE_base 2 2 (Seed 1) with
  | Ok (ec, s) =>
      map (fun o => match o with ORes (CReturn b) => sd_files b | _ => None end)
          (fst (erun ec 20 [EGet 2; ENext; EGet 2] (ep_assign (snd (erun ec 20 [EGet 2] s)) ["w"; "x"; "y"; "z"]%string)))
  | Err _ => []
  end = [Some ["x"; "y"]%string; None; Some ["d/0.mat"; "e/0.mat"]%string].
Proof. reflexivity. Qed.
