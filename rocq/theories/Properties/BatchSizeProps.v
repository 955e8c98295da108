(** Property C126: get_batch with batch sizes of any type. *)
From Coq Require Import List Arith ZArith QArith Lia String Bool.
From Verif Require Import Prelude Model.PyVal Model.Base Model.Files Model.Episodic Model.Prefetch Model.BatchSize.
From Verif Require Import Spec.BaseSpec Spec.EpisodicSpec Spec.BatchSizeSpec.
From Verif Require Import Proofs.BatchSizeProofs Properties.BaseProps Properties.EpisodicProps.
Import ListNotations.
Local Open Scope nat_scope.

(** Every value is taken as a size or refused, never both. *)
Theorem C126_taken_or_refused : forall z v,
  ((exists n, takes z v n) \/ exists e, refuses z v e) /\
  (forall n n', takes z v n -> takes z v n' -> n = n') /\
  (forall e e', refuses z v e -> refuses z v e' -> e = e') /\
  forall n e, takes z v n -> refuses z v e -> False.
Proof.
  intros z v. split; [apply takes_or_refuses|]. split; [|split; [|apply takes_not_refuses]].
  - intros n n' [A _] [B _]. pose proof (the_int_fun _ _ _ A B). lia.
  - intros e e' A B. apply np_ones_refuses in A, B. congruence.
Qed.
Print Assumptions C126_taken_or_refused.

(** A refused size raises and changes nothing; a taken one counts as its
    integer. *)
Theorem C126_file : forall z c fuel v s,
  (forall n, takes z v n -> get_batch_any z c fuel v s = get_batch c fuel n s) /\
  (forall e, refuses z v e -> get_batch_any z c fuel v s = (CRaise e, s)).
Proof.
  intros z c fuel v s. unfold get_batch_any. split.
  - intros n T. apply np_ones_takes in T. now rewrite T.
  - intros e R. apply np_ones_refuses in R. now rewrite R.
Qed.
Print Assumptions C126_file.

(** In any sequence of calls the refused ones are without effect on the
    others. *)
Theorem C126_invisible : forall z c fuel ops s, exists ops',
  without_refused z ops (fst (run_any z c fuel ops s)) ops' (fst (run c fuel ops' s)) /\
  snd (run_any z c fuel ops s) = snd (run c fuel ops' s).
Proof. exact run_any_sim. Qed.
Print Assumptions C126_invisible.

(** Size 0: StopIteration without effect if the scheduler does not loop; if it
    does, ValueError, and all later calls are answered as after [reset]. *)
Theorem C126_zero : forall z c fuel v s, takes z v 0 -> forall ops,
  run_any z c fuel (VGet v :: ops) s =
  (let (rs, s') := run_any z c fuel ops (if c_loop c then reset c s else s) in
   (ORes (CRaise (if c_loop c then ValueError else StopIteration)) :: rs, s')).
Proof.
  intros z c fuel v s T ops. cbn [run_any do_vop]. rewrite (proj1 (C126_file z c fuel v s) 0 T), get_zero.
  destruct (c_loop c); reflexivity.
Qed.
Print Assumptions C126_zero.

(** In episodes: a different size is refused without effect; after the last
    step an equal one gives EpisodeEnd; before, an equal size that NumPy takes
    is a step, and one that NumPy refuses (a float, for instance) raises and
    uses up a step of the episode but no data. *)
Theorem C126_episodic : forall z ec fuel v s,
  (~ equals v (ec_B ec) -> ep_get_any z ec fuel v s = (CRaise ValueError, s)) /\
  (equals v (ec_B ec) -> ec_L ec <= e_t s -> ep_get_any z ec fuel v s = (CRaise EpisodeEnd, s)) /\
  (equals v (ec_B ec) -> e_t s < ec_L ec ->
   (takes z v (ec_B ec) -> ep_get_any z ec fuel v s = ep_get ec fuel (ec_B ec) s) /\
   (forall e, refuses z v e -> fst (ep_get_any z ec fuel v s) = CRaise e /\
      e_base (snd (ep_get_any z ec fuel v s)) = e_base s /\ e_key (snd (ep_get_any z ec fuel v s)) = e_key s /\
      e_t (snd (ep_get_any z ec fuel v s)) = S (e_t s))).
Proof.
  intros z ec fuel v s. split; [apply ep_get_different|]. split.
  - intros Q H. unfold ep_get_any. apply py_ne_int_spec in Q. rewrite Q. apply Nat.leb_le in H. now rewrite H.
  - intros Q H. split; [apply ep_get_taken|]. intros e R. rewrite (ep_get_lost _ _ _ _ _ _ Q R).
    apply Nat.leb_gt in H. rewrite H. repeat split.
Qed.
Print Assumptions C126_episodic.

(** [k] such calls shorten the episode by [k] steps: the calls after them get
    what they would have got without them, but EpisodeEnd comes [k] steps
    earlier. *)
Theorem C126_lost_steps : forall z ec fuel v e s k m, equals v (ec_B ec) -> refuses z v e ->
  nz_fails z (ec_B ec) = None -> e_t s + k <= ec_L ec ->
  fst (erun_any z ec fuel (repeat (VEGet v) k ++ repeat (VEGet (PInt (Z.of_nat (ec_B ec)))) m) s) =
  (repeat (ORes (CRaise e)) k ++
   firstn (ec_L ec - e_t s - k) (fst (erun ec fuel (repeat (EGet (ec_B ec)) m) s)) ++
   repeat (ORes (CRaise EpisodeEnd)) (m - (ec_L ec - e_t s - k)))%list.
Proof.
  intros z ec fuel v e s k m Q R F H. rewrite erun_any_app, (lost_state _ _ _ _ _ _ _ Q R H).
  assert (T : takes z (PInt (Z.of_nat (ec_B ec))) (ec_B ec)).
  { split; [now left|]. split; [assumption|]. intros [b B]; discriminate. }
  pose proof (later_counter z ec fuel _ k m (e_base s) (e_key s) (e_t s) T H) as E.
  destruct (erun_any z ec fuel (repeat (VEGet (PInt _)) m) _) as [rb sb]. cbn [fst] in *. rewrite E.
  destruct s; reflexivity.
Qed.
Print Assumptions C126_lost_steps.

(** The next episode is not affected. *)
Theorem C126_next_episode : forall D c g base B L key ec s0, ep_construct D c g base B L key = Ok (ec, s0) ->
  forall z fuel v e s k, equals v B -> refuses z v e -> e_t s + k <= L ->
  snd (erun_any z ec fuel (repeat (VEGet v) k ++ [VENext]) s) = snd (erun ec fuel [ENext] s).
Proof.
  intros D c g base B L key ec s0 HC z fuel v e s k Q R H.
  unfold ep_construct in HC. destruct (B =? 0); [discriminate|]. destruct (L =? 0); [discriminate|].
  destruct (calculate_starts D L (s_files base)) as [st|]; [|discriminate]. cbn [bind] in HC.
  destruct (sample _ _) as [s1|] eqn:HS; [|discriminate]. cbn [bind] in HC. inversion HC; subst ec s0; clear HC.
  rewrite erun_any_app. match goal with |- context [erun_any _ ?ec _ _ _] => rewrite (lost_state z ec fuel v e k s Q R H) end.
  cbn [erun_any do_vep erun do_eop snd].
  destruct s as [b ky t]. cbn [e_base e_key e_t].
  match goal with |- next_episode ?ec _ = _ => destruct (next_forgets ec b ky (t + k) t) as [E|E]; [exact E|] end.
  unfold sample in HS. rewrite E in HS. discriminate.
Qed.
Print Assumptions C126_next_episode.

(** The prefetching scheduler only compares: every number equal to its batch
    size, 2.0 for 2 included, is as good as the integer; anything else is
    refused without effect, not even starting the background thread. *)
Theorem C126_prefetch : forall sc B N v s, p_pc s = CIdle ->
  (equals v B -> Some (call_get_any sc B v s) = pstep sc B N s (LCallGet B)) /\
  (~ equals v B -> call_get_any sc B v s = ([EvValueError], s)).
Proof.
  intros sc B N v s I. unfold call_get_any. split.
  - intros Q. apply py_ne_int_spec in Q. rewrite Q. cbn [pstep]. now rewrite I.
  - intros Q. destruct (py_ne_int v B) eqn:E; [reflexivity|]. apply py_ne_int_spec in E. contradiction.
Qed.
Print Assumptions C126_prefetch.

(** ** Concrete cases *)

Definition exZ : npsizes := mkNpsizes true (fun n => if 1000 <? n then Some (OtherExn 1) else None).
Definition exZ_show (o : obs) : option (list string) + option exn :=
  match o with ORes (CReturn b) => inl (sd_files b) | ORes (CRaise e) => inr (Some e) | _ => inr None end.

(** In an episode of two steps, one call with 2.0: one step is left, and the
    files of the second step are never shown. *)
Theorem C126_raising_calls_are_harmless_refuted :
  exists z ec s, ec_B ec = 2 /\ ec_L ec = 2 /\
    ep_construct (exE exE_enum) (exE_cfg false false) exE_rng2 exE_base 2 2 (Seed 1) = Ok (ec, s) /\
    map exZ_show (fst (erun_any z ec 20 [VEGet (PInt 2); VEGet (PInt 2); VEGet (PInt 2)] s)) =
      [inl (Some ["d/0.mat"; "e/0.mat"]%string); inl (Some ["d/1.mat"; "e/1.mat"]%string); inr (Some EpisodeEnd)] /\
    map exZ_show (fst (erun_any z ec 20 [VEGet (PFloat (Fin 2)); VEGet (PInt 2); VEGet (PInt 2)] s)) =
      [inr (Some TypeError); inl (Some ["d/0.mat"; "e/0.mat"]%string); inr (Some EpisodeEnd)].
Proof.
  assert (K : match ep_construct (exE exE_enum) (exE_cfg false false) exE_rng2 exE_base 2 2 (Seed 1) with
    | Ok (ec, s) => (ec_B ec, ec_L ec,
        map exZ_show (fst (erun_any exZ ec 20 [VEGet (PInt 2); VEGet (PInt 2); VEGet (PInt 2)] s)),
        map exZ_show (fst (erun_any exZ ec 20 [VEGet (PFloat (Fin 2)); VEGet (PInt 2); VEGet (PInt 2)] s)))
    | Err _ => (0, 0, [], []) end =
    (2, 2, [inl (Some ["d/0.mat"; "e/0.mat"]%string); inl (Some ["d/1.mat"; "e/1.mat"]%string); inr (Some EpisodeEnd)],
     [inr (Some TypeError); inl (Some ["d/0.mat"; "e/0.mat"]%string); inr (Some EpisodeEnd)])) by (vm_compute; reflexivity).
  destruct (ep_construct (exE exE_enum) (exE_cfg false false) exE_rng2 exE_base 2 2 (Seed 1)) as [[ec s]|]; [|discriminate].
  exists exZ, ec, s. pose proof (f_equal (fun x => fst (fst (fst x))) K) as K1. pose proof (f_equal (fun x => snd (fst (fst x))) K) as K2.
  pose proof (f_equal (fun x => snd (fst x)) K) as K3. pose proof (f_equal snd K) as K4. cbn [fst snd] in *. auto 10.
Qed.
Print Assumptions C126_raising_calls_are_harmless_refuted.

Example exZ_sizes :
  takes exZ (PInt 3) 3 /\ takes exZ (PBool true) 1 /\ refuses exZ (PInt (-3)) ValueError /\
  refuses exZ (PFloat (Fin 3)) TypeError /\ refuses exZ PNone TypeError /\ refuses exZ (PInt 1001) (OtherExn 1) /\
  equals (PFloat (Fin (6 # 2))) 3 /\ ~ equals (PFloat NaN) 3 /\ ~ equals (PStr "3") 3.
Proof.
  rewrite <- !np_ones_takes, <- !np_ones_refuses, <- !py_ne_int_spec. vm_compute. repeat split; reflexivity || discriminate.
Qed.

(** Negative and fractional sizes between ordinary calls; then size 0. *)
Example exZ_run :
  map exZ_show (fst (run_any exZ (ex_cfg false true) 20
    [VGet (PInt 1); VGet (PInt (-1)); VGet (PFloat (Fin 1)); VGet (PBool true); VGet (PInt 0); VGet (PInt 1)]
    (init (ex_cfg false true) ex_fl (Seed 0)))) =
  [inl (Some ["a"]%string); inr (Some ValueError); inr (Some TypeError); inl (Some ["a"]%string); inr (Some ValueError);
   inl (Some ["a"]%string)].
Proof. vm_compute. reflexivity. Qed.

(** The hypotheses of the theorems about lost steps. *)
Example exZ_lost : forall ec, ec_B ec = 2 -> equals (PFloat (Fin 2)) (ec_B ec) /\ refuses exZ (PFloat (Fin 2)) TypeError /\
  nz_fails exZ (ec_B ec) = None.
Proof.
  intros ec ->. rewrite <- np_ones_refuses, <- py_ne_int_spec. repeat split; vm_compute; reflexivity.
Qed.
