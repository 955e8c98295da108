(** Property C82: every shuffle and every draw of episodes has its own key. *)
From Coq Require Import List Arith ZArith Lia String Bool QArith Permutation.
From Verif Require Import Prelude Model.Base Model.Files Model.Episodic.
From Verif Require Import Spec.BaseSpec Spec.EpisodicSpec Proofs.FreshKeys.
From Verif Require Import Properties.BaseProps Properties.EpisodicProps.
Import ListNotations.
Local Open Scope nat_scope.

(** The stream of a looping, shuffling scheduler: pass [j+1] is pass [j]
    permuted by a draw with a key that no other pass uses.  The keys depend on
    the seed only. *)
Theorem C82_passes : forall k, exists draw : nat -> key, (forall i j, draw i = draw j -> i = j) /\
  forall c C fl fuel,
  disk (c_loader c) C -> c_loop c = true -> c_randomize c = true -> perm_ok (c_rng c) ->
  no_faults C fl -> same_shapes C fl -> epoch C fl <> [] ->
  2 * List.length fl < fuel ->
  exists P : nat -> list string,
    taken_at fl (rperm (c_rng c) (draw 0) (List.length fl)) (P 0) /\
    (forall j, taken_at (P j) (rperm (c_rng c) (draw (S j)) (List.length fl)) (P (S j))) /\
    forall ns K, (forall n, In n ns -> 0 < n) -> sum ns <= K ->
      received (fst (run c fuel (gets ns) (init c fl k))) =
      map slice_row
        (firstn (sum ns) (flat_map (fun j => epoch C (collapse (P j))) (seq 0 K))).
Proof. exact fresh_passes. Qed.
Print Assumptions C82_passes.

(** The windows served after any calls are those drawn with the key of the
    current episode, which no other episode uses. *)
Theorem C82_episodes : forall k, exists draw : nat -> key, (forall i j, draw i = draw j -> i = j) /\
  forall D c g base B L ec s0, enum_ok D -> choice_ok g ->
  (c_randomize c = true -> perm_ok (c_rng c)) -> ep_construct D c g base B L k = Ok (ec, s0) ->
  forall f0 ops, exists ws order,
    taken_at (ec_starts ec) (rchoice g (draw (restarts ops)) (List.length (ec_starts ec)) B) ws /\
    time_major (dir_files D) L ws order /\
    Permutation (s_files (e_base (snd (erun ec f0 ops s0)))) order /\
    (c_randomize c = false -> s_files (e_base (snd (erun ec f0 ops s0))) = order).
Proof. exact fresh_episodes. Qed.
Print Assumptions C82_episodes.

(** A generator whose answers depend on the key: the order is reversed for
    every second key of the chain. *)
Fixpoint exF_even (k : key) : bool := match k with Seed _ => true | Child k _ => negb (exF_even k) end.
Definition exF_rng : rng :=
  mkRng (fun k n => if exF_even k then seq 0 n else rev (seq 0 n))
        (fun k n m => repeat (if exF_even k then 0 else n - 1) m).

Example exF_perm : perm_ok exF_rng.
Proof. intros k n. cbn. destruct (exF_even k); auto. symmetry. apply Permutation_rev. Qed.

Example exF_choice : choice_ok exF_rng.
Proof.
  intros k n m Hn. cbn. rewrite repeat_length. split; auto. intros i Hi. apply repeat_spec in Hi.
  destruct (exF_even k); lia.
Qed.

(** Three passes over two files of one slice each. *)
Example exF_passes :
  map (fun o => match o with ORes (CReturn b) => sd_files b | _ => None end)
    (fst (run (mkCfg (loader_of exE_C) exF_rng true true) 20 (gets [1; 1; 1; 1; 1; 1])
            (init (mkCfg (loader_of exE_C) exF_rng true true) ["a"; "b"]%string (Seed 0)))) =
  [Some ["b"]; Some ["a"]; Some ["b"]; Some ["a"]; Some ["a"]; Some ["b"]]%string.
Proof. vm_compute. reflexivity. Qed.

Example exF_episodes :
  match ep_construct (exE exE_enum) (exE_cfg false false) exF_rng exE_base 1 2 (Seed 1) with
  | Ok (ec, s) => map (fun ops => s_files (e_base (snd (erun ec 20 ops s)))) [[]; [ENext]; [EGet 1; ENext; EReset]]
  | Err _ => []
  end = [["e/0.mat"; "e/1.mat"]; ["d/0.mat"; "d/1.mat"]; ["e/0.mat"; "e/1.mat"]]%string.
Proof. vm_compute. reflexivity. Qed.
