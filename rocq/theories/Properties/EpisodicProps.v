(** Properties C16-C20, C72, C73: the episodic scheduler. *)
From Coq Require Import List Arith ZArith Lia String Bool QArith Permutation.
From Verif Require Import Prelude Model.Base Model.Files Model.Episodic.
From Verif Require Import Spec.BaseSpec Spec.EpisodicSpec.
From Verif Require Import Proofs.BaseFinal Proofs.EpisodicProofs Proofs.EpisodicFinal.
Import ListNotations.
Local Open Scope nat_scope.

(** ** C16 *)

(** Construction succeeds exactly if there is a leaf directory and every one
    is long enough; the only other outcome is ValueError. *)
Theorem C16_construction : forall D c g base B L k, enum_ok D -> 0 < B -> 0 < L ->
  ((exists ec s, ep_construct D c g base B L k = Ok (ec, s)) <->
   (exists d, leaf D (s_files base) d) /\
   forall d, leaf D (s_files base) d -> L <= List.length (dir_files D d)) /\
  ((~ exists ec s, ep_construct D c g base B L k = Ok (ec, s)) ->
   ep_construct D c g base B L k = Err ValueError).
Proof. exact construct_fails. Qed.
Print Assumptions C16_construction.

(** The start positions drawn from are the windows, each listed once. *)
Theorem C16_starts : forall D c g base B L k ec s0,
  enum_ok D -> choice_ok g -> ep_construct D c g base B L k = Ok (ec, s0) ->
  (forall w, In w (ec_starts ec) <-> window D (s_files base) L w) /\ NoDup (ec_starts ec).
Proof.
  intros D c g base B L k ec s0 HE HC HM.
  destruct (construct_inv _ _ _ _ _ _ _ _ _ HE HC HM) as [HO [_ [_ [HL _]]]].
  split; [rewrite <- HL; apply HO|apply HO].
Qed.
Print Assumptions C16_starts.

(** At any time the wrapped scheduler's list consists of [B] windows. *)
Theorem C16_served_windows : forall D c g base B L k ec s0,
  enum_ok D -> choice_ok g -> ep_construct D c g base B L k = Ok (ec, s0) ->
  forall f0 ops, (c_randomize c = true -> perm_ok (c_rng c)) ->
  exists ws order, List.length ws = B /\ (forall w, In w ws -> window D (s_files base) L w) /\
    time_major (dir_files D) L ws order /\
    Permutation (s_files (e_base (snd (erun ec f0 ops s0)))) order /\
    (c_randomize c = false -> s_files (e_base (snd (erun ec f0 ops s0))) = order).
Proof. exact served_windows. Qed.
Print Assumptions C16_served_windows.

(** Every combination of windows, repetitions included, can be drawn. *)
Theorem C16_every_window_possible : forall D c base B L k ws,
  enum_ok D -> 0 < B -> 0 < L -> c_randomize c = false ->
  (forall d, leaf D (s_files base) d -> L <= List.length (dir_files D d)) ->
  List.length ws = B -> (forall w, In w ws -> window D (s_files base) L w) ->
  exists g ec s, choice_ok g /\ ep_construct D c g base B L k = Ok (ec, s) /\
    time_major (dir_files D) L ws (s_files (e_base s)).
Proof. exact every_window. Qed.
Print Assumptions C16_every_window_possible.

(** ** C17 *)
Theorem C17_step_counter : forall D c g base B L k ec s0,
  enum_ok D -> choice_ok g -> ep_construct D c g base B L k = Ok (ec, s0) ->
  forall f0 ops fuel n,
  let s := snd (erun ec f0 ops s0) in
  let t := taken B L ops in
  t <= L /\ steps_remaining ec s = (Z.of_nat L - Z.of_nat t)%Z /\
  (n <> B -> ep_get ec fuel n s = (CRaise ValueError, s)) /\
  (t = L -> ep_get ec fuel B s = (CRaise EpisodeEnd, s)) /\
  (t < L ->
     fst (ep_get ec fuel B s) = fst (get_batch c fuel B (e_base s)) /\
     e_base (snd (ep_get ec fuel B s)) = snd (get_batch c fuel B (e_base s))).
Proof. exact counter. Qed.
Print Assumptions C17_step_counter.

(** From the start of an episode: [L] forwarded calls, then only EpisodeEnd. *)
Theorem C17_episode_length : forall D c g base B L k ec s0,
  enum_ok D -> choice_ok g -> ep_construct D c g base B L k = Ok (ec, s0) ->
  forall s1 fuel m, episode_start ec s0 s1 ->
  let rs := fst (erun ec fuel (repeat (EGet B) m) s1) in
  let bs := fst (run c fuel (gets (repeat B m)) (e_base s1)) in
  forall j, j < m ->
    (j < L -> nth_error rs j = nth_error bs j) /\
    (L <= j -> nth_error rs j = Some (ORes (CRaise EpisodeEnd))).
Proof. exact episode_block. Qed.
Print Assumptions C17_episode_length.

(** ** C18 *)

(** If the drawn windows are spread, batch [t] is step [t] of every window;
    without looping this condition is also necessary. *)
Theorem C18_time_aligned : forall D c g base B L k ec s0,
  enum_ok D -> choice_ok g -> ep_construct D c g base B L k = Ok (ec, s0) ->
  forall s1 C fuel m,
  disk (c_loader c) C -> c_randomize c = false ->
  single_slices C D (s_files base) -> distinct_files D (s_files base) ->
  4 * (L * B) < fuel -> episode_start ec s0 s1 -> L <= m ->
  exists ws, List.length ws = B /\ (forall w, In w ws -> window D (s_files base) L w) /\
    time_major (dir_files D) L ws (s_files (e_base s1)) /\
    let r t := nth_error (fst (erun ec fuel (repeat (EGet B) m) s1)) t in
    (spread L ws -> forall t, t < L -> step_of C (dir_files D) ws t (r t)) /\
    (c_loop c = false -> (forall t, t < L -> step_of C (dir_files D) ws t (r t)) -> spread L ws).
Proof. exact aligned. Qed.
Print Assumptions C18_time_aligned.

(** ** C19 *)
Theorem C19_same_files : forall D c g base B L k ec s0,
  enum_ok D -> choice_ok g -> ep_construct D c g base B L k = Ok (ec, s0) ->
  forall f0 ops, c_randomize c = true -> perm_ok (c_rng c) ->
  exists ws order, List.length ws = B /\ (forall w, In w ws -> window D (s_files base) L w) /\
    time_major (dir_files D) L ws order /\
    Permutation (s_files (e_base (snd (erun ec f0 ops s0)))) order.
Proof.
  intros D c g base B L k ec s0 HE HC HM f0 ops _ HP.
  destruct (served_windows D c g base B L k ec s0 HE HC HM f0 ops (fun _ => HP))
    as [ws [order [H1 [H2 [H3 [H4 _]]]]]]. exists ws, order. auto.
Qed.
Print Assumptions C19_same_files.

(** ** C20 *)
Theorem C20_single_directory : forall key e1 e2 scan glob c g base B L k d,
  let D1 := mkDirs key e1 scan glob in
  let D2 := mkDirs key e2 scan glob in
  enum_ok D1 -> enum_ok D2 ->
  (forall x, leaf D1 (s_files base) x <-> x = d) ->
  ep_construct D1 c g base B L k = ep_construct D2 c g base B L k.
Proof. exact single_leaf_order. Qed.
Print Assumptions C20_single_directory.

(** Whatever the order, the same windows are available. *)
Theorem C20_same_windows : forall key e1 e2 scan glob c g base B L k ec1 s1 ec2 s2,
  let D1 := mkDirs key e1 scan glob in
  let D2 := mkDirs key e2 scan glob in
  enum_ok D1 -> enum_ok D2 -> choice_ok g ->
  ep_construct D1 c g base B L k = Ok (ec1, s1) ->
  ep_construct D2 c g base B L k = Ok (ec2, s2) ->
  Permutation (ec_starts ec1) (ec_starts ec2).
Proof. exact same_windows. Qed.
Print Assumptions C20_same_windows.

(** ** C72 *)
Theorem C72_iter_rewinds_counter_only : forall D c g base B L k ec s0,
  enum_ok D -> choice_ok g -> ep_construct D c g base B L k = Ok (ec, s0) ->
  forall s1 C fuel t0 m,
  disk (c_loader c) C -> c_randomize c = false -> c_loop c = false ->
  single_slices C D (s_files base) -> distinct_files D (s_files base) ->
  2 * (L * B) < fuel -> episode_start ec s0 s1 -> t0 <= L ->
  exists ws, List.length ws = B /\ (forall w, In w ws -> window D (s_files base) L w) /\
    time_major (dir_files D) L ws (s_files (e_base s1)) /\
    (spread L ws ->
     let s2 := snd (erun ec fuel (repeat (EGet B) t0 ++ [EIter]) s1) in
     steps_remaining ec s2 = Z.of_nat L /\
     let r j := nth_error (fst (erun ec fuel (repeat (EGet B) m) s2)) j in
     forall j, j < m ->
       (t0 + j < L -> step_of C (dir_files D) ws (t0 + j) (r j)) /\
       (L <= t0 + j -> j < L -> r j = Some (ORes (CRaise StopIteration))) /\
       (L <= j -> r j = Some (ORes (CRaise EpisodeEnd)))).
Proof. exact iter_continues. Qed.
Print Assumptions C72_iter_rewinds_counter_only.

(** ** C73 *)
Theorem C73_served_from_listed_directories : forall D c g base B L k ec s0,
  enum_ok D -> choice_ok g -> ep_construct D c g base B L k = Ok (ec, s0) ->
  forall f0 ops p, (c_randomize c = true -> perm_ok (c_rng c)) ->
  In p (s_files (e_base (snd (erun ec f0 ops s0)))) ->
  exists q d, In q (s_files base) /\ d_key D q = d /\ d_scan D d = ScanLeaf /\ In p (d_glob D d).
Proof. exact files_from_leaves. Qed.
Print Assumptions C73_served_from_listed_directories.

(** ** Witnesses *)

(** Two directories [d] (three files) and [e] (two files), one slice per file. *)
Definition exE_glob (d : string) : list string :=
  if String.eqb d "d" then ["d/2.mat"; "d/0.mat"; "d/1.mat"]%string
  else if String.eqb d "e" then ["e/1.mat"; "e/0.mat"]%string else [].
Definition exE (enum : list string -> list string) : dirs :=
  mkDirs dirname enum (fun _ => ScanLeaf) exE_glob.
Definition exE_C (p : string) : content :=
  Slices [mkSD (mkArr [1; 1; 2] [1%Q; 2%Q]) None None None (Some [p])].
(** [perm] reverses; [choice] always draws start 0. *)
Definition exE_rng : rng := mkRng (fun _ n => rev (seq 0 n)) (fun _ _ m => repeat 0 m).
(** [choice] draws 0, 2, 4, ... while possible. *)
Definition exE_rng2 : rng :=
  mkRng (fun _ n => rev (seq 0 n)) (fun _ n m => map (fun i => if 2 * i <? n then 2 * i else 0) (seq 0 m)).
Definition exE_cfg (rand loop : bool) : cfg := mkCfg (loader_of exE_C) exE_rng rand loop.
Definition exE_enum : list string -> list string := nodup string_dec.
Definition exE_enum2 (l : list string) : list string := rev (nodup string_dec l).
Definition exE_base : st :=
  mkSt ["d/0.mat"; "e/1.mat"]%string 0 None None 0 (Seed 0).
Definition exE_base1 : st := mkSt ["d/0.mat"]%string 0 None None 0 (Seed 0).

Example exE_enum_ok : enum_ok (exE exE_enum).
Proof. intro l. split; [apply NoDup_nodup|]. intro x. apply nodup_In. Qed.

Example exE_enum2_ok : enum_ok (exE exE_enum2).
Proof.
  intro l. split; [apply NoDup_rev, NoDup_nodup|]. intro x. cbn [exE d_enum]. unfold exE_enum2.
  rewrite <- in_rev. apply nodup_In.
Qed.

Example exE_choice : choice_ok exE_rng.
Proof.
  intros k n m H. simpl. rewrite repeat_length. split; auto. intros i Hi. apply repeat_spec in Hi. lia.
Qed.

Example exE_choice2 : choice_ok exE_rng2.
Proof.
  intros k n m H. cbn [exE_rng2 rchoice]. rewrite map_length, seq_length. split; auto.
  intros i Hi. apply in_map_iff in Hi. destruct Hi as [j [<- _]].
  destruct (2 * j <? n) eqn:E; [apply Nat.ltb_lt in E; auto|auto].
Qed.

Example exE_leaf : forall enum d, leaf (exE enum) (s_files exE_base) d ->
  d = "d"%string \/ d = "e"%string.
Proof. intros enum d [[p [[<-|[<-|[]]] <-]] _]; auto. Qed.

Example exE_single : single_slices exE_C (exE exE_enum) (s_files exE_base).
Proof.
  exists [1; 1; 2], [0; 0], [0; 0]. intros d p _ _. eexists. split; [reflexivity|].
  constructor; cbn; try discriminate; [split; reflexivity|eauto].
Qed.

Example exE_distinct : distinct_files (exE exE_enum) (s_files exE_base).
Proof.
  intros d d' i j p Hd Hd' H1 H2.
  apply exE_leaf in Hd, Hd'. destruct Hd as [->| ->]; destruct Hd' as [->| ->];
  destruct i as [|[|[|i]]]; destruct j as [|[|[|j]]]; simpl in *; auto; try congruence;
    try (destruct i; discriminate); try (destruct j; discriminate).
Qed.

(** With draws (d,0) and (e,0) the two batches of an episode of two steps. *)
Example exE_spread_episode :
  match ep_construct (exE exE_enum) (exE_cfg false false) exE_rng2 exE_base 2 2 (Seed 1) with
  | Ok (ec, s) =>
      map (fun o => match o with ORes (CReturn b) => sd_files b | _ => None end)
          (fst (erun ec 20 [EGet 2; EGet 2] s))
  | Err _ => []
  end = [Some ["d/0.mat"; "e/0.mat"]%string; Some ["d/1.mat"; "e/1.mat"]%string].
Proof. reflexivity. Qed.

Example exE_spread : spread 2 [("d", 0); ("e", 0)]%string.
Proof.
  split.
  - intros [|[|e]] w H1 H2; simpl in *; try congruence; destruct e; discriminate.
  - intros _ d s H. simpl in *. congruence.
Qed.

(** Equal draws: the first batch holds two different time steps of the same
    sequence, all rows valid, no error. *)
Theorem C18_time_aligned_refuted : exists D c g base B L k ec s0 C fuel ws b,
  enum_ok D /\ choice_ok g /\ ep_construct D c g base B L k = Ok (ec, s0) /\
  disk (c_loader c) C /\ c_randomize c = false /\ c_loop c = false /\
  single_slices C D (s_files base) /\ distinct_files D (s_files base) /\
  4 * (L * B) < fuel /\ List.length ws = B /\
  time_major (dir_files D) L ws (s_files (e_base s0)) /\
  fst (ep_get ec fuel B s0) = CReturn b /\ sd_mask b = Some (repeat true B) /\
  ws = [("d", 0); ("d", 0)]%string /\ sd_files b = Some ["d/0.mat"; "d/1.mat"]%string.
Proof.
  exists (exE exE_enum), (exE_cfg false false), exE_rng, exE_base, 2, 2, (Seed 1).
  eexists _, _, exE_C, 20, [("d", 0); ("d", 0)]%string, _.
  split; [apply exE_enum_ok|]. split; [apply exE_choice|]. split; [reflexivity|].
  split; [apply loader_of_disk|]. split; [reflexivity|]. split; [reflexivity|].
  split; [apply exE_single|]. split; [apply exE_distinct|]. split; [simpl; lia|]. split; [reflexivity|].
  split. { split; [reflexivity|]. intros [|[|t]] [|[|e]] d s Ht He; simpl in *; try lia; inversion He; subst;
           try reflexivity; destruct e; discriminate. }
  split; [reflexivity|]. repeat split; reflexivity.
Qed.
Print Assumptions C18_time_aligned_refuted.

(** A shifted pair: the second batch is short and padded. *)
Theorem C18_shifted_windows_refuted : exists D c g base B L k ec s0 C fuel,
  enum_ok D /\ choice_ok g /\ ep_construct D c g base B L k = Ok (ec, s0) /\
  disk (c_loader c) C /\ c_randomize c = false /\ c_loop c = false /\
  single_slices C D (s_files base) /\ distinct_files D (s_files base) /\
  s_files (e_base s0) = ["d/0.mat"; "d/1.mat"; "d/1.mat"; "d/2.mat"]%string /\
  exists b1 b2, fst (erun ec fuel [EGet B; EGet B] s0) = [ORes (CReturn b1); ORes (CReturn b2)] /\
    sd_files b1 = Some ["d/0.mat"; "d/1.mat"]%string /\ sd_mask b1 = Some [true; true] /\
    sd_files b2 = Some ["d/2.mat"; ""]%string /\ sd_mask b2 = Some [true; false].
Proof.
  exists (exE exE_enum), (exE_cfg false false),
    (mkRng (fun _ n => seq 0 n) (fun _ n m => map (fun i => i mod n) (seq 0 m))),
    exE_base, 2, 2, (Seed 1).
  eexists _, _, exE_C, 20.
  split; [apply exE_enum_ok|]. split.
  { intros k n m H. cbn [rchoice]. rewrite map_length, seq_length. split; auto.
    intros i Hi. apply in_map_iff in Hi. destruct Hi as [j [<- _]]. apply Nat.mod_upper_bound. lia. }
  split; [reflexivity|].
  split; [apply loader_of_disk|]. split; [reflexivity|]. split; [reflexivity|].
  split; [apply exE_single|]. split; [apply exE_distinct|]. split; [vm_compute; reflexivity|].
  eexists _, _. split; [vm_compute; reflexivity|]. repeat split; reflexivity.
Qed.
Print Assumptions C18_shifted_windows_refuted.

(** A randomizing scheduler: spread windows, yet the first batch holds step 1
    of one window and step 1 of the other in reverse. *)
Theorem C19_time_order_refuted : exists D c g base B L k ec s0 ws C fuel b,
  enum_ok D /\ choice_ok g /\ perm_ok (c_rng c) /\ ep_construct D c g base B L k = Ok (ec, s0) /\
  disk (c_loader c) C /\ c_randomize c = true /\
  single_slices C D (s_files base) /\ distinct_files D (s_files base) /\
  ws = [("d", 0); ("e", 0)]%string /\ spread L ws /\
  Permutation (s_files (e_base s0)) ["d/0.mat"; "e/0.mat"; "d/1.mat"; "e/1.mat"]%string /\
  fst (ep_get ec fuel B s0) = CReturn b /\
  sd_files b = Some ["e/1.mat"; "d/1.mat"]%string.
Proof.
  exists (exE exE_enum), (exE_cfg true false), exE_rng2, exE_base, 2, 2, (Seed 1).
  eexists _, _, _, exE_C, 20, _.
  split; [apply exE_enum_ok|]. split; [apply exE_choice2|]. split.
  { intros k n. simpl. symmetry. apply Permutation_rev. }
  split; [reflexivity|].
  split; [apply loader_of_disk|]. split; [reflexivity|].
  split; [apply exE_single|]. split; [apply exE_distinct|]. split; [reflexivity|].
  split; [apply exE_spread|]. split; [|split; reflexivity].
  cbn. symmetry. apply (Permutation_rev ["d/0.mat"; "e/0.mat"; "d/1.mat"; "e/1.mat"]%string).
Qed.
Print Assumptions C19_time_order_refuted.

(** Same seed, same draw, two enumeration orders, different episodes. *)
Theorem C20_seed_determines_episode_refuted : exists key e1 e2 scan glob c g base B L k ec1 s1 ec2 s2,
  enum_ok (mkDirs key e1 scan glob) /\ enum_ok (mkDirs key e2 scan glob) /\ choice_ok g /\
  ep_construct (mkDirs key e1 scan glob) c g base B L k = Ok (ec1, s1) /\
  ep_construct (mkDirs key e2 scan glob) c g base B L k = Ok (ec2, s2) /\
  ~ (exists p, In p (s_files (e_base s1)) /\ In p (s_files (e_base s2))).
Proof.
  exists dirname, exE_enum, exE_enum2, (fun _ => ScanLeaf), exE_glob, (exE_cfg false false), exE_rng,
    exE_base, 1, 2, (Seed 1).
  eexists _, _, _, _.
  split; [apply exE_enum_ok|]. split; [apply exE_enum2_ok|]. split; [apply exE_choice|].
  split; [reflexivity|]. split; [reflexivity|].
  intros [p [H1 H2]]. cbn in H1, H2. destruct H1 as [<-|[<-|[]]]; destruct H2 as [H|[H|[]]]; discriminate.
Qed.
Print Assumptions C20_seed_determines_episode_refuted.

(** The wrapped scheduler was given one file; the episode serves another one. *)
Theorem C73_only_listed_files_refuted : exists D c g base B L k ec s0 p,
  enum_ok D /\ choice_ok g /\ ep_construct D c g base B L k = Ok (ec, s0) /\
  In p (s_files (e_base s0)) /\ ~ In p (s_files base).
Proof.
  exists (exE exE_enum), (exE_cfg false false), exE_rng, exE_base1, 1, 2, (Seed 1).
  eexists _, _, "d/1.mat"%string.
  split; [apply exE_enum_ok|]. split; [apply exE_choice|]. split; [reflexivity|].
  split; [cbn; auto|]. cbn. intros [H|[]]; discriminate.
Qed.
Print Assumptions C73_only_listed_files_refuted.

(** [iter()] in the middle of the episode of two steps: one step left, then
    StopIteration although [steps_remaining] was reset to two. *)
Example exE_iter :
  match ep_construct (exE exE_enum) (exE_cfg false false) exE_rng2 exE_base 2 2 (Seed 1) with
  | Ok (ec, s) =>
      map (fun o => match o with ORes (CReturn b) => inl (sd_files b)
                               | ORes (CRaise e) => inr (Some e) | _ => inr None end)
          (fst (erun ec 20 [EGet 2; EIter; EGet 2; EGet 2; EGet 2] s))
  | Err _ => []
  end = [inl (Some ["d/0.mat"; "e/0.mat"]%string); inr None; inl (Some ["d/1.mat"; "e/1.mat"]%string);
         inr (Some StopIteration); inr (Some EpisodeEnd)].
Proof. reflexivity. Qed.
