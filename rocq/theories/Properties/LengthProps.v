(** C120: the length of a scheduler, and loops over it. *)
From Coq Require Import List Arith ZArith QArith String Bool Permutation Lia.
From Verif Require Import Prelude Model.Base Model.Files Model.Loaders Model.Episodic Model.Make Model.Length.
From Verif Require Import Spec.BaseSpec Spec.LoaderSpec Spec.EpisodicSpec.
From Verif Require Import Proofs.BaseFinal Proofs.LoaderProofs Proofs.EpisodicProofs Proofs.EpisodicFinal.
From Verif Require Import Properties.BaseProps Properties.LoaderProps Properties.EpisodicProps.
Import ListNotations.
Local Open Scope nat_scope.

(** Whatever is called, the length is the number of files of the construction. *)
Theorem C120_files : forall a c C fl k fuel ops, disk (c_loader c) C -> (c_randomize c = true -> perm_ok (c_rng c)) ->
  py_len (SFile a c (snd (run c fuel ops (init c fl k)))) = Ok (List.length fl).
Proof.
  intros a c C fl k fuel ops D P. cbn [py_len]. f_equal. destruct (c_randomize c) eqn:R.
  - apply Permutation_length. exact (files_permutation c C fl k fuel ops D (P eq_refl)).
  - rewrite (proj1 (run_frame c fuel ops (init c fl k) R)). unfold init. rewrite R. reflexivity.
Qed.
Print Assumptions C120_files.

Lemma epoch_single : forall C fl, (forall p, In p fl -> List.length (slices_of C p) = 1) -> List.length (epoch C fl) = List.length fl.
Proof.
  intros C fl. unfold epoch. induction fl as [|p fl IH]; intros H; [reflexivity|].
  cbn [flat_map]. rewrite app_length, (H p) by (left; reflexivity). rewrite IH by (intros q Q; apply H; right; exact Q). reflexivity.
Qed.

Lemma collapse_nodup : forall fl, NoDup fl -> collapse fl = fl.
Proof.
  induction fl as [|p fl IH]; intros N; [reflexivity|]. inversion N as [|? ? NI ND]; subst. cbn [collapse].
  destruct fl as [|q l]; [reflexivity|]. destruct (String.eqb_spec p q) as [E|E]; [exfalso; apply NI; left; congruence|].
  rewrite IH by exact ND. reflexivity.
Qed.

(** Files with one flow field each, listed once: the length is the number of
    flow fields of a pass, shuffled or not. *)
Theorem C120_fields : forall a c C fl k fuel, disk (c_loader c) C -> c_loop c = false -> perm_ok (c_rng c) ->
  no_faults C fl -> uniform C fl -> (forall p, In p fl -> List.length (slices_of C p) = 1) -> NoDup fl -> List.length fl < fuel ->
  exists len, py_len (SFile a c (init c fl k)) = Ok len /\
    forall ns, List.length (received (fst (run c fuel (gets ns) (init c fl k)))) = Nat.min (sum ns) len.
Proof.
  intros a c C fl k fuel D L P NF U ONE ND F. exists (List.length fl). split.
  - exact (C120_files a c C fl k 0 [] D (fun _ => P)).
  - destruct (finite_pass c C fl k fuel D L P NF U F) as (fl' & PM & R). intros ns. rewrite R, map_length, firstn_length.
    rewrite collapse_nodup by exact (Permutation_NoDup (Permutation_sym PM) ND).
    rewrite epoch_single by (intros p Q; apply ONE; exact (Permutation_in p PM Q)). rewrite (Permutation_length PM). reflexivity.
Qed.
Print Assumptions C120_fields.

(** Then calls of one size return ceil(len / size) batches. *)
Theorem C120_batches : forall a c C fl k fuel B m, disk (c_loader c) C -> c_loop c = false -> c_randomize c = false ->
  no_adjacent_equal fl -> no_faults C fl -> uniform C fl -> (forall p, In p fl -> List.length (slices_of C p) = 1) -> List.length fl < fuel -> 0 < B ->
  exists len, py_len (SFile a c (init c fl k)) = Ok len /\
    forall j, j < m ->
      let r := nth_error (fst (run c fuel (gets (repeat B m)) (init c fl k))) j in
      (j < (len + B - 1) / B -> exists b, r = Some (ORes (CReturn b))) /\
      ((len + B - 1) / B <= j -> r = Some (ORes (CRaise StopIteration))).
Proof.
  intros a c C fl k fuel B m D L R NA NF U ONE F HB. exists (List.length fl). split.
  { apply (C120_files a c C fl k 0 [] D). intros T. rewrite T in R. discriminate. }
  intros j J r. assert (NJ : nth_error (repeat B m) j = Some B) by (apply nth_error_repeat; exact J).
  destruct (finite_calls c C fl k (repeat B m) fuel D L R NA NF U F j B NJ) as [E1 E2]. fold r in E1, E2.
  assert (SJ : sum (firstn j (repeat B m)) = j * B).
  { clear - J. revert m J. induction j as [|j IH]; intros [|m] J; try lia; [reflexivity|]. cbn [repeat firstn sum fold_right].
    change (fold_right Nat.add 0 (firstn j (repeat B m))) with (sum (firstn j (repeat B m))). rewrite IH by lia. lia. }
  rewrite SJ in E1, E2. set (next := firstn B (skipn (j * B) (epoch C fl))) in *.
  assert (LN : List.length next = Nat.min B (List.length fl - j * B)) by (unfold next; rewrite firstn_length, skipn_length, epoch_single by exact ONE; reflexivity).
  split; intros Q.
  - assert (j * B < List.length fl).
    { assert (S j <= (List.length fl + B - 1) / B) by lia. pose proof (Nat.mul_div_le (List.length fl + B - 1) B). nia. }
    destruct E2 as (b & E & _); [destruct next; [cbn in LN; lia|discriminate]|]. exists b. exact E.
  - apply E1. destruct next; [reflexivity|exfalso].
    pose proof (Nat.mul_succ_div_gt (List.length fl + B - 1) B ltac:(lia)). cbn [List.length] in LN. nia.
Qed.
Print Assumptions C120_batches.

(** HDF5 files hold as many flow fields as their second axis is long. *)
Theorem C120_h5 : forall a d c fl k ns fuel X Y Z Ch, c_loader c = h5_loader d -> c_loop c = false -> c_randomize c = false ->
  no_adjacent_equal fl -> List.length fl < fuel ->
  (forall p, In p fl -> exists x, d p = H5Data x /\ wf_arr x /\ shape x = [X; Y p; Z; Ch]) ->
  py_len (SFile a c (init c fl k)) = Ok (List.length fl) /\
  List.length (received (fst (run c fuel (gets ns) (init c fl k)))) = Nat.min (sum ns) (sum (map Y fl)).
Proof.
  intros a d c fl k ns fuel X Y Z Ch HL L R NA F H. split.
  { apply (C120_files a c (h5_content d) fl k 0 []); [rewrite HL; apply h5_disk|]. intros T. rewrite T in R. discriminate. }
  rewrite (C12_h5_stream d c fl k ns fuel X Z Ch HL L R NA F) by (intros p P; destruct (H p P) as (x & H1 & H2 & H3); exists x, (Y p); auto).
  rewrite map_length, firstn_length. f_equal. clear NA F. induction fl as [|p fl IH]; [reflexivity|].
  cbn [flat_map map sum fold_right]. rewrite app_length, IH by (intros q Q; apply H; right; exact Q).
  destruct (H p (or_introl eq_refl)) as (x & H1 & H2 & H3). rewrite H1. unfold planes. rewrite map_length, seq_length, H3. reflexivity.
Qed.
Print Assumptions C120_h5.

(** So the length is not the number of flow fields. *)
Definition two_planes (p : string) : h5_file := H5Data (mkArr [1; 2; 1; 2] [1; 2; 3; 4]%Q).
Theorem C120_fields_refuted : exists a c fl k len, c_loader c = h5_loader two_planes /\ py_len (SFile a c (init c fl k)) = Ok len /\
  List.length (received (fst (run c 10 (gets [1; 1; 1]) (init c fl k)))) = 2 * len.
Proof.
  exists (mkFattrs H5 false (256, 256)), (mkCfg (h5_loader two_planes) ex_rng false false), ["a.h5"]%string, (Seed 0), 1.
  split; [reflexivity|]. split; reflexivity.
Qed.
Print Assumptions C120_fields_refuted.

(** An episodic scheduler: the length is that of an episode, whatever is called;
    the steps taken and the steps left add up to it.  A prefetcher has no length,
    but passes on the length of the episode. *)
Theorem C120_episode : forall a D c g base B L k ec s0, enum_ok D -> choice_ok g -> ep_construct D c g base B L k = Ok (ec, s0) ->
  forall f0 ops, let s := snd (erun ec f0 ops s0) in
  py_len (SEpisodic a ec s) = Ok L /\ episode_length (SEpisodic a ec s) = Ok L /\
  (0 <= steps_remaining ec s)%Z /\ (steps_remaining ec s + Z.of_nat (taken B L ops) = Z.of_nat L)%Z /\
  (forall B' N, py_len (SPrefetch B' N (SEpisodic a ec s)) = Err TypeError /\ episode_length (SPrefetch B' N (SEpisodic a ec s)) = Ok L).
Proof.
  intros a D c g base B L k ec s0 E G K f0 ops s.
  destruct (counter D c g base B L k ec s0 E G K f0 ops 0 0) as (T & SR & _). fold s in SR.
  destruct (construct_inv D c g base B L k ec s0 E G K) as (_ & _ & _ & EL & _).
  cbn [py_len episode_length]. rewrite EL. repeat split; lia || auto.
Qed.
Print Assumptions C120_episode.

(** The scheduler it drives is longer: a file for every step of every row. *)
Theorem C120_episode_files : forall a D c g base B L k ec s0, enum_ok D -> choice_ok g -> ep_construct D c g base B L k = Ok (ec, s0) ->
  (c_randomize c = true -> perm_ok (c_rng c)) ->
  forall f0 ops, py_len (SFile a c (e_base (snd (erun ec f0 ops s0)))) = Ok (L * B).
Proof.
  intros a D c g base B L k ec s0 E G K P f0 ops.
  destruct (served_windows D c g base B L k ec s0 E G K f0 ops P) as (ws & order & W & _ & (T & _) & PM & _).
  cbn [py_len]. rewrite (Permutation_length PM), T, W. reflexivity.
Qed.
Print Assumptions C120_episode_files.

(** No scheduler can be looped over.  The attempt leaves a file scheduler and a
    prefetcher as they were; it gives an episodic scheduler all its steps back
    although its files stay where they are. *)
Theorem C120_loop : forall sch,
  fst (py_iter_of sch) = Err TypeError /\ py_len (snd (py_iter_of sch)) = py_len sch /\
  match sch with
  | SEpisodic a ec s => exists s', snd (py_iter_of sch) = SEpisodic a ec s' /\
      steps_remaining ec s' = Z.of_nat (ec_L ec) /\ e_base s' = e_base s /\ e_key s' = e_key s /\
      forall f ops, snd (erun ec f (EIter :: ops) s) = snd (erun ec f ops s')
  | _ => snd (py_iter_of sch) = sch
  end.
Proof.
  intros [a c s|a ec s|B N inner]; (split; [reflexivity|split; [reflexivity|]]); try reflexivity.
  exists (ep_iter s). split; [reflexivity|]. split; [unfold steps_remaining, ep_iter; cbn [e_t]; lia|].
  repeat split; try reflexivity. intros f ops. cbn [erun do_eop]. destruct (erun ec f ops (ep_iter s)). reflexivity.
Qed.
Print Assumptions C120_loop.

(** [if scheduler:] fails only for a file scheduler without files. *)
Theorem C120_truth : forall a D c C fl k fuel ops, disk (c_loader c) C -> (c_randomize c = true -> perm_ok (c_rng c)) ->
  (py_bool (SFile a c (snd (run c fuel ops (init c fl k)))) = false <-> fl = []) /\
  (forall g base B L k' ec s0 eops, enum_ok D -> choice_ok g -> ep_construct D c g base B L k' = Ok (ec, s0) ->
     py_bool (SEpisodic a ec (snd (erun ec fuel eops s0))) = true) /\
  forall B N inner, py_bool (SPrefetch B N inner) = true.
Proof.
  intros a D c C fl k fuel ops DK P. split; [|split].
  - unfold py_bool. rewrite (C120_files a c C fl k fuel ops DK P). destruct fl; cbn; split; congruence.
  - intros g base B L k' ec s0 eops E G K. unfold py_bool.
    rewrite (proj1 (C120_episode a D c g base B L k' ec s0 E G K fuel eops)). unfold ep_construct in K.
    destruct (B =? 0); [discriminate|]. destruct (L =? 0); [discriminate|]. reflexivity.
  - reflexivity.
Qed.
Print Assumptions C120_truth.

(** Cases: three files of one flow field each, and an episodic scheduler. *)
Definition exL_C (p : string) : content := Slices [mkSD (mkArr [1; 1; 2] [1%Q; 2%Q]) None None None (Some [p])].
Definition exL_cfg : cfg := mkCfg (loader_of exL_C) ex_rng false false.
Example exL_one : forall p, In p ["a"; "b"; "c"]%string -> List.length (slices_of exL_C p) = 1.
Proof. reflexivity. Qed.
Example exL_batches : map (fun o => match o with ORes (CReturn _) => true | _ => false end)
  (fst (run exL_cfg 10 (gets [2; 2; 2]) (init exL_cfg ["a"; "b"; "c"]%string (Seed 0)))) = [true; true; false].
Proof. reflexivity. Qed.
Example exL_episode :
  match ep_construct (exE exE_enum) (exE_cfg false false) exE_rng2 exE_base 2 2 (Seed 1) with
  | Ok (ec, s) =>
      let a := mkFattrs H5 false (256, 256) in
      let s' := snd (erun ec 20 [EGet 2] s) in
      let s'' := match snd (py_iter_of (SEpisodic a ec s')) with SEpisodic _ _ t => t | _ => s' end in
      (py_len (SEpisodic a ec s'), py_len (SFile a (ec_base ec) (e_base s')), steps_remaining ec s', steps_remaining ec s'')
      = (Ok 2, Ok 4, 1%Z, 2%Z)
  | Err _ => False
  end.
Proof. vm_compute. reflexivity. Qed.
