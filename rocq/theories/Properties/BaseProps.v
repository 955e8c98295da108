(** Properties C01-C11: the file scheduler. *)
From Coq Require Import List Arith Lia String Bool QArith Permutation.
From Verif Require Import Prelude Model.Base Spec.BaseSpec.
From Verif Require Import Proofs.BaseProofs Proofs.BaseBatch Proofs.BaseRun Proofs.BaseLoop
  Proofs.BaseFinal.
Import ListNotations.
Local Open Scope nat_scope.

(** ** C01 *)

(** Call number [j] of a sequence of [get_batch] calls returns exactly the
    next [n] slices of the epoch (fewer if fewer are left), or raises
    StopIteration if none is left. *)
Theorem C01_finite_calls : forall c C fl k ns fuel,
  disk (c_loader c) C -> c_loop c = false -> c_randomize c = false ->
  no_adjacent_equal fl -> no_faults C fl -> uniform C fl ->
  List.length fl < fuel ->
  forall j n, nth_error ns j = Some n ->
    let next := firstn n (skipn (sum (firstn j ns)) (epoch C fl)) in
    let r := nth_error (fst (run c fuel (gets ns) (init c fl k))) j in
    (next = [] -> r = Some (ORes (CRaise StopIteration))) /\
    (next <> [] -> exists b, r = Some (ORes (CReturn b)) /\ batch_of n next b).
Proof. exact finite_calls. Qed.
Print Assumptions C01_finite_calls.

(** The rows received are exactly the epoch, in order, each once. *)
Theorem C01_finite_rows : forall c C fl k ns fuel,
  disk (c_loader c) C -> c_loop c = false -> c_randomize c = false ->
  no_adjacent_equal fl -> no_faults C fl -> uniform C fl ->
  List.length fl < fuel ->
  received (fst (run c fuel (gets ns) (init c fl k))) =
  map slice_row (firstn (sum ns) (epoch C fl)).
Proof. exact finite_rows. Qed.
Print Assumptions C01_finite_rows.

(** ** C02 *)
Theorem C02_exhaustion_permanent : forall c fl k f0 ops fuel n s s1 f1 ns,
  c_loop c = false -> slice_never_stops (c_loader c) -> 0 < n ->
  s = snd (run c f0 ops (init c fl k)) ->
  get_batch c fuel n s = (CRaise StopIteration, s1) ->
  fst (run c (S f1) (gets ns) s1) = map (fun _ => ORes (CRaise StopIteration)) ns.
Proof. exact exhaustion_permanent. Qed.
Print Assumptions C02_exhaustion_permanent.

(** ** C03 *)
Theorem C03_mask_and_padding : forall c C fl k f0 ops fuel n b s',
  disk (c_loader c) C -> slice_never_stops (c_loader c) ->
  (c_randomize c = true -> perm_ok (c_rng c)) -> same_shapes C fl -> 0 < n ->
  get_batch c fuel n (snd (run c f0 ops (init c fl k))) = (CReturn b, s') ->
  exists l, batch_of n l b /\ l <> [] /\
    (forall x, In x l -> In x (epoch C fl)) /\
    (c_loop c = true -> sd_mask b = Some (repeat true n)).
Proof. exact mask_and_padding. Qed.
Print Assumptions C03_mask_and_padding.

(** ** C04 *)
Theorem C04_rows_belong_together : forall c C fl k f0 ops fuel n b s',
  disk (c_loader c) C -> slice_never_stops (c_loader c) ->
  (c_randomize c = true -> perm_ok (c_rng c)) -> same_shapes C fl -> 0 < n ->
  get_batch c fuel n (snd (run c f0 ops (init c fl k))) = (CReturn b, s') ->
  exists m fs,
    sd_mask b = Some m /\ sd_files b = Some fs /\
    forall i, nth_error m i = Some true ->
      exists p x f, In p fl /\ In x (slices_of C p) /\ sd_files x = Some [f] /\
        row i (sd_flow b) = sd_flow x /\ nth_error fs i = Some f /\
        (forall a, sd_im1 b = Some a -> sd_im1 x = Some (row i a)) /\
        (forall a, sd_im2 b = Some a -> sd_im2 x = Some (row i a)).
Proof. exact rows_belong_together. Qed.
Print Assumptions C04_rows_belong_together.

(** ** C05 *)
Theorem C05_loop_periodic : forall c C fl k ns fuel,
  disk (c_loader c) C -> c_loop c = true -> c_randomize c = false ->
  no_adjacent_equal fl -> no_faults C fl -> same_shapes C fl -> epoch C fl <> [] ->
  2 * List.length fl < fuel -> (forall n, In n ns -> 0 < n) ->
  forall j n, nth_error ns j = Some n ->
    exists b l,
      nth_error (fst (run c fuel (gets ns) (init c fl k))) j = Some (ORes (CReturn b)) /\
      batch_of n l b /\ List.length l = n /\
      forall i, i < n ->
        nth_error l i =
        nth_error (epoch C fl) ((sum (firstn j ns) + i) mod List.length (epoch C fl)).
Proof. exact loop_periodic. Qed.
Print Assumptions C05_loop_periodic.

(** ** C06 *)
Theorem C06_permutation : forall c C fl k fuel ops,
  disk (c_loader c) C -> perm_ok (c_rng c) ->
  Permutation (s_files (snd (run c fuel ops (init c fl k)))) fl.
Proof. exact files_permutation. Qed.
Print Assumptions C06_permutation.

(** One pass, not looping. *)
Theorem C06_finite_pass : forall c C fl k fuel,
  disk (c_loader c) C -> c_loop c = false -> perm_ok (c_rng c) ->
  no_faults C fl -> uniform C fl -> List.length fl < fuel ->
  exists fl', Permutation fl' fl /\
    forall ns, received (fst (run c fuel (gets ns) (init c fl k))) =
               map slice_row (firstn (sum ns) (epoch C (collapse fl'))).
Proof. exact finite_pass. Qed.
Print Assumptions C06_finite_pass.

(** Passes of a looping scheduler: the stream delivered is the concatenation
    of the epochs of permutations of the list. *)
Theorem C06_loop_passes : forall c C fl k fuel,
  disk (c_loader c) C -> c_loop c = true -> perm_ok (c_rng c) ->
  no_faults C fl -> same_shapes C fl -> epoch C fl <> [] ->
  2 * List.length fl < fuel ->
  exists P : nat -> list string,
    (forall j, Permutation (P j) fl) /\
    forall ns K, (forall n, In n ns -> 0 < n) -> sum ns <= K ->
      received (fst (run c fuel (gets ns) (init c fl k))) =
      map slice_row
        (firstn (sum ns) (flat_map (fun j => epoch C (collapse (P j))) (seq 0 K))).
Proof. exact loop_passes. Qed.
Print Assumptions C06_loop_passes.

(** ** C07 *)
Theorem C07_reset_restarts : forall c fl k fuel ops1 ops2,
  c_randomize c = false ->
  fst (run c fuel ops2 (reset c (snd (run c fuel ops1 (init c fl k))))) =
  fst (run c fuel ops2 (init c fl k)).
Proof. exact reset_restarts. Qed.
Print Assumptions C07_reset_restarts.

(** ** C08 *)
Theorem C08_unreadable_skipped : forall c C l1 bad l2 k fuel ops,
  disk (c_loader c) C -> c_randomize c = false -> C bad = Unreadable ->
  no_adjacent_equal (l1 ++ l2) -> l1 ++ l2 <> [] ->
  4 * List.length (l1 ++ bad :: l2) < fuel ->
  fst (run c fuel ops (init c (l1 ++ bad :: l2) k)) =
  fst (run c fuel ops (init c (l1 ++ l2) k)).
Proof. exact unreadable_skipped. Qed.
Print Assumptions C08_unreadable_skipped.

(** ** C09 *)
Theorem C09_loop_live : forall c C fl k f0 ops fuel n,
  disk (c_loader c) C -> c_loop c = true ->
  (c_randomize c = true -> perm_ok (c_rng c)) ->
  no_faults C fl -> same_shapes C fl -> epoch C fl <> [] -> 0 < n ->
  2 * List.length fl < fuel ->
  exists b s', get_batch c fuel n (snd (run c f0 ops (init c fl k))) = (CReturn b, s').
Proof. exact loop_live. Qed.
Print Assumptions C09_loop_live.

Theorem C09_loop_diverges : forall c C fl k f0 ops n,
  disk (c_loader c) C -> c_loop c = true ->
  (c_randomize c = true -> perm_ok (c_rng c)) ->
  fl <> [] -> no_faults C fl -> epoch C fl = [] -> 0 < n ->
  forall fuel,
    fst (get_batch c fuel n (snd (run c f0 ops (init c fl k)))) = COutOfFuel.
Proof. exact loop_diverges. Qed.
Print Assumptions C09_loop_diverges.

(** ** C10 *)
Theorem C10_duplicates_collapse : forall c C fl k fuel ops,
  disk (c_loader c) C -> c_randomize c = false -> fl <> [] ->
  4 * List.length fl < fuel ->
  fst (run c fuel ops (init c fl k)) = fst (run c fuel ops (init c (collapse fl) k)).
Proof. exact duplicates_collapse. Qed.
Print Assumptions C10_duplicates_collapse.

(** The claim that every list entry is served is false. *)
Theorem C10_every_entry_served_refuted : exists c C fl k ns fuel,
  disk (c_loader c) C /\ c_loop c = false /\ c_randomize c = false /\
  no_faults C fl /\ uniform C fl /\ List.length fl < fuel /\
  sum ns = List.length (epoch C fl) /\
  received (fst (run c fuel (gets ns) (init c fl k))) <> map slice_row (epoch C fl).
Proof. exact every_entry_served_refuted. Qed.
Print Assumptions C10_every_entry_served_refuted.

(** ** C11 *)
Theorem C11_extraction_error_blocks : forall c C l1 p l2 l e k ns fuel,
  disk (c_loader c) C -> c_loop c = false -> c_randomize c = false ->
  C p = Faulty l e -> e <> StopIteration -> no_faults C l1 ->
  no_adjacent_equal (l1 ++ p :: l2) -> uniform C (l1 ++ p :: l2) ->
  List.length (l1 ++ p :: l2) < fuel -> (forall n, In n ns -> 0 < n) ->
  let good := epoch C l1 ++ l in
  forall j n, nth_error ns j = Some n ->
    let off := sum (firstn j ns) in
    let r := nth_error (fst (run c fuel (gets ns) (init c (l1 ++ p :: l2) k))) j in
    (off + n <= List.length good ->
       exists b, r = Some (ORes (CReturn b)) /\ batch_of n (firstn n (skipn off good)) b) /\
    (List.length good < off + n -> r = Some (ORes (CRaise e))).
Proof. exact extraction_error_blocks. Qed.
Print Assumptions C11_extraction_error_blocks.

(** ** The hypotheses are satisfiable *)

Definition ex_slice (v : Q) (f : string) : SchedData :=
  mkSD (mkArr [1; 1; 2] [v; v]) None None None (Some [f]).

Definition ex_C (p : string) : content :=
  if String.eqb p "a" then Slices [ex_slice 1 "a"; ex_slice 2 "a"]
  else if String.eqb p "c" then Slices [ex_slice 3 "c"]
  else if String.eqb p "f" then Faulty [ex_slice 4 "f"] IndexError
  else Unreadable.

Definition ex_rng : rng := mkRng (fun _ n => rev (seq 0 n)) (fun _ _ m => repeat 0 m).
Definition ex_cfg (rand loop : bool) : cfg := mkCfg (loader_of ex_C) ex_rng rand loop.
Definition ex_fl : list string := ["a"; "b"; "c"]%string.

Example ex_disk : disk (loader_of ex_C) ex_C.
Proof. apply loader_of_disk. Qed.

Example ex_perm : perm_ok ex_rng.
Proof. intros k n. simpl. symmetry. apply Permutation_rev. Qed.

Example ex_stops : slice_never_stops (loader_of ex_C).
Proof.
  intros d [p|] i; simpl; [|discriminate]. unfold ex_C.
  destruct (String.eqb p "a"); [destruct i as [|[|[|i]]]; discriminate|].
  destruct (String.eqb p "c"); [destruct i as [|[|i]]; discriminate|].
  destruct (String.eqb p "f"); [destruct i as [|[|i]]; discriminate|]. discriminate.
Qed.

Example ex_no_adjacent : no_adjacent_equal ex_fl.
Proof.
  intros [|[|[|i]]] p q Hp Hq; simpl in *; try congruence; try (destruct i; discriminate).
Qed.

Example ex_no_faults : no_faults ex_C ex_fl.
Proof.
  intros p l e Hp. simpl in Hp. destruct Hp as [<-|[<-|[<-|[]]]]; discriminate.
Qed.

Example ex_uniform : uniform ex_C ex_fl.
Proof.
  exists [1; 1; 2], [1; 1], [1; 1]. repeat split; auto; simpl in H;
    destruct H as [<-|[<-|[<-|[]]]]; simpl; auto; try discriminate; eexists; reflexivity.
Qed.

(** Three slices requested two at a time: a full batch, a padded one, then
    StopIteration twice. *)
Example ex_run :
  received (fst (run (ex_cfg false false) 10 (gets [2; 2; 1; 5]) (init (ex_cfg false false) ex_fl (Seed 0))))
  = map slice_row [ex_slice 1 "a"; ex_slice 2 "a"; ex_slice 3 "c"].
Proof. reflexivity. Qed.

(** Looping wraps around; the batch of five spans almost two epochs. *)
Example ex_loop :
  map snd (received (fst (run (ex_cfg false true) 10 (gets [5]) (init (ex_cfg false true) ex_fl (Seed 0)))))
  = ["a"; "a"; "c"; "a"; "a"]%string.
Proof. reflexivity. Qed.

(** Shuffled (here: reversed at every pass). *)
Example ex_shuffled :
  map snd (received (fst (run (ex_cfg true true) 10 (gets [4]) (init (ex_cfg true true) ex_fl (Seed 0)))))
  = ["c"; "a"; "a"; "a"]%string.
Proof. reflexivity. Qed.

(** A faulty file. *)
Example ex_faulty :
  map (fun o => match o with ORes (CReturn _) => None | ORes (CRaise e) => Some e | _ => None end)
    (fst (run (ex_cfg false false) 10 (gets [2; 2; 1]) (init (ex_cfg false false) ["a"; "f"; "c"]%string (Seed 0))))
  = [None; Some IndexError; Some IndexError].
Proof. reflexivity. Qed.
