(** Properties C12-C15, C70, C71: file formats and constructors. *)
From Coq Require Import List Arith ZArith Lia String Bool QArith Permutation.
From Verif Require Import Prelude Model.Base Model.Files Model.Loaders.
From Verif Require Import Spec.BaseSpec Spec.LoaderSpec Spec.FilesSpec.
From Verif Require Import Proofs.LoaderProofs Proofs.FilesProofs Proofs.LoaderFinal.
Import ListNotations.
Local Open Scope nat_scope.

(** ** C12 *)
Theorem C12_h5_slices : forall d p a X Y Z Ch,
  d p = H5Data a -> wf_arr a -> shape a = [X; Y; Z; Ch] ->
  exists sd, load_file (h5_loader d) p = Ok sd /\
    forall y,
      (y < Y -> exists x, get_next_slice (h5_loader d) (Some sd) (Some p) y = SItem x /\
         shape (sd_flow x) = [X; Z; Ch] /\ wf_arr (sd_flow x) /\ sd_files x = Some [p] /\
         forall i j k, i < X -> j < Z -> k < Ch -> elt (sd_flow x) [i; j; k] = elt a [i; y; j; k]) /\
      (Y <= y -> get_next_slice (h5_loader d) (Some sd) (Some p) y = SEnded).
Proof. exact h5_slices. Qed.
Print Assumptions C12_h5_slices.

(** End to end: the rows received from an HDF5 scheduler are all planes of all
    files, in order. *)
Theorem C12_h5_stream : forall d c fl k ns fuel X Z Ch,
  c_loader c = h5_loader d -> c_loop c = false -> c_randomize c = false ->
  no_adjacent_equal fl -> List.length fl < fuel ->
  (forall p, In p fl -> exists a Y, d p = H5Data a /\ wf_arr a /\ shape a = [X; Y; Z; Ch]) ->
  received (fst (run c fuel (gets ns) (init c fl k))) =
  map slice_row (firstn (sum ns)
    (flat_map (fun p => match d p with H5Data a => planes p a | _ => [] end) fl)).
Proof. exact h5_stream. Qed.
Print Assumptions C12_h5_stream.

Theorem C12_announced_shape : forall d s p l a X Y Z Ch,
  s_files s = p :: l -> d p = H5Data a -> shape a = [X; Y; Z; Ch] ->
  exists sh, h5_flow_shape d s = Ok sh /\ (sh = [X; Z; Ch] <-> Ch = 2).
Proof. exact h5_announced. Qed.
Print Assumptions C12_announced_shape.

(** The general theorems C01-C11 apply to all three loaders: each exposes some
    contents, whatever is on disk, and never ends a file with StopIteration. *)
Theorem C12_loaders_expose_contents : forall d inc npy jpg r m oh ow,
  disk (h5_loader d) (h5_content d) /\
  disk (npy_loader inc npy jpg) (npy_content inc npy jpg) /\
  disk (mat_loader r m inc oh ow) (mat_content r m inc oh ow) /\
  slice_never_stops (h5_loader d) /\ slice_never_stops (mat_loader r m inc oh ow) /\
  ((forall p, jpg p <> Err StopIteration) -> slice_never_stops (npy_loader inc npy jpg)).
Proof.
  intros. split; [apply h5_disk|]. split; [apply npy_disk|]. split; [apply mat_disk_ok|].
  split; [apply h5_never_stops|]. split; [apply mat_never_stops|]. apply npy_never_stops.
Qed.
Print Assumptions C12_loaders_expose_contents.

(** ** C13 *)
Theorem C13_flow_shape : forall r m inc oh ow p d dict a,
  pil_ok r -> load_file (mat_loader r m inc oh ow) p = Ok d ->
  stored m p dict -> lookup "V" dict = Some (MArr a) -> wf_arr a -> List.length (shape a) = 3 ->
  forall x, get_next_slice (mat_loader r m inc oh ow) (Some d) (Some p) 0 = SItem x ->
  shape (sd_flow x) = [oh; ow; 2] /\ wf_arr (sd_flow x) /\
  (shape a = [oh; ow; 2] -> sd_flow x = a) /\
  (shape a = [2; oh; ow] -> ow <> 2 ->
     forall y z k, y < oh -> z < ow -> k < 2 -> elt (sd_flow x) [y; z; k] = elt a [k; y; z]).
Proof. exact mat_flow_delivered. Qed.
Print Assumptions C13_flow_shape.

(** A resized flow is the resized channel times the ratio along its own axis. *)
Theorem C13_flow_scaled : forall r m inc oh ow p d dict a H W,
  pil_ok r -> load_file (mat_loader r m inc oh ow) p = Ok d ->
  stored m p dict -> lookup "V" dict = Some (MArr a) -> wf_arr a ->
  shape a = [H; W; 2] -> (H, W) <> (oh, ow) ->
  exists u0 v0 u v, shape u0 = [H; W] /\ shape v0 = [H; W] /\
    (forall y x, y < H -> x < W -> elt u0 [y; x] = elt a [y; x; 0] /\ elt v0 [y; x] = elt a [y; x; 1]) /\
    r u0 ow oh = Ok u /\ r v0 ow oh = Ok v /\
    forall y x, y < oh -> x < ow ->
      Qeq (elt (sd_flow d) [y; x; 0]) (elt u [y; x] * (inject_Z (Z.of_nat ow) / inject_Z (Z.of_nat W))) /\
      Qeq (elt (sd_flow d) [y; x; 1]) (elt v [y; x] * (inject_Z (Z.of_nat oh) / inject_Z (Z.of_nat H))).
Proof. exact mat_flow_scaled. Qed.
Print Assumptions C13_flow_scaled.

Theorem C13_image_shape : forall r m oh ow p d dict i0 i1,
  pil_ok r -> load_file (mat_loader r m true oh ow) p = Ok d ->
  stored m p dict -> lookup "I0" dict = Some (MArr i0) -> lookup "I1" dict = Some (MArr i1) ->
  List.length (shape i0) = 2 -> List.length (shape i1) = 2 ->
  exists a0 a1, sd_im1 d = Some a0 /\ sd_im2 d = Some a1 /\
    (shape i0 = [oh; ow] -> a0 = i0) /\ (shape i1 = [oh; ow] -> a1 = i1) /\
    (shape i0 <> [oh; ow] -> shape a0 = [ow; oh]) /\
    (shape i1 <> [oh; ow] -> shape a1 = [ow; oh]).
Proof. exact mat_images_delivered. Qed.
Print Assumptions C13_image_shape.

Theorem C13_image_matches_output_refuted : exists r m oh ow p d a,
  pil_ok r /\ load_file (mat_loader r m true oh ow) p = Ok d /\
  sd_im1 d = Some a /\ shape a <> [oh; ow] /\ shape (sd_flow d) = [oh; ow; 2].
Proof. exact mat_images_refuted. Qed.
Print Assumptions C13_image_matches_output_refuted.

(** ** C14 *)
Theorem C14_short_image_batch_raises : forall npy jpg c fl k ns fuel F h w,
  c_loader c = npy_loader true npy jpg -> c_loop c = false -> c_randomize c = false ->
  no_adjacent_equal fl -> List.length fl < fuel -> List.length F = 3 ->
  (forall p, In p fl -> npy_with_images npy jpg F h w p) ->
  forall j n, nth_error ns j = Some n -> 0 < n ->
    let left := List.length fl - sum (firstn j ns) in
    let r := nth_error (fst (run c fuel (gets ns) (init c fl k))) j in
    (n <= left -> exists b, r = Some (ORes (CReturn b)) /\ nrows (sd_flow b) = n /\
       sd_files b = Some (firstn n (skipn (sum (firstn j ns)) fl)) /\
       sd_im1 b <> None /\ sd_im2 b <> None) /\
    (0 < left < n -> r = Some (ORes (CRaise ValueError))) /\
    (left = 0 -> r = Some (ORes (CRaise StopIteration))).
Proof. exact npy_images_calls. Qed.
Print Assumptions C14_short_image_batch_raises.

(** ** C15 *)
Theorem C15_constructed_list : forall f suffix c fl k s,
  (c_randomize c = true -> perm_ok (c_rng c)) ->
  construct_base f suffix c fl k = Ok s ->
  exists segs, Forall2 (stands_for f suffix) fl segs /\
    s_files s <> [] /\ (forall p, In p (s_files s) -> fs_isfile f p = true) /\
    Permutation (s_files s) (List.concat segs) /\
    (c_randomize c = false -> s_files s = List.concat segs).
Proof. exact constructed. Qed.
Print Assumptions C15_constructed_list.

(** The three public constructors refine the common one. *)
Theorem C15_mat_constructor : forall f c fl k s,
  construct_mat f c fl k = Ok s ->
  construct_base f "**/*.mat" c fl k = Ok s /\ forall p, In p (s_files s) -> has_suffix p ".mat".
Proof. exact construct_mat_base. Qed.
Print Assumptions C15_mat_constructor.

Theorem C15_npy_constructor : forall f inc c fl k s,
  construct_npy f inc c fl k = Ok s ->
  construct_base f "flow_*.npy" c fl k = Ok s /\ (forall p, In p (s_files s) -> has_suffix p ".npy") /\
  (inc = true -> forall p, In p (s_files s) -> exists t, flow_number (basename p) = Some t /\
     fs_isfile f (img_path p (Z.of_nat t - 1)) = true /\ fs_isfile f (img_path p (Z.of_nat t)) = true).
Proof. exact construct_npy_base. Qed.
Print Assumptions C15_npy_constructor.

Theorem C15_h5_constructor : forall f c fl k s,
  construct_h5 f c fl k = Ok s ->
  construct_base f "**/*.h5" c fl k = Ok s /\ forall p, In p fl -> has_suffix p ".h5".
Proof. exact construct_h5_base. Qed.
Print Assumptions C15_h5_constructor.

(** Any argument without the extension, in particular a directory. *)
Theorem C15_h5_rejects_directories : forall f c fl k p,
  In p fl -> ~ has_suffix p ".h5" -> construct_h5 f c fl k = Err ValueError.
Proof. exact construct_h5_directory. Qed.
Print Assumptions C15_h5_rejects_directories.

(** ** C70 *)
Theorem C70_mixed_shapes_raise : forall c C fl k ns fuel,
  disk (c_loader c) C -> c_loop c = false -> c_randomize c = false ->
  no_adjacent_equal fl -> no_faults C fl -> List.length fl < fuel ->
  forall j n, nth_error ns j = Some n ->
    let seg := firstn n (skipn (sum (firstn j ns)) (epoch C fl)) in
    let r := nth_error (fst (run c fuel (gets ns) (init c fl k))) j in
    (forall x y, In x seg -> In y seg -> shape (sd_flow x) <> shape (sd_flow y) ->
       r = Some (ORes (CRaise ValueError))) /\
    (forall F I1 I2, seg <> [] -> List.length F = 3 -> List.length I1 = 2 -> List.length I2 = 2 ->
       (forall x, In x seg -> stackable F I1 I2 x) ->
       exists b, r = Some (ORes (CReturn b)) /\ batch_of n seg b).
Proof. exact mixed_shapes. Qed.
Print Assumptions C70_mixed_shapes_raise.

(** ** C71 *)
Theorem C71_picture_pairing : forall npy jpg d t a,
  d <> ""%string -> ends_with d "/" = false ->
  let p := (d ++ "/" ++ "flow_" ++ str_of_nat t ++ ".npy")%string in
  npy p = Ok a ->
  exists sd, load_file (npy_loader true npy jpg) p = Ok sd /\
    forall i0 i1,
      jpg (d ++ "/img_" ++ str_of_Z (Z.of_nat t - 1) ++ ".jpg")%string = Ok i0 ->
      jpg (d ++ "/img_" ++ str_of_Z (Z.of_nat t) ++ ".jpg")%string = Ok i1 ->
      get_next_slice (npy_loader true npy jpg) (Some sd) (Some p) 0 =
      SItem (mkSD a (Some i0) (Some i1) None (Some [p])).
Proof.
  intros npy jpg d t a Hne He p Ha. destruct (picture_paths d t Hne He) as [H1 H2]. fold p in H1, H2.
  cbn [npy_loader load_file get_next_slice]. unfold npy_load. rewrite Ha. cbn [bind].
  eexists; split; [reflexivity|]. intros i0 i1 J0 J1. unfold npy_slice.
  cbn [Nat.eqb negb]. rewrite H1, !H2, J0, J1. reflexivity.
Qed.
Print Assumptions C71_picture_pairing.

(** ** The hypotheses are satisfiable *)

Definition ex_h5 (p : string) : h5_file :=
  if String.eqb p "a.h5"
  then H5Data (mkArr [2; 3; 1; 2] (map (fun i => inject_Z (Z.of_nat i)) (seq 0 12)))
  else H5Fails (OtherExn 0).

Definition ex_rng0 : rng := mkRng (fun _ n => seq 0 n) (fun _ _ m => repeat 0 m).

(** The second of three planes of a 2 x 3 x 1 x 2 array. *)
Example ex_h5_second :
  nth 1 (map fst (received (fst (run (mkCfg (h5_loader ex_h5) ex_rng0 false false) 5 (gets [2; 2])
     (init (mkCfg (h5_loader ex_h5) ex_rng0 false false) ["a.h5"]%string (Seed 0)))))) (zeros [])
  = mkArr [2; 1; 2] [2#1; 3#1; 8#1; 9#1].
Proof. reflexivity. Qed.

Example ex_mat_hyps :
  exists r m p d dict a, pil_ok r /\ load_file (mat_loader r m false 2 3) p = Ok d /\
    stored m p dict /\ lookup "V" dict = Some (MArr a) /\ wf_arr a /\ shape a = [2; 4; 6].
Proof.
  set (r := (fun (a : arr) (w h : nat) => Ok (zeros (h :: w :: skipn 2 (shape a)))) : pil).
  set (dict := [("V", MArr (zeros [2; 4; 6]))]%string).
  exists r, (mkMat (fun _ => Err NotImplementedError) (fun _ => true) (fun _ => Ok dict)), "f.mat"%string.
  eexists _, dict, (zeros [2; 4; 6]). split.
  { intros a w h b H. unfold r in H. inversion H; subst. split; [|reflexivity].
    unfold wf_arr, zeros; simpl. apply repeat_length. }
  split; [vm_compute; reflexivity|]. split; [right; auto|]. split; [reflexivity|].
  split; [reflexivity|reflexivity].
Qed.

Definition ex_npy (p : string) : result arr := Ok (zeros [2; 2; 2]).
Definition ex_jpg (p : string) : result arr := Ok (zeros [4; 4; 3]).

Example ex_npy_with_images : npy_with_images ex_npy ex_jpg [2; 2; 2] 4 4 "d/flow_7.npy".
Proof.
  exists (zeros [2; 2; 2]), 7, (zeros [4; 4; 3]), (zeros [4; 4; 3]).
  repeat split; reflexivity.
Qed.

(** Three files, batches of two: a full batch, then ValueError, then the lost
    third file is not served again. *)
Example ex_npy_run :
  let c := mkCfg (npy_loader true ex_npy ex_jpg) ex_rng0 false false in
  map (fun o => match o with ORes (CRaise e) => Some e | _ => None end)
    (fst (run c 10 (gets [2; 2; 2]) (init c ["d/flow_1.npy"; "d/flow_2.npy"; "d/flow_3.npy"]%string (Seed 0))))
  = [None; Some ValueError; Some StopIteration].
Proof. reflexivity. Qed.

Example ex_construct :
  let f := mkFs (fun p => String.eqb p "d") (fun p => negb (String.eqb p "d"))
             (fun _ _ => ["d/z.npy"; "d/b.npy"]%string) in
  construct_npy f false (mkCfg (npy_loader false ex_npy ex_jpg) ex_rng0 false false)
    ["q.npy"; "d"]%string (Seed 0)
  = Ok (mkSt ["q.npy"; "d/b.npy"; "d/z.npy"]%string 0 None None 0 (Seed 0)).
Proof. reflexivity. Qed.
