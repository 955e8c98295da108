(** Properties C69, C85-C88: preparing the dataset. *)
From Coq Require Import List Arith ZArith QArith Reals String Bool Ascii Lia Permutation.
From Flocq Require Import Core.
From Verif Require Import Prelude Model.Base Model.Files Model.Loaders Model.Scripts
  Spec.BaseSpec Spec.LoaderSpec Spec.ScriptsSpec
  Proofs.LoaderProofs Proofs.ScriptsText Proofs.ScriptsSplit Proofs.ScriptsFlow Proofs.ScriptsFloat
  Spec.SliceSpec Proofs.SliceProofs Spec.FlowKeysSpec Proofs.FlowKeysProofs.
Import ListNotations.
Local Open Scope string_scope.
Local Open Scope nat_scope.

(** ** C69 *)

(** For accepted ratios without a negative one the three files written hold a
    partition of the downloaded list; sizes are rounded down, the rest is for
    training. *)
Theorem C69_partition : forall train test shuffle r0 r1 r2 old,
  Permutation (shuffle (read_list train)) (read_list train) ->
  ratios_ok [r0; r1; r2] = true -> (0 <= r0)%Z -> (0 <= r1)%Z -> (0 <= r2)%Z ->
  let n := List.length (read_list train) in
  exists sf t v u, fetch_splits (Some train) test shuffle [r0; r1; r2] old = Ok sf /\
    f_train sf = Some t /\ f_val sf = Some v /\ f_tune sf = Some u /\
    Permutation (read_list t ++ read_list v ++ read_list u) (read_list train) /\
    List.length (read_list v) = n * Z.to_nat r1 / 100 /\ List.length (read_list u) = n * Z.to_nat r2 / 100 /\
    List.length (read_list t) = n - n * Z.to_nat r1 / 100 - n * Z.to_nat r2 / 100.
Proof.
  intros train test shuffle r0 r1 r2 old P R H0 H1 H2 n. unfold ratios_ok in R. cbn [List.length Nat.eqb andb fold_right] in R.
  apply Z.eqb_eq in R.
  destruct (split_files_ok train test shuffle r0 r1 r2 old P H1 H2 ltac:(lia)) as (t & v & u & E & Q & L1 & L2).
  eexists. exists t, v, u. split; [exact E|]. repeat (split; [first [reflexivity|exact Q|exact L1|exact L2]|]).
  apply Permutation_length in Q. rewrite !app_length in Q. fold n in Q, L1, L2. lia.
Qed.
Print Assumptions C69_partition.

(** The pieces are consecutive parts of the shuffled list. *)
Theorem C69_pieces : forall l r1 r2, (0 <= r1)%Z -> (0 <= r2)%Z -> (r1 + r2 <= 100)%Z ->
  let '(tr, va, tu) := split_lists l r1 r2 in
  (tr ++ va ++ tu)%list = l /\
  List.length va = List.length l * Z.to_nat r1 / 100 /\ List.length tu = List.length l * Z.to_nat r2 / 100.
Proof. exact split_partition. Qed.
Print Assumptions C69_pieces.

(** The sizes are computed with a float division, which makes no difference. *)
Theorem C69_float_division : forall n r, (Z.abs (Z.of_nat n * r) <= 2 ^ 52)%Z ->
  percent n r = Ztrunc (round radix2 (FLT_exp (-1074) 53) ZnearestE (IZR (Z.of_nat n * r) / 100)).
Proof. intros n r H. symmetry. apply quotient_float. exact H. Qed.
Print Assumptions C69_float_division.

(** The accepted ratios. *)
Theorem C69_ratios : forall ratios, ratios_ok ratios = true <->
  exists r0 r1 r2, ratios = [r0; r1; r2] /\ (r0 + r1 + r2 = 100)%Z.
Proof.
  intros ratios. unfold ratios_ok. rewrite andb_true_iff, Nat.eqb_eq, Z.eqb_eq. split.
  - intros [L S]. destruct ratios as [|r0 [|r1 [|r2 [|]]]]; try discriminate. exists r0, r1, r2.
    cbn [fold_right] in S. split; [reflexivity|lia].
  - intros (r0 & r1 & r2 & -> & S). cbn [List.length fold_right]. split; [reflexivity|lia].
Qed.
Print Assumptions C69_ratios.

(** Which positions of the shuffled list the pieces hold, for any ratios: with
    negative ones the bounds may be negative and then count from the end. *)
Theorem C69_any_ratios : forall l r1 r2,
  let n := List.length l in
  let v := Z.quot (Z.of_nat n * r1) 100 in
  let t := (Z.of_nat n - v - Z.quot (Z.of_nat n * r2) 100)%Z in
  split_lists l r1 r2 =
    (positions l (fun i => before n t i),
     positions l (fun i => not_before n t i && before n (t + v) i),
     positions l (fun i => not_before n (t + v) i)).
Proof.
  intros l r1 r2 n v t. unfold split_lists, percent. fold n. fold v. fold t.
  rewrite !slice_positions. fold n. f_equal; [f_equal|]; try reflexivity.
  - apply positions_ext. intros i H. unfold not_before at 1. destruct (Z.ltb_spec 0 0) as [|_]; [lia|].
    destruct (Z.leb_spec 0 i); [reflexivity|lia].
  - apply positions_ext. intros i H. fold n in H. unfold before. destruct (Z.ltb_spec (Z.of_nat n) 0) as [|_]; [lia|].
    destruct (Z.ltb_spec i (Z.of_nat n)); [apply andb_true_r|lia].
Qed.
Print Assumptions C69_any_ratios.

(** Ten items and the ratios 20/-60/140: the bounds are 2 and -4. *)
Example exL_negative :
  split_lists ["0"; "1"; "2"; "3"; "4"; "5"; "6"; "7"; "8"; "9"] (-60) 140 =
    (["0"; "1"], ["2"; "3"; "4"; "5"], ["6"; "7"; "8"; "9"]).
Proof. vm_compute. reflexivity. Qed.

(** Negative ratios are accepted when the sum is 100, and then a sample may be
    used for training and for tuning. *)
Theorem C69_negative_ratio_refuted : exists ratios l tr va tu x, ratios_ok ratios = true /\ NoDup l /\
  split_lists l (nth 1 ratios 0%Z) (nth 2 ratios 0%Z) = (tr, va, tu) /\ In x tr /\ In x tu.
Proof.
  exists [80; -20; 40]%Z, ["0"; "1"; "2"; "3"; "4"; "5"; "6"; "7"; "8"; "9"].
  eexists. eexists. eexists. exists "6". split; [reflexivity|]. split.
  { repeat constructor; cbn [In]; intuition discriminate. }
  split; [vm_compute; reflexivity|]. split; cbn [In]; tauto.
Qed.
Print Assumptions C69_negative_ratio_refuted.

(** Lists survive writing and reading; reading drops blank lines and blanks
    around items, nothing else. *)
Theorem C69_lists_written : forall text l, incl l (read_list text) -> read_list (write_list l) = l.
Proof. exact sublist_back. Qed.
Print Assumptions C69_lists_written.

Theorem C69_lists_read : forall l, (forall p i q, In (p, i, q) l -> padding p /\ padding q /\ item i) ->
  read_list (padded_lines l) = filter (fun i => negb (String.eqb i "")) (map (fun x => snd (fst x)) l).
Proof. exact read_padded. Qed.
Print Assumptions C69_lists_read.

Definition exL (l : list string) : string := write_list l.
Example exL_splits :
  let train := exL ["d/a_img1.tif d/a_img2.tif d/a_flow.flo"; "d/b_img1.tif"; "d/c_img1.tif"; "d/d_img1.tif"; "d/e_img1.tif"] in
  ratios_ok [60; 20; 20]%Z = true /\ Permutation (rev (read_list train)) (read_list train) /\
  fetch_splits (Some train) None (@rev string) [60; 20; 20]%Z (mkSplits None None (Some "z.mat") None) =
    Ok (mkSplits (Some (exL ["d/e_img1.tif"; "d/d_img1.tif"; "d/c_img1.tif"])) (Some (exL ["d/b_img1.tif"])) (Some "z.mat")
          (Some (exL ["d/a_img1.tif d/a_img2.tif d/a_flow.flo"]))).
Proof.
  split; [reflexivity|]. split; [apply Permutation_sym, Permutation_rev|vm_compute; reflexivity].
Qed.

(** ** C85 *)

(** A packed file is copied to the splits whose list has a line for its name,
    and to no other place. *)
Theorem C85_copies : forall sf files copies, perform_split sf files = Ok copies ->
  forall f t, In (f, t) copies <->
    In f files /\ exists s text line, In (s, Some text) [("train", f_train sf); ("val", f_val sf); ("test", f_test sf); ("tune", f_tune sf)] /\
      In line (read_list text) /\ canonical line = snd f /\ t = target s f.
Proof. exact split_copies. Qed.
Print Assumptions C85_copies.

(** The line is one for [x] whichever file of the triplet it begins with. *)
Theorem C85_lines : forall d x m e r, directory d -> word d -> sample_name x -> word x -> ~ mem "/" x ->
  marker m -> word e -> ~ mem "/" e -> ~ mem "_" e -> columns r ->
  canonical (d ++ x ++ m ++ e ++ r) = x ++ ".mat".
Proof. exact canonical_listed. Qed.
Print Assumptions C85_lines.

(** No copy overwrites another. *)
Theorem C85_no_overwrite : forall sf files copies, perform_split sf files = Ok copies -> NoDup files -> NoDup (map snd copies).
Proof. exact split_no_overwrite. Qed.
Print Assumptions C85_no_overwrite.

(** With distinct names, exactly one of train, val and tune. *)
Theorem C85_exactly_one : forall train test shuffle r0 r1 r2 old sf files copies f,
  Permutation (shuffle (read_list train)) (read_list train) -> (0 <= r1)%Z -> (0 <= r2)%Z -> (r1 + r2 <= 100)%Z ->
  NoDup (map canonical (read_list train)) ->
  fetch_splits (Some train) test shuffle [r0; r1; r2] old = Ok sf -> perform_split sf files = Ok copies ->
  In f files -> In (snd f) (map canonical (read_list train)) ->
  exists s, In s ["train"; "val"; "tune"] /\
    forall s', In s' ["train"; "val"; "tune"] -> (In (f, target s' f) copies <-> s' = s).
Proof. exact one_split. Qed.
Print Assumptions C85_exactly_one.

Example exL_distributed :
  let train := exL ["d/a_img1.tif d/a_img2.tif d/a_flow.flo"; "d/b_img1.tif"; "d/c_Re10_x_img1.tif"; "d/d_flow.flo"; "d/e_img1.tif"] in
  let old := mkSplits None None (Some (exL ["q/z_img2.tif"])) None in
  let files := [(["d"], "a.mat"); (["d"], "c_Re10_x.mat"); (["d"], "e.mat"); ([], "z.mat"); ([], "unknown.mat")] in
  NoDup (map canonical (read_list train)) /\
  exists sf, fetch_splits (Some train) None (@rev string) [60; 20; 20]%Z old = Ok sf /\
    perform_split sf files =
      Ok [((["d"], "a.mat"), ["tune"; "d"; "a.mat"]);
          ((["d"], "c_Re10_x.mat"), ["train"; "d"; "Re10"; "c_Re10_x.mat"]);
          ((["d"], "e.mat"), ["train"; "d"; "e.mat"]); (([], "z.mat"), ["test"; "z.mat"])].
Proof.
  split.
  - replace (map canonical _) with ["a.mat"; "b.mat"; "c_Re10_x.mat"; "d.mat"; "e.mat"] by (vm_compute; reflexivity).
    repeat constructor; cbn [In]; intuition discriminate.
  - eexists. split; [vm_compute; reflexivity|]. vm_compute; reflexivity.
Qed.

(** The directory of a line is ignored: two samples of the same name in
    different directories both go to all splits that list either. *)
Theorem C85_directories_refuted : exists tr te f copies,
  read_list tr = ["a/x_img1.tif"] /\ read_list te = ["b/x_img1.tif"] /\ f = (["a"], "x.mat") /\
  perform_split (mkSplits (Some tr) (Some "") (Some te) (Some "")) [f; (["b"], "x.mat")] = Ok copies /\
  In (f, ["train"; "a"; "x.mat"]) copies /\ In (f, ["test"; "a"; "x.mat"]) copies.
Proof.
  exists (exL ["a/x_img1.tif"]), (exL ["b/x_img1.tif"]). eexists. eexists.
  split; [reflexivity|]. split; [reflexivity|]. split; [reflexivity|]. split; [vm_compute; reflexivity|].
  split; cbn [In]; tauto.
Qed.
Print Assumptions C85_directories_refuted.

(** ** C86 *)

(** The sample [x] of a directory is packed under the name that its lines in
    the lists stand for. *)
Theorem C86_names_agree : forall ex ok flows d x e, In (d, x ++ "_flow" ++ e) flows -> ~ mem "_" e ->
  ex (d, x ++ "_img1.tif") = true -> ex (d, x ++ "_img2.tif") = true ->
  ok (d, x ++ "_flow" ++ e) (d, x ++ "_img1.tif") (d, x ++ "_img2.tif") = true ->
  word x -> ~ mem "/" x -> sample_name x ->
  exists n, In ((d, n), ((d, x ++ "_flow" ++ e), (d, x ++ "_img1.tif"), (d, x ++ "_img2.tif"))) (convert ex ok flows) /\
    forall dir m e' r, directory dir -> word dir -> marker m -> word e' -> ~ mem "/" e' -> ~ mem "_" e' -> columns r ->
      canonical (dir ++ x ++ m ++ e' ++ r) = n.
Proof.
  intros ex ok flows d x e I U E1 E2 E3 W S N. exists (x ++ ".mat"). split; [apply convert_named; assumption|].
  intros. apply canonical_listed; assumption.
Qed.
Print Assumptions C86_names_agree.

(** Each packed file is made of the flow and the images of its own name and
    directory. *)
Theorem C86_origin : forall ex ok flows d n t, In ((d, n), t) (convert ex ok flows) ->
  exists x e, n = x ++ ".mat" /\ t = ((d, x ++ "_flow" ++ e), (d, x ++ "_img1.tif"), (d, x ++ "_img2.tif")) /\
    In (d, x ++ "_flow" ++ e) flows /\ ex (d, x ++ "_img1.tif") = true /\ ex (d, x ++ "_img2.tif") = true.
Proof. exact convert_origin. Qed.
Print Assumptions C86_origin.

Example exL_names : sample_name "backstep_Re800_00001" /\ word "backstep_Re800_00001" /\
  canonical "./data/backstep_Re800_00001_img1.tif ./data/backstep_Re800_00001_img2.tif" = "backstep_Re800_00001.mat" /\
  map fst (convert (fun _ => true) (fun _ _ _ => true) [(["d"], "backstep_Re800_00001_flow.flo")]) = [(["d"], "backstep_Re800_00001.mat")].
Proof.
  split; [|split; [|split; vm_compute; reflexivity]].
  - intros m M (a & b & E).
    assert (F : forall m s, before_first m s = None -> ~ occurs m s).
    { clear. intros m s; induction s as [|c s IH]; intros H (a & b & E).
      - rewrite before_first_eq in H. destruct (prefix m "") eqn:P; [discriminate|]. destruct a; [|discriminate]. destruct m; [discriminate|discriminate].
      - rewrite before_first_eq in H. destruct (prefix m (String c s)) eqn:P; [discriminate|].
        destruct (before_first m s) eqn:B; [discriminate|]. destruct a as [|a0 a].
        + cbn [append] in E. rewrite E, prefix_self in P. discriminate.
        + inversion E. apply (IH eq_refl). exists a, b. assumption. }
    apply (F m "backstep_Re800_00001"); [|exists a, b; exact E]. destruct M as [ -> | [ -> | -> ] ]; vm_compute; reflexivity.
  - intros a M B. cbn in M. repeat destruct M as [M|M]; subst; cbn in B; try lia; destruct M.
Qed.

(** A sample whose name contains a marker is packed under another name than the
    one its line stands for. *)
Theorem C86_marker_refuted : exists x, ~ sample_name x /\
  map fst (convert (fun _ => true) (fun _ _ _ => true) [([], x ++ "_flow.flo")]) = [([], x ++ ".mat")] /\
  canonical (x ++ "_img1.tif") <> canonical (x ++ "_flow.flo") /\ canonical (x ++ "_flow.flo") <> x ++ ".mat".
Proof.
  exists "jet_flow_7". split.
  - intros H. apply (H "_flow"); [right; right; reflexivity|]. exists "jet", "_7". reflexivity.
  - split; [vm_compute; reflexivity|]. split; vm_compute; discriminate.
Qed.
Print Assumptions C86_marker_refuted.

(** Two flow files of the same sample are packed to the same file: the later
    one in sorted order stays. *)
Theorem C86_two_formats_refuted : exists flows d n t t', NoDup flows /\
  convert (fun _ => true) (fun _ _ _ => true) flows = [((d, n), t); ((d, n), t')] /\ t <> t'.
Proof.
  exists [([], "x_flow.flo"); ([], "x_flow.mat")]. eexists. eexists. eexists. eexists. split.
  - repeat constructor; cbn [In]; intuition discriminate.
  - split; [vm_compute; reflexivity|discriminate].
Qed.
Print Assumptions C86_two_formats_refuted.

(** ** C87 *)

(** A .flo file is read as it was written, whatever follows it. *)
Theorem C87_flo_read : forall h w (vs : list f32) rest, List.length vs = 2 * w * h ->
  (Z.of_nat w < 2147483648)%Z -> (Z.of_nat h < 2147483648)%Z ->
  read_flo (flo_file h w vs ++ rest) = Ok (h, w, vs).
Proof. exact flo_read. Qed.
Print Assumptions C87_flo_read.

(** Nothing is accepted without the magic number or with too few bytes. *)
Theorem C87_flo_accepted : forall bytes h w vs, read_flo bytes = Ok (h, w, vs) ->
  firstn 4 bytes = [80; 73; 69; 72]%Z /\ List.length vs = 2 * w * h /\ 12 + 8 * (w * h) <= List.length bytes.
Proof. exact flo_accepted. Qed.
Print Assumptions C87_flo_accepted.

(** Exactly this is accepted: a .flo file, possibly with more bytes behind it,
    or one with a negative width or height, which is then found from the number of
    bytes. *)
Theorem C87_flo_only : forall bytes h w vs, Forall is_byte bytes ->
  (read_flo bytes = Ok (h, w, vs) <->
   List.length vs = 2 * w * h /\
   ((exists rest, bytes = (flo_file h w vs ++ rest)%list /\ (Z.of_nat w < 2147483648)%Z /\ (Z.of_nat h < 2147483648)%Z) \/
    flo_open h w vs bytes)).
Proof. exact flo_only. Qed.
Print Assumptions C87_flo_only.

Example exL_flo : flo_file 1 2 [(0, 0, 128, 63); (0, 0, 0, 0); (0, 0, 0, 64); (0, 0, 128, 191)]%Z =
    [80; 73; 69; 72; 2; 0; 0; 0; 1; 0; 0; 0; 0; 0; 128; 63; 0; 0; 0; 0; 0; 0; 0; 64; 0; 0; 128; 191]%Z /\
  read_flo [80; 73; 69; 72; 44; 1; 0; 0; 0; 0; 0; 0]%Z = Ok (0, 300, []) /\
  read_flo [80; 73; 69; 72; 2; 0; 0; 0; 1; 0; 0; 0; 0; 0; 128; 63]%Z = Err ValueError /\
  read_flo [80; 73; 69; 72; 255; 255; 255; 255; 1; 0; 0; 0; 0; 0; 128; 63; 0; 0; 0; 64; 9]%Z =
    Ok (1, 1, [(0, 0, 128, 63); (0, 0, 0, 64)]%Z).
Proof. vm_compute. repeat split; reflexivity. Qed.

(** From a .mat file the flow is read that is stored under the first of the five
    names under which there is one, with the components moved to the last axis;
    without any, ValueError. *)
Theorem C87_mat_read : forall d a, read_flow_mat d = Ok a ->
  exists bef k aft, flow_names = (bef ++ k :: aft)%list /\ Forall (no_flow d) bef /\ flow_at d k a.
Proof. intros d a. exact (flow_found d flow_names a). Qed.
Print Assumptions C87_mat_read.

Theorem C87_mat_accepted : forall d bef k aft x h w, flow_names = (bef ++ k :: aft)%list ->
  Forall (no_flow d) bef -> lookup k d = Some (MArr x) -> shape x = [h; w; 2] \/ shape x = [2; h; w] ->
  exists a, read_flow_mat d = Ok a /\ flow_at d k a.
Proof.
  intros d bef k aft x h w E. unfold read_flow_mat. change ["V"; "flow"; "u"; "uv"; "F"] with flow_names. rewrite E.
  apply flow_read.
Qed.
Print Assumptions C87_mat_accepted.

Theorem C87_mat_refused : forall d, Forall (no_flow d) flow_names -> read_flow_mat d = Err ValueError.
Proof. intros d. exact (flow_none d flow_names). Qed.
Print Assumptions C87_mat_refused.

(** A square image under "V" is passed over, the flow under "uv" has its
    components first. *)
Example exL_mat :
  let d := [("uv", MArr (mkArr [2; 1; 3] [1; 2; 3; 4; 5; 6]%Q)); ("F", MArr (mkArr [1; 1; 2] [7; 8]%Q));
            ("V", MArr (mkArr [2; 2] [0; 0; 0; 0]%Q))] in
  read_flow_mat d = Ok (mkArr [1; 3; 2] [1; 4; 2; 5; 3; 6]%Q) /\ no_flow d "V" /\ no_flow d "flow" /\ no_flow d "u".
Proof.
  split; [vm_compute; reflexivity|]. split; [right; eexists; split; [reflexivity|]; intros; split; discriminate|].
  split; left; reflexivity.
Qed.

(** ** C88 *)

(** A uniform displacement, converted to any size and loaded at any size, is
    the same part of the image. *)
Theorem C88_converted_loaded : forall r a i0 i1 h w u v th tw oh ow m p inc,
  pil_constant r -> uniform h w u v a -> 0 < h -> 0 < w -> 0 < th -> 0 < tw -> 0 < oh -> 0 < ow ->
  (forall d, pack r a i0 i1 th tw = Ok d -> stored m p d) ->
  (inc = true -> exists b0 b1, mat_image r oh ow (MArr i0) = Ok b0 /\ mat_image r oh ow (MArr i1) = Ok b1) ->
  exists sd, load_file (mat_loader r m inc oh ow) p = Ok sd /\
    uniform oh ow (u * (inject_Z (Z.of_nat ow) / inject_Z (Z.of_nat w))) (v * (inject_Z (Z.of_nat oh) / inject_Z (Z.of_nat h)))
      (sd_flow sd).
Proof. exact converted_loaded. Qed.
Print Assumptions C88_converted_loaded.

(** Nearest-neighbour resizing, as an example. *)
Definition exL_pil : pil := fun a w' h' =>
  match shape a with
  | [h; w] => Ok (mkArr [h'; w'] (flat_map (fun i => map (fun j => nth ((i * h / h') * w + j * w / w') (data a) 0%Q) (seq 0 w')) (seq 0 h')))
  | _ => Err ValueError
  end.

Example exL_pil_constant : pil_constant exL_pil.
Proof.
  intros a h w h' w' c W S Hh Hw Hh' Hw' C. unfold exL_pil. rewrite S. eexists. split; [reflexivity|].
  split; [|split; [reflexivity|]].
  - unfold wf_arr. cbn [shape data]. rewrite (flat_map_length_const _ _ _ _ w') by (intros; rewrite map_length, seq_length; reflexivity).
    rewrite seq_length. cbn. lia.
  - cbn [data]. intros x I. apply in_flat_map in I. destruct I as (i & I & J). apply in_map_iff in J. destruct J as (j & <- & J).
    apply in_seq in I, J. apply C, nth_In. unfold wf_arr in W. rewrite W, S. cbn.
    assert (i * h / h' < h) by (apply Nat.div_lt_upper_bound; nia).
    assert (j * w / w' < w) by (apply Nat.div_lt_upper_bound; nia). nia.
Qed.

Example exL_converted :
  let a := mkArr [2; 2; 2] [3; 1; 3; 1; 3; 1; 3; 1]%Q in
  let im := mkArr [2; 2] [0; 0; 0; 0]%Q in
  uniform 2 2 3 1 a /\
  exists d, pack exL_pil a im im 4 6 = Ok d /\
    bind (load_file (mat_loader exL_pil (mkMat (fun _ => Ok d) (fun _ => false) (fun _ => Err ValueError)) true 2 4) "p.mat")
      (fun sd => Ok (map Qred (data (sd_flow sd)))) = Ok [6; 1; 6; 1; 6; 1; 6; 1; 6; 1; 6; 1; 6; 1; 6; 1]%Q.
Proof.
  split.
  - split; [reflexivity|]. split; [reflexivity|]. intros i j I J.
    destruct i as [|[|i]]; [| |lia]; (destruct j as [|[|j]]; [| |lia]); split; reflexivity.
  - eexists. split; [vm_compute; reflexivity|]. vm_compute; reflexivity.
Qed.
