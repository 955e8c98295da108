(** C122: the format of a .mat file. *)
From Coq Require Import List Arith ZArith String Ascii Bool QArith Lia.
From Verif Require Import Prelude Model.Base Model.Files Model.Loaders Model.MatFile.
From Verif Require Import Spec.LoaderSpec Spec.MatFileSpec Proofs.LoaderProofs Proofs.MatFileProofs.
Import ListNotations.
Local Open Scope string_scope.
Local Open Scope nat_scope.

(** Every dataset of an HDF5 file is found under the names on the way to it,
    joined by slashes, and nothing else is. *)
Theorem C122_tree : forall root k v, tree_ok (HGroup root) ->
  (lookup k (h5_dict root) = Some v <-> exists ns, reaches (HGroup root) ns v /\ k = String.concat "/" ns).
Proof. exact tree_lookup. Qed.
Print Assumptions C122_tree.

Lemma V_name : no_slash "V". Proof. intros [|i]; cbn; [discriminate|destruct i; discriminate]. Qed.
Lemma I0_name : no_slash "I0". Proof. intros [|[|i]]; cbn; [discriminate|discriminate|destruct i; discriminate]. Qed.
Lemma I1_name : no_slash "I1". Proof. intros [|[|i]]; cbn; [discriminate|discriminate|destruct i; discriminate]. Qed.

Lemma hdf5_stored : forall user f p root d, f p = Hdf5 root -> stored (disk_of user f) p d -> d = h5_dict root.
Proof.
  intros user f p root d F [H|[_ [_ H]]]; cbn [disk_of m_scipy m_h5] in H; rewrite F in H.
  - destruct (user p); discriminate.
  - inversion H. reflexivity.
Qed.

(** An HDF5 file is loaded only if its flow, and the pictures when asked for,
    are arrays at the top of the tree. *)
Theorem C122_top : forall r user f p root inc oh ow d, tree_ok (HGroup root) -> f p = Hdf5 root -> load_file (mat_loader r (disk_of user f) inc oh ow) p = Ok d ->
  (exists a, In ("V", HData (MArr a)) root) /\
  (inc = true -> (exists a, In ("I0", HData (MArr a)) root) /\ (exists a, In ("I1", HData (MArr a)) root)).
Proof.
  intros r user f p root inc oh ow d T F L.
  destruct (mat_load_inv r (disk_of user f) inc oh ow p d L) as [dict [v [S [LV [MF [_ [_ [_ IM]]]]]]]].
  pose proof (hdf5_stored user f p root dict F S) as E. subst dict. split.
  - destruct v as [a|]; [|discriminate MF]. exists a. apply (top_lookup root "V" _ T V_name), LV.
  - intro I. destruct (IM I) as [i0 [i1 [a0 [a1 [L0 [L1 [M0 [M1 _]]]]]]]]. split.
    + destruct i0 as [a|]; [|discriminate M0]. exists a. apply (top_lookup root "I0" _ T I0_name), L0.
    + destruct i1 as [a|]; [|discriminate M1]. exists a. apply (top_lookup root "I1" _ T I1_name), L1.
Qed.

Lemma load_dict : forall r user f p dict oh ow V I0 I1,
  (match m_scipy (disk_of user f) p with
   | Ok d => Ok d
   | Err NotImplementedError | Err ValueError =>
       if m_is_h5 (disk_of user f) p then m_h5 (disk_of user f) p else Err ValueError
   | Err e => Err e
   end) = Ok dict ->
  lookup "V" dict = Some (MArr V) -> lookup "I0" dict = Some (MArr I0) -> lookup "I1" dict = Some (MArr I1) ->
  shape I0 = [oh; ow] -> shape I1 = [oh; ow] ->
  load_file (mat_loader r (disk_of user f) true oh ow) p = bind (mat_flow r oh ow (MArr V)) (fun fl => Ok (mkSD fl (Some I0) (Some I1) None (Some [p]))).
Proof.
  intros r user f p dict oh ow V I0 I1 D LV L0 L1 S0 S1. cbn [mat_loader load_file]. unfold mat_load. rewrite D. cbn [bind].
  rewrite LV, L0, L1. unfold mat_image. rewrite S0, S1. cbn [head2_is]. rewrite !Nat.eqb_refl. cbn [andb bind].
  reflexivity.
Qed.

Lemma flow_kept : forall r oh ow V, shape V = [oh; ow; 2] -> mat_flow r oh ow (MArr V) = Ok V.
Proof.
  intros r oh ow V S. unfold mat_flow. rewrite S. cbn [nth_error nth]. cbn [Nat.eqb orb negb bind]. rewrite S.
  cbn [head2_is]. rewrite !Nat.eqb_refl. reflexivity.
Qed.

(** Variables of a file up to v7.2 arrive as they are. *)
Theorem C122_legacy : forall r user f p vars H W V I0 I1, f p = Legacy vars -> NoDup (map fst vars) ->
  In ("V", MArr V) vars -> In ("I0", MArr I0) vars -> In ("I1", MArr I1) vars ->
  shape V = [H; W; 2] -> shape I0 = [H; W] -> shape I1 = [H; W] -> 1 < H -> 1 < W ->
  load_file (mat_loader r (disk_of user f) true H W) p = Ok (mkSD V (Some I0) (Some I1) None (Some [p])).
Proof.
  intros r user f p vars H W V I0 I1 F N IV II0 II1 SV S0 S1 PH PW.
  rewrite (load_dict r user f p (legacy_dict vars) H W V I0 I1).
  - rewrite (flow_kept r H W V SV). reflexivity.
  - cbn [disk_of m_scipy]. rewrite F. reflexivity.
  - rewrite (legacy_lookup vars "V" _ N eq_refl IV). f_equal.
    apply squeeze_id; rewrite SV; [|discriminate]. repeat (constructor; [lia|]). constructor.
  - rewrite (legacy_lookup vars "I0" _ N eq_refl II0). f_equal.
    apply squeeze_id; rewrite S0; [|discriminate]. repeat (constructor; [lia|]). constructor.
  - rewrite (legacy_lookup vars "I1" _ N eq_refl II1). f_equal.
    apply squeeze_id; rewrite S1; [|discriminate]. repeat (constructor; [lia|]). constructor.
  - exact S0.
  - exact S1.
Qed.

(** A flow with one row or one column cannot be read from such a file. *)
Theorem C122_thin : forall r user f p vars V H W inc oh ow, f p = Legacy vars -> NoDup (map fst vars) ->
  In ("V", MArr V) vars -> shape V = [H; W; 2] -> H = 1 \/ W = 1 -> exists e, load_file (mat_loader r (disk_of user f) inc oh ow) p = Err e.
Proof.
  intros r user f p vars V H W inc oh ow F N IV SV D. destruct (load_file (mat_loader r (disk_of user f) inc oh ow) p) as [d|e] eqn:L; [|exists e; reflexivity].
  exfalso. destruct (mat_load_inv r (disk_of user f) inc oh ow p d L) as [dict [v [S [LV [MF _]]]]].
  assert (E : dict = legacy_dict vars).
  { destruct S as [S|[[S|S] _]]; cbn [disk_of m_scipy] in S; rewrite F in S; congruence. }
  subst dict. rewrite (legacy_lookup vars "V" _ N eq_refl IV) in LV. inversion LV as [E]. subst v. clear LV.
  unfold squeeze in MF. destruct (size (shape V) =? 0); [discriminate MF|]. rewrite SV in MF.
  destruct D as [D|D]; subst; cbn [filter Nat.eqb negb] in MF;
    [destruct (Nat.eqb W 1)|destruct (Nat.eqb H 1)]; discriminate MF.
Qed.

Lemma hdf5_dict : forall user f p root, f p = Hdf5 root ->
  (match m_scipy (disk_of user f) p with
   | Ok d => Ok d
   | Err NotImplementedError | Err ValueError =>
       if m_is_h5 (disk_of user f) p then m_h5 (disk_of user f) p else Err ValueError
   | Err e => Err e
   end) = Ok (h5_dict root).
Proof. intros user f p root F. cbn [disk_of m_scipy m_is_h5 m_h5]. rewrite F. destruct (user p); reflexivity. Qed.

(** Arrays written with h5py arrive as they are. *)
Theorem C122_h5py : forall r user f p root H W V I0 I1, f p = Hdf5 root -> tree_ok (HGroup root) ->
  In ("V", HData (MArr V)) root -> In ("I0", HData (MArr I0)) root -> In ("I1", HData (MArr I1)) root ->
  shape V = [H; W; 2] -> shape I0 = [H; W] -> shape I1 = [H; W] ->
  load_file (mat_loader r (disk_of user f) true H W) p = Ok (mkSD V (Some I0) (Some I1) None (Some [p])).
Proof.
  intros r user f p root H W V I0 I1 F T IV II0 II1 SV S0 S1.
  rewrite (load_dict r user f p (h5_dict root) H W V I0 I1 (hdf5_dict user f p root F)).
  - rewrite (flow_kept r H W V SV). reflexivity.
  - apply (top_lookup root "V" _ T V_name), IV.
  - apply (top_lookup root "I0" _ T I0_name), II0.
  - apply (top_lookup root "I1" _ T I1_name), II1.
  - exact S0.
  - exact S1.
Qed.

(** The same variables written by MATLAB as v7.3 arrive with rows and columns
    exchanged; the two components of the flow are not exchanged. *)
Theorem C122_v73 : forall r user f p root H W V I0 I1 rV r0 r1, f p = Hdf5 root -> tree_ok (HGroup root) ->
  In ("V", HData (MArr rV)) root -> In ("I0", HData (MArr r0)) root -> In ("I1", HData (MArr r1)) root ->
  by_columns V rV -> by_columns I0 r0 -> by_columns I1 r1 ->
  shape V = [H; W; 2] -> shape I0 = [H; W] -> shape I1 = [H; W] -> H <> 2 ->
  exists fl a0 a1, load_file (mat_loader r (disk_of user f) true W H) p = Ok (mkSD fl (Some a0) (Some a1) None (Some [p])) /\
    shape fl = [W; H; 2] /\ shape a0 = [W; H] /\ shape a1 = [W; H] /\
    forall y x, y < H -> x < W ->
      (forall k, k < 2 -> elt fl [x; y; k] = elt V [y; x; k]) /\
      elt a0 [x; y] = elt I0 [y; x] /\ elt a1 [x; y] = elt I1 [y; x].
Proof.
  intros r user f p root H W V I0 I1 rV r0 r1 F T IV II0 II1 [WV [SV EV]] [W0 [S0 E0]] [W1 [S1 E1]] SHV SH0 SH1 NH.
  rewrite SHV in SV. rewrite SH0 in S0. rewrite SH1 in S1. cbn in SV, S0, S1.
  exists (tab3 W H 2 (fun y x k => elt rV [k; y; x])), r0, r1. split.
  { rewrite (load_dict r user f p (h5_dict root) W H rV r0 r1 (hdf5_dict user f p root F)).
    - unfold mat_flow. rewrite SV. cbn [nth_error nth]. destruct (Nat.eqb_spec H 2) as [X|X]; [contradiction|].
      cbn [Nat.eqb orb negb]. rewrite (transpose_wf rV 2 W H SV). cbn [bind]. cbn [tab3 shape head2_is].
      rewrite !Nat.eqb_refl. cbn [andb bind]. reflexivity.
    - apply (top_lookup root "V" _ T V_name), IV.
    - apply (top_lookup root "I0" _ T I0_name), II0.
    - apply (top_lookup root "I1" _ T I1_name), II1.
    - exact S0.
    - exact S1. }
  split; [reflexivity|]. split; [exact S0|]. split; [exact S1|]. intros y x Hy Hx. split; [|split].
  - intros k Hk. rewrite (tab3_elt W H 2 _ x y k Hx Hy Hk).
    apply (EV [y; x; k]). rewrite SHV. repeat (apply Forall2_cons; [assumption|]); apply Forall2_nil.
  - apply (E0 [y; x]). rewrite SH0. repeat (apply Forall2_cons; [assumption|]); apply Forall2_nil.
  - apply (E1 [y; x]). rewrite SH1. repeat (apply Forall2_cons; [assumption|]); apply Forall2_nil.
Qed.

(** Pictures that move as the flow says still do when they are read from a
    file up to v7.2; from v7.3 they move by the exchanged components. *)
Theorem C122_motion_legacy : forall r user f p vars H W V I0 I1 u v d, f p = Legacy vars -> NoDup (map fst vars) ->
  In ("V", MArr V) vars -> In ("I0", MArr I0) vars -> In ("I1", MArr I1) vars ->
  shape I0 = [H; W] -> shape I1 = [H; W] -> 1 < H -> 1 < W -> says H W V u v -> moved H W I0 I1 u v ->
  load_file (mat_loader r (disk_of user f) true H W) p = Ok d ->
  exists a0 a1, sd_im1 d = Some a0 /\ sd_im2 d = Some a1 /\ says H W (sd_flow d) u v /\ moved H W a0 a1 u v.
Proof.
  intros r user f p vars H W V I0 I1 u v d F N IV II0 II1 S0 S1 PH PW SY MV L.
  rewrite (C122_legacy r user f p vars H W V I0 I1 F N IV II0 II1 (proj1 SY) S0 S1 PH PW) in L. inversion L; subst d.
  exists I0, I1. auto.
Qed.

Theorem C122_motion_v73 : forall r user f p root H W V I0 I1 rV r0 r1 u v d, f p = Hdf5 root -> tree_ok (HGroup root) ->
  In ("V", HData (MArr rV)) root -> In ("I0", HData (MArr r0)) root -> In ("I1", HData (MArr r1)) root ->
  by_columns V rV -> by_columns I0 r0 -> by_columns I1 r1 -> shape I0 = [H; W] -> shape I1 = [H; W] -> H <> 2 ->
  says H W V u v -> moved H W I0 I1 u v -> load_file (mat_loader r (disk_of user f) true W H) p = Ok d ->
  exists a0 a1, sd_im1 d = Some a0 /\ sd_im2 d = Some a1 /\ says W H (sd_flow d) u v /\ moved W H a0 a1 v u.
Proof.
  intros r user f p root H W V I0 I1 rV r0 r1 u v d F T IV II0 II1 BV B0 B1 S0 S1 NH SY MV L.
  destruct (C122_v73 r user f p root H W V I0 I1 rV r0 r1 F T IV II0 II1 BV B0 B1 (proj1 SY) S0 S1 NH)
    as [fl [a0 [a1 [L' [SF [SA0 [SA1 EQ]]]]]]].
  rewrite L' in L. inversion L; subst d. exists a0, a1. cbn [sd_im1 sd_im2 sd_flow].
  split; [reflexivity|]. split; [reflexivity|]. split.
  - split; [exact SF|]. intros x y Hx Hy. destruct (EQ y x Hy Hx) as [EF _].
    rewrite (EF 0), (EF 1) by lia. exact (proj2 SY y x Hy Hx).
  - intros x y x' y' Hx Hy Hx' Hy' Ex Ey.
    rewrite (proj1 (proj2 (EQ y x Hy Hx))), (proj2 (proj2 (EQ y' x' Hy' Hx'))).
    apply (MV y x y' x'); assumption.
Qed.
Print Assumptions C122_top.
Print Assumptions C122_legacy.
Print Assumptions C122_thin.
Print Assumptions C122_h5py.
Print Assumptions C122_v73.
Print Assumptions C122_motion_legacy.
Print Assumptions C122_motion_v73.

(** A bright pixel that moves one to the right, saved by MATLAB. *)
Definition exM_V : arr := mkArr [3; 3; 2] (flat_map (fun _ => [1; 0]%Q) (seq 0 9)).
Definition exM_I0 : arr := mkArr [3; 3] [0; 0; 0; 5; 0; 0; 0; 0; 0]%Q.
Definition exM_I1 : arr := mkArr [3; 3] [0; 0; 0; 0; 5; 0; 0; 0; 0]%Q.
Definition exM_rV : arr := mkArr [2; 3; 3] (repeat 1 9 ++ repeat 0 9)%Q%list.
Definition exM_r0 : arr := mkArr [3; 3] [0; 5; 0; 0; 0; 0; 0; 0; 0]%Q.
Definition exM_r1 : arr := mkArr [3; 3] [0; 0; 0; 0; 5; 0; 0; 0; 0]%Q.
Definition exM_root : list (string * h5item) :=
  [("I0", HData (MArr exM_r0)); ("I1", HData (MArr exM_r1)); ("V", HData (MArr exM_rV));
   ("info", HGroup [("V", HData MOther)])].
Definition exM_vars : list (string * mat_val) := [("V", MArr exM_V); ("I0", MArr exM_I0); ("I1", MArr exM_I1)].

Lemma below3 : forall n, n < 3 -> n = 0 \/ n = 1 \/ n = 2. Proof. lia. Qed.

Example exM_motion : says 3 3 exM_V 1 0 /\ moved 3 3 exM_I0 exM_I1 1 0.
Proof.
  split.
  - split; [reflexivity|]. intros y x Hy Hx.
    destruct (below3 y Hy) as [->|[->| ->]]; destruct (below3 x Hx) as [->|[->| ->]]; split; reflexivity.
  - intros y x y' x' Hy Hx Hy' Hx' Ey Ex. assert (y' = y) by lia. assert (x' = S x) by lia. subst.
    destruct (below3 y Hy) as [->|[->| ->]]; destruct (below3 x Hx) as [->|[->| ->]]; try reflexivity; lia.
Qed.

Lemma lt3 : forall idx a b c, Forall2 lt idx [a; b; c] -> exists i j k, idx = [i; j; k] /\ i < a /\ j < b /\ k < c.
Proof.
  intros idx a b c H. inversion H as [|i ? l ? Hi H1]; subst. inversion H1 as [|j ? l1 ? Hj H2]; subst.
  inversion H2 as [|k ? l2 ? Hk H3]; subst. inversion H3; subst. exists i, j, k. auto.
Qed.
Lemma lt2 : forall idx a b, Forall2 lt idx [a; b] -> exists i j, idx = [i; j] /\ i < a /\ j < b.
Proof.
  intros idx a b H. inversion H as [|i ? l ? Hi H1]; subst. inversion H1 as [|j ? l1 ? Hj H2]; subst.
  inversion H2; subst. exists i, j. auto.
Qed.

Example exM_saved : by_columns exM_V exM_rV /\ by_columns exM_I0 exM_r0 /\ by_columns exM_I1 exM_r1.
Proof.
  split; [|split]; (split; [reflexivity|]; split; [reflexivity|]); intros idx L.
  - destruct (lt3 _ _ _ _ L) as [i [j [k [-> [Hi [Hj Hk]]]]]].
    destruct (below3 i Hi) as [->|[->| ->]]; destruct (below3 j Hj) as [->|[->| ->]];
      (assert (K : k = 0 \/ k = 1) by lia; destruct K as [->| ->]); reflexivity.
  - destruct (lt2 _ _ _ L) as [i [j [-> [Hi Hj]]]].
    destruct (below3 i Hi) as [->|[->| ->]]; destruct (below3 j Hj) as [->|[->| ->]]; reflexivity.
  - destruct (lt2 _ _ _ L) as [i [j [-> [Hi Hj]]]].
    destruct (below3 i Hi) as [->|[->| ->]]; destruct (below3 j Hj) as [->|[->| ->]]; reflexivity.
Qed.

Lemma short_name : forall a b, a <> "/"%char -> b <> "/"%char -> name_ok (String a (String b "")).
Proof.
  intros a b A B. split; [discriminate|]. intros [|[|i]]; cbn; [congruence|congruence|destruct i; discriminate].
Qed.

Example exM_tree : tree_ok (HGroup exM_root).
Proof.
  constructor.
  - repeat (constructor; [cbn; intuition discriminate|]). constructor.
  - intros n i [E|[E|[E|[E|[]]]]]; inversion E; subst.
    + split; [apply short_name; discriminate|constructor].
    + split; [apply short_name; discriminate|constructor].
    + split; [split; [discriminate|exact V_name]|constructor].
    + split.
      * split; [discriminate|]. intros [|[|[|[|[|j]]]]]; cbn; discriminate.
      * constructor; [constructor; [intros []|constructor]|].
        intros n i [X|[]]. inversion X; subst. split; [split; [discriminate|exact V_name]|constructor].
Qed.

Example exM_nested : reaches (HGroup exM_root) ["info"; "V"] MOther /\ lookup "info/V" (h5_dict exM_root) = Some MOther.
Proof.
  assert (R : reaches (HGroup exM_root) ["info"; "V"] MOther).
  { apply r_down with (i := HGroup [("V", HData MOther)]); [right; right; right; left; reflexivity|].
    apply r_down with (i := HData MOther); [left; reflexivity|constructor]. }
  split; [exact R|]. apply (C122_tree exM_root _ _ exM_tree). exists ["info"; "V"]. split; [exact R|reflexivity].
Qed.

Example exM_legacy : forall r user f, f "a.mat" = Legacy exM_vars ->
  load_file (mat_loader r (disk_of user f) true 3 3) "a.mat" = Ok (mkSD exM_V (Some exM_I0) (Some exM_I1) None (Some ["a.mat"])).
Proof.
  intros r user f F.
  apply (C122_legacy r user f "a.mat" exM_vars 3 3 exM_V exM_I0 exM_I1 F); try reflexivity; try lia.
  - repeat (constructor; [cbn; intuition discriminate|]). constructor.
  - left; reflexivity.
  - right; left; reflexivity.
  - right; right; left; reflexivity.
Qed.

Example exM_thin : forall r user f, f "a.mat" = Legacy [("V", MArr (mkArr [1; 3; 2] (repeat 1%Q 6)))] ->
  exists e, load_file (mat_loader r (disk_of user f) false 1 3) "a.mat" = Err e.
Proof.
  intros r user f F.
  apply (C122_thin r user f "a.mat" _ (mkArr [1; 3; 2] (repeat 1%Q 6)) 1 3 false 1 3 F); [|left; reflexivity|reflexivity|left; reflexivity].
  constructor; [intros []|constructor].
Qed.

(** From v7.3, pictures and flow as MATLAB has them do not stay together. *)
Theorem C122_motion_refuted : exists f root V I0 I1 rV r0 r1 u v,
  f "a.mat" = Hdf5 root /\ tree_ok (HGroup root) /\
  In ("V", HData (MArr rV)) root /\ In ("I0", HData (MArr r0)) root /\ In ("I1", HData (MArr r1)) root /\
  by_columns V rV /\ by_columns I0 r0 /\ by_columns I1 r1 /\ says 3 3 V u v /\ moved 3 3 I0 I1 u v /\
  forall r user, exists d a0 a1, load_file (mat_loader r (disk_of user f) true 3 3) "a.mat" = Ok d /\
    sd_im1 d = Some a0 /\ sd_im2 d = Some a1 /\ says 3 3 (sd_flow d) u v /\ ~ moved 3 3 a0 a1 u v.
Proof.
  exists (fun _ => Hdf5 exM_root), exM_root, exM_V, exM_I0, exM_I1, exM_rV, exM_r0, exM_r1, 1%Z, 0%Z.
  destruct exM_motion as [SY MV]. destruct exM_saved as [BV [B0 B1]].
  assert (IV : In ("V", HData (MArr exM_rV)) exM_root) by (right; right; left; reflexivity).
  assert (II0 : In ("I0", HData (MArr exM_r0)) exM_root) by (left; reflexivity).
  assert (II1 : In ("I1", HData (MArr exM_r1)) exM_root) by (right; left; reflexivity).
  split; [reflexivity|]. split; [exact exM_tree|]. do 8 (split; [assumption|]). intros r user.
  destruct (C122_v73 r user (fun _ => Hdf5 exM_root) "a.mat" exM_root 3 3 exM_V exM_I0 exM_I1 exM_rV exM_r0 exM_r1
              eq_refl exM_tree IV II0 II1 BV B0 B1 eq_refl eq_refl eq_refl ltac:(discriminate))
    as [fl [a0 [a1 [L [SF [S0 [S1 EQ]]]]]]].
  exists (mkSD fl (Some a0) (Some a1) None (Some ["a.mat"])), a0, a1. split; [exact L|].
  split; [reflexivity|]. split; [reflexivity|]. split.
  - split; [exact SF|]. intros x y Hx Hy. destruct (EQ y x Hy Hx) as [EF _]. cbn [sd_flow].
    rewrite (EF 0), (EF 1) by lia. exact (proj2 SY y x Hy Hx).
  - intro M. specialize (M 0 1 0 2 ltac:(lia) ltac:(lia) ltac:(lia) ltac:(lia) eq_refl eq_refl).
    destruct (EQ 2 0 ltac:(lia) ltac:(lia)) as [_ [_ X]]. destruct (EQ 1 0 ltac:(lia) ltac:(lia)) as [_ [Y _]].
    rewrite X, Y in M. discriminate M.
Qed.
Print Assumptions C122_motion_refuted.
