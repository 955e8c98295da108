(** Loader properties composed with the scheduler, as stated in
    Properties/LoaderProps.v. *)
From Coq Require Import List Arith ZArith Lia String Bool QArith Permutation.
From Verif Require Import Prelude Model.Base Model.Files Model.Loaders.
From Verif Require Import Spec.BaseSpec Spec.LoaderSpec Spec.FilesSpec.
From Verif Require Import Proofs.BaseProofs Proofs.BaseBatch Proofs.BaseRun Proofs.BaseLoop
  Proofs.BaseFinal Proofs.LoaderProofs Proofs.FilesProofs.
Import ListNotations.
Local Open Scope nat_scope.

(** Per-call results without any assumption on shapes. *)
Lemma run_finish : forall c C (HD : disk (c_loader c) C) fuel ns s xs,
  c_loop c = false -> Inv c C s -> List.length (s_files s) < fuel ->
  pending C s = map Good xs ->
  forall j n, nth_error ns j = Some n ->
    nth_error (fst (run c fuel (gets ns) s)) j =
    Some (ORes (finish n (firstn n (skipn (sum (firstn j ns)) xs)) None)).
Proof.
  intros c C HD fuel ns; induction ns as [|m ns IH]; intros s xs HL HI Hf Hp j n Hj.
  - destruct j; discriminate.
  - destruct (get_batch_noloop c C HD fuel m s HL HI Hf) as [s1 [A1 [A2 [A3 [A4 A5]]]]].
    { intros l r. rewrite Hp, pull_good. discriminate. }
    rewrite Hp, pull_good in A4, A5. cbn [fst snd] in A4, A5.
    cbn [gets map run do_op]. rewrite A5.
    destruct j as [|j].
    + cbn [nth_error] in Hj. inversion Hj; subst m. cbn [firstn sum fold_right skipn].
      destruct (run c fuel (map OGet ns) s1); reflexivity.
    + cbn [nth_error] in Hj.
      assert (Hf1 : List.length (s_files s1) < fuel) by (rewrite A2; exact Hf).
      specialize (IH s1 (skipn m xs) HL A1 Hf1 A4 j n Hj).
      unfold gets in IH. destruct (run c fuel (map OGet ns) s1) as [rs s2]. cbn [fst nth_error] in *.
      rewrite IH. cbn [firstn sum fold_right]. fold (sum (firstn j ns)).
      rewrite skipn_skipn'. reflexivity.
Qed.

Lemma init_run_finish : forall c C fl k ns fuel,
  disk (c_loader c) C -> c_loop c = false -> c_randomize c = false ->
  no_adjacent_equal fl -> no_faults C fl -> List.length fl < fuel ->
  forall j n, nth_error ns j = Some n ->
    nth_error (fst (run c fuel (gets ns) (init c fl k))) j =
    Some (ORes (finish n (firstn n (skipn (sum (firstn j ns)) (epoch C fl))) None)).
Proof.
  intros c C fl k ns fuel HD HL HR HA HF Hf j n Hj.
  apply (run_finish c C HD); auto.
  - apply init_inv.
  - rewrite init_files; auto.
  - apply init_pending; auto.
Qed.

(** ** HDF5 *)

Lemma flat_map_eq_in : forall A B (f g : A -> list B) l,
  (forall x, In x l -> f x = g x) -> flat_map f l = flat_map g l.
Proof. exact flat_map_ext_in. Qed.

Lemma h5_stream : forall d c fl k ns fuel X Z Ch,
  c_loader c = h5_loader d -> c_loop c = false -> c_randomize c = false ->
  no_adjacent_equal fl -> List.length fl < fuel ->
  (forall p, In p fl -> exists a Y, d p = H5Data a /\ wf_arr a /\ shape a = [X; Y; Z; Ch]) ->
  received (fst (run c fuel (gets ns) (init c fl k))) =
  map slice_row (firstn (sum ns)
    (flat_map (fun p => match d p with H5Data a => planes p a | _ => [] end) fl)).
Proof.
  intros d c fl k ns fuel X Z Ch Hc HL HR HA Hf HS.
  assert (HC : forall p, In p fl -> exists a, d p = H5Data a /\ h5_content d p = Slices (planes p a) /\
            exists Y, shape a = [X; Y; Z; Ch]).
  { intros p Hp. destruct (HS p Hp) as [a [Y [H1 [H2 H3]]]]. exists a. split; auto. split; eauto.
    eapply h5_content_planes; eauto. }
  rewrite (finite_rows c (h5_content d)); auto.
  - f_equal. f_equal. unfold epoch. apply flat_map_eq_in. intros p Hp.
    destruct (HC p Hp) as [a [H1 [H2 _]]]. unfold slices_of. rewrite H1, H2. reflexivity.
  - rewrite Hc. apply h5_disk.
  - intros p l e Hp Hq. destruct (HC p Hp) as [a [_ [H2 _]]]. rewrite H2 in Hq. discriminate.
  - exists [X; Z; Ch], [0; 0], [0; 0]. split; [reflexivity|]. split; [reflexivity|]. split; [reflexivity|].
    intros x Hx. apply in_flat_map in Hx. destruct Hx as [p [Hp Hx]].
    destruct (HC p Hp) as [a [H1 [H2 [Y HY]]]]. unfold slices_of in Hx. rewrite H2 in Hx.
    unfold planes in Hx. apply in_map_iff in Hx. destruct Hx as [y [<- _]].
    constructor; cbn [sd_flow sd_im1 sd_im2 sd_files].
    + unfold plane. rewrite HY. split; [apply tab3_wf|reflexivity].
    + discriminate.
    + discriminate.
    + eauto.
Qed.

(** ** NumPy with pictures *)

Lemma nth_error_ext : forall A (l m : list A),
  (forall i, nth_error l i = nth_error m i) -> l = m.
Proof.
  induction l as [|x l IH]; intros [|y m] H; auto.
  - specialize (H 0); discriminate.
  - specialize (H 0); discriminate.
  - pose proof (H 0) as H0. inversion H0; subst. f_equal. apply IH. intro i. exact (H (S i)).
Qed.


Lemma npy_epoch_images : forall npy jpg F h w fl,
  (forall p, In p fl -> npy_with_images npy jpg F h w p) ->
  List.length (epoch (npy_content true npy jpg) fl) = List.length fl /\
  (forall i p, nth_error fl i = Some p -> exists x,
     nth_error (epoch (npy_content true npy jpg) fl) i = Some x /\
     sd_files x = Some [p]) /\
  forall x, In x (epoch (npy_content true npy jpg) fl) ->
    stackable F [h; w; 3] [h; w; 3] x /\ sd_im1 x <> None /\ sd_im2 x <> None.
Proof.
  intros npy jpg F h w fl; induction fl as [|p fl IH]; intros H.
  - split; auto. split; [intros [|i] p Hp; discriminate|]. intros x [].
  - destruct IH as [I1 [I2 I3]]; [intros; apply H; right; auto|].
    destruct (npy_content_images npy jpg F h w p (H p (or_introl eq_refl))) as [x [i0 [i1 [Hc [Hs [Hi0 Hi1]]]]]].
    unfold epoch in *. cbn [flat_map]. unfold slices_of at 1 3 5. rewrite Hc. cbn [app List.length].
    split; [rewrite I1; reflexivity|]. split.
    + intros [|i] q Hq; cbn [nth_error] in *; auto. inversion Hq; subst q. exists x. split; auto.
      destruct (H p (or_introl eq_refl)) as (a & t & j0 & j1 & Ha & _).
      unfold npy_content in Hc. rewrite Ha in Hc. unfold npy_slice in Hc. simpl in Hc.
      destruct (flow_number (basename p)); [|discriminate].
      destruct (jpg (img_path p (Z.of_nat n - 1))); [|discriminate].
      destruct (jpg (img_path p (Z.of_nat n))); [|discriminate].
      inversion Hc; reflexivity.
    + intros y [<-|Hy]; auto. split; auto. split; congruence.
Qed.

Lemma npy_images_calls : forall npy jpg c fl k ns fuel F h w,
  c_loader c = npy_loader true npy jpg -> c_loop c = false -> c_randomize c = false ->
  no_adjacent_equal fl -> List.length fl < fuel -> List.length F = 3 ->
  (forall p, In p fl -> npy_with_images npy jpg F h w p) ->
  forall j n, nth_error ns j = Some n -> 0 < n ->
    let left := List.length fl - sum (firstn j ns) in
    let r := nth_error (fst (run c fuel (gets ns) (init c fl k))) j in
    (n <= left -> exists b, r = Some (ORes (CReturn b)) /\ nrows (sd_flow b) = n /\
       sd_files b = Some (firstn n (skipn (sum (firstn j ns)) fl)) /\
       sd_im1 b <> None /\ sd_im2 b <> None) /\
    (0 < left < n -> r = Some (ORes (CRaise ValueError))) /\
    (left = 0 -> r = Some (ORes (CRaise StopIteration))).
Proof.
  intros npy jpg c fl k ns fuel F h w Hc HL HR HA Hf HF HS j n Hj Hn left r.
  set (C := npy_content true npy jpg).
  destruct (npy_epoch_images npy jpg F h w fl HS) as [E1 [E2 E3]]. fold C in E1, E2, E3.
  assert (HNF : no_faults C fl).
  { intros p l e Hp Hq. destruct (npy_content_images npy jpg F h w p (HS p Hp)) as [x [_ [_ [Hx _]]]].
    unfold C in Hq. rewrite Hx in Hq. discriminate. }
  assert (Hr : r = Some (ORes (finish n (firstn n (skipn (sum (firstn j ns)) (epoch C fl))) None))).
  { apply init_run_finish; auto. rewrite Hc. apply npy_disk. }
  rewrite Hr. clear r Hr. set (off := sum (firstn j ns)) in *.
  set (seg := firstn n (skipn off (epoch C fl))).
  assert (Hlen : List.length seg = Nat.min n left).
  { unfold seg. rewrite firstn_length, skipn_length, E1. reflexivity. }
  assert (Hin : forall x, In x seg -> In x (epoch C fl)).
  { intros x Hx. eapply in_skipn. eapply in_firstn. exact Hx. }
  split; [|split]; intro Hcase.
  - assert (Hl : List.length seg = n) by lia.
    assert (Hne : seg <> []) by (intro E; rewrite E in Hl; simpl in Hl; lia).
    destruct (assemble_ok F [h; w; 3] [h; w; 3] false n seg) as [b [Hb1 Hb2]]; auto; try lia; try discriminate.
    { intros x Hx. apply E3. auto. }
    exists b. unfold finish. rewrite Hb1. destruct seg as [|x0 seg'] eqn:Es; [congruence|].
    rewrite <- Es in *. clear x0 seg' Es.
    split; [reflexivity|]. split; [apply (bo_rows _ _ _ Hb2)|]. split; [|split].
    + destruct (bo_files _ _ _ Hb2) as [fs [Hfs [Lf [Sf _]]]]. rewrite Hfs. f_equal.
      apply nth_error_ext. intro i. destruct (Nat.lt_ge_cases i n) as [Hi|Hi].
      * assert (exists x, nth_error seg i = Some x) as [x Hx].
        { destruct (nth_error seg i) eqn:E; eauto. apply nth_error_None in E. lia. }
        destruct (Sf i x Hx) as [f [Hf1 Hf2]]. rewrite Hf2.
        unfold seg in Hx. rewrite nth_error_firstn_lt, nth_error_skipn' in Hx by lia.
        rewrite nth_error_firstn_lt, nth_error_skipn' by lia.
        destruct (nth_error fl (off + i)) as [p|] eqn:Ep.
        2: { apply nth_error_None in Ep. unfold left in Hcase. lia. }
        destruct (E2 _ _ Ep) as [y [Hy1 Hy2]]. congruence.
      * rewrite (proj2 (nth_error_None _ _)) by lia. symmetry. apply nth_error_None.
        rewrite firstn_length, skipn_length. unfold left in Hcase. lia.
    + intro E. apply (bo_im1_none _ _ _ Hb2) in E. destruct E as [x [Hx Hx']].
      apply (proj1 (proj2 (E3 x (Hin x Hx)))). exact Hx'.
    + intro E. apply (bo_im2_none _ _ _ Hb2) in E. destruct E as [x [Hx Hx']].
      apply (proj2 (proj2 (E3 x (Hin x Hx)))). exact Hx'.
  - assert (Hne : seg <> []) by (intro E; rewrite E in Hlen; simpl in Hlen; lia).
    unfold finish. rewrite (assemble_err F [h; w; 3] [h; w; 3] false n seg); auto.
    + destruct seg; [congruence|reflexivity].
    + lia.
    + intros x Hx. apply E3; auto.
    + right; left. split; [simpl; lia|]. intros x Hx. apply E3; auto.
  - assert (Hs : seg = []) by (destruct seg; [auto|simpl in Hlen; lia]). rewrite Hs. reflexivity.
Qed.

(** ** Mixed shapes *)

Lemma np_stack_mixed : forall l a b, In a l -> In b l -> shape a <> shape b -> np_stack l = Err ValueError.
Proof.
  intros l a b Ha Hb Hne. unfold np_stack. destruct l as [|x l]; [reflexivity|].
  destruct (forallb _ (x :: l)) eqn:E; [|reflexivity].
  rewrite forallb_forall in E. pose proof (E a Ha) as E1. pose proof (E b Hb) as E2.
  simpl in E1, E2. destruct (list_eq_dec _ (shape a) _); [|discriminate].
  destruct (list_eq_dec _ (shape b) _); [|discriminate]. congruence.
Qed.

Lemma np_stack_cases : forall l, np_stack l = Err ValueError \/ exists a, np_stack l = Ok a.
Proof. intros [|x l]; simpl; auto. destruct (_ && _); eauto. Qed.

Lemma assemble_mixed : forall loop n l x y,
  In x l -> In y l -> shape (sd_flow x) <> shape (sd_flow y) ->
  assemble loop n l = Err ValueError.
Proof.
  intros loop n l x y Hx Hy Hne. unfold assemble.
  assert (HS : forall m, stack_images m = Err ValueError \/ exists o, stack_images m = Ok o).
  { intro m. unfold stack_images. destruct (opt_all m) as [m'|]; eauto.
    destruct (np_stack_cases m') as [->|[a ->]]; simpl; eauto. }
  destruct (HS (map sd_im1 l)) as [->|[o1 ->]]; [reflexivity|].
  destruct (HS (map sd_im2 l)) as [->|[o2 ->]]; [reflexivity|]. cbn [bind].
  rewrite (np_stack_mixed _ (sd_flow x) (sd_flow y)); auto using in_map.
Qed.

Lemma mixed_shapes : forall c C fl k ns fuel,
  disk (c_loader c) C -> c_loop c = false -> c_randomize c = false ->
  no_adjacent_equal fl -> no_faults C fl -> List.length fl < fuel ->
  forall j n, nth_error ns j = Some n ->
    let seg := firstn n (skipn (sum (firstn j ns)) (epoch C fl)) in
    let r := nth_error (fst (run c fuel (gets ns) (init c fl k))) j in
    (forall x y, In x seg -> In y seg -> shape (sd_flow x) <> shape (sd_flow y) ->
       r = Some (ORes (CRaise ValueError))) /\
    (forall F I1 I2, seg <> [] -> List.length F = 3 -> List.length I1 = 2 -> List.length I2 = 2 ->
       (forall x, In x seg -> stackable F I1 I2 x) ->
       exists b, r = Some (ORes (CReturn b)) /\ batch_of n seg b).
Proof.
  intros c C fl k ns fuel HD HL HR HA HF Hf j n Hj seg r.
  assert (Hr : r = Some (ORes (finish n seg None))) by (apply init_run_finish; auto).
  rewrite Hr. split.
  - intros x y Hx Hy Hne. unfold finish. destruct seg as [|z seg'] eqn:E; [contradiction|].
    rewrite (assemble_mixed false n (z :: seg') x y Hx Hy Hne). reflexivity.
  - intros F I1 I2 Hne H3 H1 H2 HS.
    destruct (assemble_ok F I1 I2 false n seg) as [b [Hb1 Hb2]]; auto.
    + intros _. unfold paddable. auto.
    + unfold seg. rewrite firstn_length. lia.
    + discriminate.
    + exists b. split; auto. unfold finish. rewrite Hb1. destruct seg; [congruence|reflexivity].
Qed.

(** ** MAT *)

Lemma mat_flow_delivered : forall r m inc oh ow p d dict a,
  pil_ok r -> load_file (mat_loader r m inc oh ow) p = Ok d ->
  stored m p dict -> lookup "V" dict = Some (MArr a) -> wf_arr a -> List.length (shape a) = 3 ->
  forall x, get_next_slice (mat_loader r m inc oh ow) (Some d) (Some p) 0 = SItem x ->
  shape (sd_flow x) = [oh; ow; 2] /\ wf_arr (sd_flow x) /\
  (shape a = [oh; ow; 2] -> sd_flow x = a) /\
  (shape a = [2; oh; ow] -> ow <> 2 ->
     forall y z k, y < oh -> z < ow -> k < 2 -> elt (sd_flow x) [y; z; k] = elt a [k; y; z]).
Proof.
  intros r m inc oh ow p d dict a HP HL HS HV Hw H3 x Hx.
  cbn [mat_loader load_file get_next_slice] in HL, Hx.
  assert (Hfx : sd_flow x = sd_flow d).
  { unfold mat_slice in Hx. simpl in Hx. destruct inc; inversion Hx; reflexivity. }
  rewrite Hfx. clear x Hx Hfx.
  destruct (mat_load_inv _ _ _ _ _ _ _ HL) as [dict' [v [HS' [HV' [HM _]]]]].
  assert (dict' = dict).
  { destruct HS as [HS|[HS [_ HS2]]]; destruct HS' as [HS'|[HS' [_ HS2']]].
    - congruence.
    - destruct HS'; congruence.
    - destruct HS; congruence.
    - congruence. }
  subst dict'. rewrite HV in HV'. inversion HV'; subst v.
  destruct (mat_flow_spec r oh ow a (sd_flow d) HP Hw H3 HM) as [G1 [G2 [flow [H [W [G3 G4]]]]]].
  split; [exact G1|]. split; [exact G2|].
  assert (Hid : H = oh -> W = ow -> sd_flow d = flow).
  { intros -> ->. destruct G4 as [[_ [_ G4]]|[G4 _]]; [exact G4|congruence]. }
  split.
  - intro E. destruct G3 as [[G3 G5]|[G3 [G5 _]]]; rewrite E in G3; inversion G3; subst.
    + apply Hid; auto.
    + congruence.
  - intros E Hne y z k Hy Hz Hk. destruct G3 as [[G3 G5]|[G3 [G5 [G6 G7]]]]; rewrite E in G3; inversion G3; subst.
    + congruence.
    + rewrite Hid by auto. apply G7; auto.
Qed.

Lemma mat_flow_scaled : forall r m inc oh ow p d dict a H W,
  pil_ok r -> load_file (mat_loader r m inc oh ow) p = Ok d ->
  stored m p dict -> lookup "V" dict = Some (MArr a) -> wf_arr a ->
  shape a = [H; W; 2] -> (H, W) <> (oh, ow) ->
  exists u0 v0 u v, shape u0 = [H; W] /\ shape v0 = [H; W] /\
    (forall y x, y < H -> x < W -> elt u0 [y; x] = elt a [y; x; 0] /\ elt v0 [y; x] = elt a [y; x; 1]) /\
    r u0 ow oh = Ok u /\ r v0 ow oh = Ok v /\
    forall y x, y < oh -> x < ow ->
      Qeq (elt (sd_flow d) [y; x; 0]) (elt u [y; x] * (inject_Z (Z.of_nat ow) / inject_Z (Z.of_nat W))) /\
      Qeq (elt (sd_flow d) [y; x; 1]) (elt v [y; x] * (inject_Z (Z.of_nat oh) / inject_Z (Z.of_nat H))).
Proof.
  intros r m inc oh ow p d dict a H W HP HL HS HV Hw H3 Hne.
  cbn [mat_loader load_file] in HL.
  destruct (mat_load_inv _ _ _ _ _ _ _ HL) as [dict' [v [HS' [HV' [HM _]]]]].
  assert (dict' = dict).
  { destruct HS as [HS|[HS [_ HS2]]]; destruct HS' as [HS'|[HS' [_ HS2']]].
    - congruence.
    - destruct HS'; congruence.
    - destruct HS; congruence.
    - congruence. }
  subst dict'. rewrite HV in HV'. inversion HV'; subst v.
  destruct (mat_flow_spec r oh ow a (sd_flow d) HP Hw ltac:(rewrite H3; reflexivity) HM)
    as [G1 [G2 [flow [H' [W' [G3 G4]]]]]].
  assert (H' = H /\ W' = W /\ flow = a) as [-> [-> ->]].
  { destruct G3 as [[G3 G5]|[G3 [G5 _]]]; rewrite H3 in G3; inversion G3; subst; auto. congruence. }
  destruct G4 as [[-> [-> _]]|[_ (u0 & v0 & u & v & K1 & K2 & K3 & K4 & K5 & K6)]]; [congruence|].
  exists u0, v0, u, v. split; [exact K1|]. split; [exact K2|]. split; [exact K3|].
  split; [exact K4|]. split; [exact K5|]. exact K6.
Qed.

Lemma mat_images_delivered : forall r m oh ow p d dict i0 i1,
  pil_ok r -> load_file (mat_loader r m true oh ow) p = Ok d ->
  stored m p dict -> lookup "I0" dict = Some (MArr i0) -> lookup "I1" dict = Some (MArr i1) ->
  List.length (shape i0) = 2 -> List.length (shape i1) = 2 ->
  exists a0 a1, sd_im1 d = Some a0 /\ sd_im2 d = Some a1 /\
    (shape i0 = [oh; ow] -> a0 = i0) /\ (shape i1 = [oh; ow] -> a1 = i1) /\
    (shape i0 <> [oh; ow] -> shape a0 = [ow; oh]) /\
    (shape i1 <> [oh; ow] -> shape a1 = [ow; oh]).
Proof.
  intros r m oh ow p d dict i0 i1 HP HL HS H0 H1 L0 L1.
  cbn [mat_loader load_file] in HL.
  destruct (mat_load_inv _ _ _ _ _ _ _ HL) as [dict' [v [HS' [_ [_ [_ [_ [_ HI]]]]]]]].
  assert (dict' = dict).
  { destruct HS as [HS|[HS [_ HS2]]]; destruct HS' as [HS'|[HS' [_ HS2']]].
    - congruence.
    - destruct HS'; congruence.
    - destruct HS; congruence.
    - congruence. }
  subst dict'. destruct (HI eq_refl) as (j0 & j1 & a0 & a1 & K0 & K1 & M0 & M1 & D0 & D1).
  rewrite H0 in K0. rewrite H1 in K1. inversion K0; subst j0. inversion K1; subst j1.
  exists a0, a1. split; [exact D0|]. split; [exact D1|].
  destruct (mat_image_spec r oh ow i0 a0 HP M0) as [S0 T0].
  destruct (mat_image_spec r oh ow i1 a1 HP M1) as [S1 T1].
  assert (N2 : forall s : list nat, List.length s = 2 -> skipn 2 s = []).
  { intros [|a [|b [|c s]]] H; simpl in *; auto; lia. }
  assert (NE : forall s : list nat, List.length s = 2 -> s <> [oh; ow] -> forall rest, s <> oh :: ow :: rest).
  { intros s Hl Hs rest E. subst s. destruct rest; [congruence|simpl in Hl; lia]. }
  split; [intro E; eapply S0; eauto|]. split; [intro E; eapply S1; eauto|]. split; intro E.
  - rewrite T0, N2; auto.
  - rewrite T1, N2; auto.
Qed.

Lemma mat_images_refuted : exists r m oh ow p d a,
  pil_ok r /\ load_file (mat_loader r m true oh ow) p = Ok d /\
  sd_im1 d = Some a /\ shape a <> [oh; ow] /\ shape (sd_flow d) = [oh; ow; 2].
Proof.
  set (r := (fun (a : arr) (w h : nat) => Ok (zeros (h :: w :: skipn 2 (shape a)))) : pil).
  set (dict := [("V", MArr (zeros [4; 6; 2])); ("I0", MArr (zeros [4; 6])); ("I1", MArr (zeros [4; 6]))]%string).
  exists r, (mkMat (fun _ => Ok dict) (fun _ => false) (fun _ => Err ValueError)), 2, 3, "f.mat"%string.
  eexists _, _. split.
  { intros a w h b H. unfold r in H. inversion H; subst. split; [|reflexivity].
    unfold wf_arr, zeros; simpl. apply repeat_length. }
  split; [vm_compute; reflexivity|]. split; [reflexivity|]. split; [discriminate|reflexivity].
Qed.
