(** Loaders: slices, shapes, and the contents they expose to the scheduler. *)
From Coq Require Import List Arith ZArith Lia Ascii String Bool QArith.
From Verif Require Import Prelude Model.Base Model.Files Model.Loaders Spec.BaseSpec Spec.LoaderSpec.
Import ListNotations.
Local Open Scope nat_scope.

(** ** Lists and arrays *)

Lemma firstn_skipn_nth : forall (l : list Q) m off,
  off + m <= List.length l ->
  firstn m (skipn off l) = map (fun q => nth (off + q) l 0%Q) (seq 0 m).
Proof.
  intros l m; revert l; induction m as [|m IH]; intros l off H; auto.
  destruct (skipn off l) as [|x r] eqn:E.
  { apply (f_equal (@List.length _)) in E. rewrite skipn_length in E. simpl in E. lia. }
  simpl. f_equal.
  - rewrite Nat.add_0_r. rewrite <- (firstn_skipn off l) at 1. rewrite E.
    rewrite app_nth2; rewrite firstn_length; [|lia].
    replace (off - Nat.min off (List.length l)) with 0 by lia. reflexivity.
  - assert (Er : r = skipn (S off) l).
    { change (x :: r) with ([x] ++ r) in E. replace (S off) with (off + 1) by lia.
      clear - E. revert l E. induction off; intros l E; simpl in *.
      - subst l. reflexivity.
      - destruct l; [discriminate|]. simpl. apply IHoff; auto. }
    rewrite Er, IH by lia. rewrite <- seq_shift, map_map. apply map_ext. intro q. f_equal. lia.
Qed.

Lemma map_seq_prod : forall A (f : nat -> A) B C s,
  map f (seq s (B * C)) = flat_map (fun j => map (fun k => f (s + j * C + k)) (seq 0 C)) (seq 0 B).
Proof.
  intros A f B C; induction B as [|B IH]; intros s; simpl; auto.
  rewrite seq_app, map_app. f_equal.
  - rewrite Nat.add_0_r.
    replace (seq s C) with (map (fun k => s + k) (seq 0 C)).
    + rewrite map_map. apply map_ext. intro; f_equal; lia.
    + clear. induction C as [|C IHC] in s |- *; auto. simpl. f_equal; [lia|].
      rewrite <- seq_shift, map_map. rewrite <- (IHC (S s)). apply map_ext. intro; lia.
  - rewrite IH. rewrite <- seq_shift. rewrite flat_map_concat_map, flat_map_concat_map, map_map.
    f_equal. apply map_ext. intro j. apply map_ext. intro k. f_equal. lia.
Qed.

Lemma flat_map_ext_in : forall A B (f g : A -> list B) l,
  (forall x, In x l -> f x = g x) -> flat_map f l = flat_map g l.
Proof.
  intros A B f g l; induction l as [|a l IH]; intros H; simpl; auto.
  rewrite (H a) by (left; auto). f_equal. apply IH. intros; apply H; right; auto.
Qed.

Lemma flat_map_length_const : forall A B (f : A -> list B) l m,
  (forall x, In x l -> List.length (f x) = m) -> List.length (flat_map f l) = List.length l * m.
Proof.
  intros A B f l m; induction l as [|a l IH]; intros H; simpl; auto.
  rewrite app_length, (H a) by (left; auto). rewrite IH; auto. intros; apply H; right; auto.
Qed.

Lemma nth_flat_map_const : forall A B (f : A -> list B) l m i j d da,
  (forall x, In x l -> List.length (f x) = m) -> i < List.length l -> j < m ->
  nth (i * m + j) (flat_map f l) d = nth j (f (nth i l da)) d.
Proof.
  intros A B f l m; induction l as [|a l IH]; intros i j d da H Hi Hj; simpl in Hi; [lia|].
  simpl flat_map. pose proof (H a (or_introl eq_refl)) as Ha.
  destruct i as [|i].
  - simpl. apply app_nth1. lia.
  - rewrite app_nth2 by (simpl; lia). cbn [nth].
    replace (S i * m + j - List.length (f a)) with (i * m + j) by (simpl; lia).
    apply IH; auto; [intros; apply H; right; auto|lia].
Qed.

Lemma tab3_wf : forall A B C f, wf_arr (tab3 A B C f).
Proof.
  intros. unfold wf_arr, tab3; simpl.
  rewrite (flat_map_length_const _ _ _ _ (B * C)).
  - rewrite seq_length. lia.
  - intros i _. rewrite (flat_map_length_const _ _ _ _ C).
    + rewrite seq_length. reflexivity.
    + intros j _. rewrite map_length, seq_length. reflexivity.
Qed.

Lemma tab3_elt : forall A B C f i j k, i < A -> j < B -> k < C ->
  elt (tab3 A B C f) [i; j; k] = f i j k.
Proof.
  intros A B C f i j k Hi Hj Hk. unfold elt, tab3; cbn [shape data flat_index].
  replace (i * size [B; C] + (j * size [C] + (k * size [] + 0)))
    with (i * (B * C) + (j * C + k)) by (unfold size; simpl; lia).
  rewrite (nth_flat_map_const _ _ _ _ (B * C) i (j * C + k) 0%Q 0).
  - rewrite seq_nth by lia. simpl.
    rewrite (nth_flat_map_const _ _ _ _ C j k 0%Q 0).
    + rewrite seq_nth by lia. simpl.
      rewrite (nth_indep _ 0%Q (f i j 0)) by (rewrite map_length, seq_length; lia).
      rewrite (map_nth (fun k => f i j k)). rewrite seq_nth by lia. reflexivity.
    + intros x _. rewrite map_length, seq_length. reflexivity.
    + rewrite seq_length; lia.
    + lia.
  - intros x _. rewrite (flat_map_length_const _ _ _ _ C).
    + rewrite seq_length. reflexivity.
    + intros y _. rewrite map_length, seq_length. reflexivity.
  - rewrite seq_length; lia.
  - nia.
Qed.

(** ** HDF5 *)

Lemma slice_axis1_plane : forall a X Y Z Ch y,
  wf_arr a -> shape a = [X; Y; Z; Ch] -> y < Y ->
  slice_axis1 a y = Ok (plane a y).
Proof.
  intros a X Y Z Ch y Hw Hs Hy. unfold slice_axis1, plane. rewrite Hs. cbn [tl]. f_equal.
  unfold tab3. f_equal. apply flat_map_ext_in. intros i Hi. apply in_seq in Hi.
  unfold wf_arr in Hw. rewrite Hs in Hw. unfold size in *. simpl in *.
  rewrite firstn_skipn_nth.
  2: { rewrite Hw. rewrite !Nat.mul_1_r.
       assert (i * Y + y + 1 <= X * Y) by nia. nia. }
  rewrite Nat.mul_1_r. rewrite map_seq_prod. apply flat_map_ext_in. intros j _.
  apply map_ext. intro k. unfold elt. rewrite Hs. cbn [flat_index]. unfold size. simpl. f_equal. nia.
Qed.

(** Contents exposed by the HDF5 loader, for arrays of any number of axes. *)
Definition h5_content (disk : string -> h5_file) (p : string) : content :=
  match disk p with
  | H5Fails _ | H5Group => Unreadable
  | H5Data a =>
      match nth_error (shape a) 1 with
      | None => Faulty [] IndexError
      | Some Y =>
          match Y with
          | 0 => Slices []
          | S _ =>
              match slice_axis1 a 0 with
              | Err e => Faulty [] e
              | Ok _ =>
                  Slices (map (fun y => mkSD (match slice_axis1 a y with Ok b => b | Err _ => a end)
                                             None None None (Some [p])) (seq 0 Y))
              end
          end
      end
  end.

Lemma slice_axis1_some : forall a y, (exists e, slice_axis1 a y = Err e) <-> (exists e, slice_axis1 a 0 = Err e).
Proof.
  intros a y. unfold slice_axis1. destruct (shape a) as [|X [|Y [|Z [|W r]]]]; split; intros [e H];
    try discriminate; eauto.
Qed.

Lemma nth_error_map_seq : forall A (f : nat -> A) n i,
  nth_error (map f (seq 0 n)) i = if i <? n then Some (f i) else None.
Proof.
  intros A f n i. destruct (Nat.ltb_spec i n).
  - rewrite (map_nth_error f i (seq 0 n) (d := i)); auto.
    rewrite (nth_error_nth' _ 0) by (rewrite seq_length; lia). rewrite seq_nth by lia. reflexivity.
  - apply nth_error_None. rewrite map_length, seq_length. lia.
Qed.

Lemma h5_disk : forall d, disk (h5_loader d) (h5_content d).
Proof.
  intros d p. unfold h5_content. cbn [h5_loader load_file get_next_slice]. unfold h5_load.
  destruct (d p) as [e| |a]; eauto.
  destruct (nth_error (shape a) 1) as [Y|] eqn:EY.
  - destruct Y as [|Y].
    + eexists; split; [reflexivity|]. intro i. unfold h5_slice. cbn [sd_flow]. rewrite EY. simpl.
      destruct i; reflexivity.
    + destruct (slice_axis1 a 0) as [b|e] eqn:E0.
      * eexists; split; [reflexivity|]. intro i. unfold h5_slice. cbn [sd_flow]. rewrite EY.
        rewrite nth_error_map_seq.
        destruct (Nat.leb_spec (S Y) i) as [H|H]; destruct (Nat.ltb_spec i (S Y)) as [H'|H']; try lia; auto.
        destruct (slice_axis1 a i) as [b'|e'] eqn:Ei; auto.
        exfalso. destruct (proj1 (slice_axis1_some a i)) as [e Hx]; [eauto|]. congruence.
      * eexists; split; [reflexivity|]. split; [intros i Hi; simpl in Hi; lia|].
        unfold h5_slice. cbn [sd_flow List.length]. rewrite EY. simpl. rewrite E0. reflexivity.
  - eexists; split; [reflexivity|]. split; [intros i Hi; simpl in Hi; lia|].
    unfold h5_slice. cbn [sd_flow]. rewrite EY. reflexivity.
Qed.

Lemma h5_never_stops : forall d, slice_never_stops (h5_loader d).
Proof.
  intros d x f i. cbn [h5_loader get_next_slice]. unfold h5_slice.
  destruct x as [x|]; [|discriminate]. destruct f as [f|]; [|discriminate].
  destruct (nth_error _ 1) as [Y|]; [|discriminate]. destruct (Y <=? i); [discriminate|].
  destruct (slice_axis1 (sd_flow x) i) as [a|e] eqn:E; [discriminate|].
  unfold slice_axis1 in E. destruct (shape (sd_flow x)) as [|X [|Y' [|Z [|W r]]]]; inversion E; discriminate.
Qed.

Lemma h5_content_planes : forall d p a X Y Z Ch,
  d p = H5Data a -> wf_arr a -> shape a = [X; Y; Z; Ch] ->
  h5_content d p = Slices (planes p a).
Proof.
  intros d p a X Y Z Ch Hd Hw Hs. unfold h5_content, planes. rewrite Hd, Hs. cbn [nth_error nth].
  destruct Y as [|Y]; [reflexivity|].
  rewrite (slice_axis1_plane a X (S Y) Z Ch 0 Hw Hs) by lia.
  f_equal. apply map_ext_in. intros y Hy. apply in_seq in Hy.
  rewrite (slice_axis1_plane a X (S Y) Z Ch y Hw Hs) by lia. reflexivity.
Qed.

Lemma h5_slices : forall d p a X Y Z Ch,
  d p = H5Data a -> wf_arr a -> shape a = [X; Y; Z; Ch] ->
  exists sd, load_file (h5_loader d) p = Ok sd /\
    forall y,
      (y < Y -> exists x, get_next_slice (h5_loader d) (Some sd) (Some p) y = SItem x /\
         shape (sd_flow x) = [X; Z; Ch] /\ wf_arr (sd_flow x) /\ sd_files x = Some [p] /\
         forall i j k, i < X -> j < Z -> k < Ch -> elt (sd_flow x) [i; j; k] = elt a [i; y; j; k]) /\
      (Y <= y -> get_next_slice (h5_loader d) (Some sd) (Some p) y = SEnded).
Proof.
  intros d p a X Y Z Ch Hd Hw Hs. cbn [h5_loader load_file get_next_slice].
  unfold h5_load. rewrite Hd. eexists; split; [reflexivity|]. intro y.
  unfold h5_slice. cbn [sd_flow]. rewrite Hs. cbn [nth_error]. split; intro Hy.
  - rewrite (proj2 (Nat.leb_gt _ _)) by lia.
    rewrite (slice_axis1_plane a X Y Z Ch y Hw Hs Hy).
    eexists; split; [reflexivity|]. cbn [sd_flow sd_files]. unfold plane. rewrite Hs.
    split; [reflexivity|]. split; [apply tab3_wf|]. split; [reflexivity|].
    intros i j k Hi Hj Hk. apply tab3_elt; auto.
  - rewrite (proj2 (Nat.leb_le _ _)) by lia. reflexivity.
Qed.

Lemma h5_announced : forall d s p l a X Y Z Ch,
  s_files s = p :: l -> d p = H5Data a -> shape a = [X; Y; Z; Ch] ->
  exists sh, h5_flow_shape d s = Ok sh /\ (sh = [X; Z; Ch] <-> Ch = 2).
Proof.
  intros d s p l a X Y Z Ch Hf Hd Hs. unfold h5_flow_shape. rewrite Hf, Hd, Hs. simpl.
  eexists; split; [reflexivity|]. split; intro H; [inversion H|subst]; auto.
Qed.

(** ** NumPy *)

Definition npy_content (inc : bool) (npy jpg : string -> result arr) (p : string) : content :=
  match npy p with
  | Err _ => Unreadable
  | Ok a =>
      match npy_slice inc jpg (Some (mkSD a None None None (Some [p]))) (Some p) 0 with
      | SItem x => Slices [x]
      | SEnded => Slices []
      | SRaise e => Faulty [] e
      end
  end.

Lemma npy_disk : forall inc npy jpg, disk (npy_loader inc npy jpg) (npy_content inc npy jpg).
Proof.
  intros inc npy jpg p. unfold npy_content. cbn [npy_loader load_file get_next_slice].
  unfold npy_load. destruct (npy p) as [a|e]; [|simpl; eauto]. cbn [bind].
  set (d := mkSD a None None None (Some [p])).
  assert (H : forall i, npy_slice inc jpg (Some d) (Some p) (S i) = SEnded) by reflexivity.
  destruct (npy_slice inc jpg (Some d) (Some p) 0) as [x| |e] eqn:E0.
  - exists d. split; auto. intros [|i]; [exact E0|]. rewrite H. destruct i; reflexivity.
  - exists d. split; auto. intros [|i]; [exact E0|]. rewrite H. reflexivity.
  - exists d. split; auto. split; [intros i Hi; simpl in Hi; lia|]. exact E0.
Qed.

Lemma npy_never_stops : forall inc npy jpg,
  (forall p, jpg p <> Err StopIteration) -> slice_never_stops (npy_loader inc npy jpg).
Proof.
  intros inc npy jpg HJ d f i. cbn [npy_loader get_next_slice]. unfold npy_slice.
  destruct d as [d|]; [|discriminate]. destruct f as [f|]; [|discriminate].
  destruct (negb _); [discriminate|]. destruct (negb _); [discriminate|].
  destruct (flow_number _); [|discriminate].
  destruct (jpg (img_path f (Z.of_nat n - 1))) as [a|e] eqn:E1.
  - destruct (jpg (img_path f (Z.of_nat n))) as [b|e] eqn:E2; [discriminate|].
    intro H; inversion H; subst. eapply HJ; eauto.
  - intro H; inversion H; subst. eapply HJ; eauto.
Qed.

Lemma npy_content_images : forall npy jpg F h w p,
  npy_with_images npy jpg F h w p ->
  exists x i0 i1, npy_content true npy jpg p = Slices [x] /\ stackable F [h; w; 3] [h; w; 3] x /\
    sd_im1 x = Some i0 /\ sd_im2 x = Some i1.
Proof.
  intros npy jpg F h w p (a & t & i0 & i1 & Ha & Wa & Sa & Ht & H0 & W0 & S0 & H1 & W1 & S1).
  unfold npy_content, npy_slice. rewrite Ha. simpl. rewrite Ht, H0, H1.
  eexists _, i0, i1. split; [reflexivity|]. split; [|split; reflexivity].
  constructor; simpl; auto.
  - intros b Hb; inversion Hb; subst; auto.
  - intros b Hb; inversion Hb; subst; auto.
  - eauto.
Qed.

(** ** MAT *)

Definition mat_content (r : pil) (m : mat_disk) (inc : bool) (oh ow : nat) (p : string) : content :=
  match mat_load r m inc oh ow p with
  | Err _ => Unreadable
  | Ok d => Slices [if inc then d else mkSD (sd_flow d) None None (sd_mask d) (sd_files d)]
  end.

Lemma mat_disk_ok : forall r m inc oh ow,
  disk (mat_loader r m inc oh ow) (mat_content r m inc oh ow).
Proof.
  intros r m inc oh ow p. unfold mat_content. cbn [mat_loader load_file get_next_slice].
  destruct (mat_load r m inc oh ow p) as [d|e]; eauto.
  eexists; split; [reflexivity|]. intros [|i]; unfold mat_slice; simpl.
  - destruct inc; reflexivity.
  - destruct i; reflexivity.
Qed.

Lemma mat_never_stops : forall r m inc oh ow, slice_never_stops (mat_loader r m inc oh ow).
Proof.
  intros r m inc oh ow d f i. cbn [mat_loader get_next_slice]. unfold mat_slice.
  destruct d; [|discriminate]. destruct (negb _); [discriminate|]. destruct inc; discriminate.
Qed.

Lemma transpose_wf : forall a A B C, shape a = [A; B; C] ->
  transpose_120 a = Ok (tab3 B C A (fun y x k => elt a [k; y; x])).
Proof.
  intros a A B C Hs. unfold transpose_120, tab3. rewrite Hs. f_equal. f_equal.
  apply flat_map_ext_in. intros y _. apply flat_map_ext_in. intros x _.
  apply map_ext. intro k. unfold elt. rewrite Hs. cbn [flat_index]. unfold size; simpl. f_equal. nia.
Qed.

Lemma last_index_shape : forall a H W j, shape a = [H; W; 2] -> j < 2 ->
  exists u, last_index a j = Ok u /\ shape u = [H; W] /\ wf_arr u /\
    forall y x, y < H -> x < W -> elt u [y; x] = elt a [y; x; j].
Proof.
  intros a H W j Hs Hj. unfold last_index. rewrite Hs. cbn [rev app].
  rewrite (proj2 (Nat.ltb_lt _ _) Hj). eexists; split; [reflexivity|].
  cbn [shape rev app]. split; [reflexivity|]. split.
  - unfold wf_arr; simpl. rewrite map_length, seq_length. reflexivity.
  - intros y x Hy Hx. unfold elt. cbn [shape data flat_index]. rewrite Hs. cbn [flat_index].
    set (f := fun i => nth (i * 2 + j) (data a) 0%Q).
    assert (Hlt : y * size [W] + (x * size [] + 0) < size [H; W]) by (unfold size; simpl; nia).
    rewrite (nth_indep _ 0%Q (f 0)) by (rewrite map_length, seq_length; exact Hlt).
    rewrite (map_nth f). rewrite seq_nth by exact Hlt. unfold f, size. simpl. f_equal. nia.
Qed.

Lemma stack_last_ok : forall u v H W,
  shape u = [H; W] -> shape v = [H; W] ->
  exists b, stack_last u v = Ok b /\ shape b = [H; W; 2] /\ wf_arr b /\
    forall y x, y < H -> x < W ->
      elt b [y; x; 0] = elt u [y; x] /\ elt b [y; x; 1] = elt v [y; x].
Proof.
  intros u v H W Hu Hv. unfold stack_last. rewrite Hu, Hv.
  destruct (list_eq_dec Nat.eq_dec [H; W] [H; W]); [|congruence].
  eexists; split; [reflexivity|]. cbn [shape app]. split; [reflexivity|]. split.
  - unfold wf_arr; cbn [data shape]. rewrite (flat_map_length_const _ _ _ _ 2) by reflexivity.
    rewrite seq_length. unfold size; simpl. nia.
  - intros y x Hy Hx.
    assert (Hlt : y * W + x < size [H; W]) by (unfold size; simpl; nia).
    assert (Hg : forall k, k < 2 -> nth ((y * W + x) * 2 + k)
       (flat_map (fun i => [nth i (data u) 0%Q; nth i (data v) 0%Q]) (seq 0 (size [H; W]))) 0%Q
       = nth k [nth (y * W + x) (data u) 0%Q; nth (y * W + x) (data v) 0%Q] 0%Q).
    { intros k Hk. rewrite (nth_flat_map_const _ _ _ _ 2 (y * W + x) k 0%Q 0); auto.
      - rewrite seq_nth by exact Hlt. reflexivity.
      - rewrite seq_length. exact Hlt. }
    unfold elt. cbn [shape data flat_index]. rewrite Hu, Hv. cbn [flat_index].
    split.
    + replace (y * size [W; 2] + (x * size [2] + (0 * size [] + 0))) with ((y * W + x) * 2 + 0)
        by (unfold size; simpl; nia).
      rewrite Hg by lia. cbn [nth]. f_equal. unfold size; simpl; nia.
    + replace (y * size [W; 2] + (x * size [2] + (1 * size [] + 0))) with ((y * W + x) * 2 + 1)
        by (unfold size; simpl; nia).
      rewrite Hg by lia. cbn [nth]. f_equal. unfold size; simpl; nia.
Qed.

Lemma elt_scale : forall q a idx, Qeq (elt (scale q a) idx) (elt a idx * q).
Proof.
  intros q a idx. unfold elt, scale. cbn [shape data].
  destruct (Nat.lt_ge_cases (flat_index (shape a) idx) (List.length (data a))) as [H|H].
  - rewrite (nth_indep _ 0%Q (0 * q)%Q) by (rewrite map_length; exact H).
    rewrite (map_nth (fun x => (x * q)%Q)). reflexivity.
  - rewrite !nth_overflow by (rewrite ?map_length; lia). ring.
Qed.

Lemma head2_true : forall s h w, head2_is s h w = true <-> exists r, s = h :: w :: r.
Proof.
  intros [|a [|b r]] h w; simpl; split; intro H; try discriminate.
  - destruct H; discriminate.
  - destruct H; discriminate.
  - apply andb_prop in H. destruct H as [H1 H2]. apply Nat.eqb_eq in H1, H2. subst; eauto.
  - destruct H as [r' H]. inversion H; subst. rewrite !Nat.eqb_refl. reflexivity.
Qed.

(** The flow part: shape and values. *)
Lemma mat_flow_spec : forall r oh ow a b,
  pil_ok r -> wf_arr a -> List.length (shape a) = 3 ->
  mat_flow r oh ow (MArr a) = Ok b ->
  shape b = [oh; ow; 2] /\ wf_arr b /\
  exists flow H W,
    (shape a = [H; W; 2] /\ flow = a \/
     shape a = [2; H; W] /\ W <> 2 /\ shape flow = [H; W; 2] /\
       forall y x k, y < H -> x < W -> k < 2 -> elt flow [y; x; k] = elt a [k; y; x]) /\
    ((H = oh /\ W = ow /\ b = flow) \/
     ((H, W) <> (oh, ow) /\ exists u0 v0 u v,
       shape u0 = [H; W] /\ shape v0 = [H; W] /\
       (forall y x, y < H -> x < W -> elt u0 [y; x] = elt flow [y; x; 0] /\ elt v0 [y; x] = elt flow [y; x; 1]) /\
       r u0 ow oh = Ok u /\ r v0 ow oh = Ok v /\
       forall y x, y < oh -> x < ow ->
         Qeq (elt b [y; x; 0]) (elt u [y; x] * qratio ow W) /\
         Qeq (elt b [y; x; 1]) (elt v [y; x] * qratio oh H))).
Proof.
  intros r oh ow a b HP Hw H3 HM. destruct (shape a) as [|s0 [|s1 [|s2 [|? ?]]]] eqn:Es; try discriminate.
  clear H3. unfold mat_flow in HM. rewrite Es in HM. cbn [nth_error nth] in HM.
  destruct ((s2 =? 2) || (s0 =? 2)) eqn:Ec; [|discriminate].
  assert (HX : exists flow H W,
    (if negb (s2 =? 2) then transpose_120 a else Ok a) = Ok flow /\ shape flow = [H; W; 2] /\ wf_arr flow /\
    (shape a = [H; W; 2] /\ flow = a \/
     shape a = [2; H; W] /\ W <> 2 /\ shape flow = [H; W; 2] /\
       forall y x k, y < H -> x < W -> k < 2 -> elt flow [y; x; k] = elt a [k; y; x])).
  { destruct (s2 =? 2) eqn:E2; simpl.
    - apply Nat.eqb_eq in E2. subst s2. exists a, s0, s1. rewrite Es.
      split; [reflexivity|]. split; [reflexivity|]. split; [exact Hw|]. left; split; reflexivity.
    - simpl in Ec. apply Nat.eqb_eq in Ec. subst s0. apply Nat.eqb_neq in E2.
      rewrite (transpose_wf a 2 s1 s2 Es).
      exists (tab3 s1 s2 2 (fun y x k => elt a [k; y; x])), s1, s2.
      split; [reflexivity|]. split; [reflexivity|]. split; [apply tab3_wf|]. right.
      rewrite Es. split; [reflexivity|]. split; [exact E2|]. split; [reflexivity|].
      intros y x k Hy Hx Hk. apply (tab3_elt s1 s2 2 (fun y x k => elt a [k; y; x])); auto. }
  destruct HX as [flow [H [W [HX [Sf [Wf HL]]]]]]. rewrite HX in HM. cbn [bind] in HM.
  rewrite Es in HL.
  destruct (head2_is (shape flow) oh ow) eqn:Eh.
  - inversion HM; subst b; clear HM. apply head2_true in Eh. destruct Eh as [r' Eh].
    rewrite Sf in Eh. inversion Eh; subst H W.
    split; [exact Sf|]. split; [exact Wf|]. exists flow, oh, ow. split; [exact HL|]. left; auto.
  - rewrite Sf in HM. cbn [nth] in HM. destruct ((H =? 0) || (W =? 0)); [discriminate|].
    destruct (last_index_shape flow H W 0 Sf ltac:(lia)) as [u0 [U1 [U2 [U3 U4]]]].
    destruct (last_index_shape flow H W 1 Sf ltac:(lia)) as [v0 [V1 [V2 [V3 V4]]]].
    rewrite U1 in HM. cbn [bind] in HM.
    destruct (r u0 ow oh) as [u|e] eqn:Eu; [|discriminate]. cbn [bind] in HM.
    rewrite V1 in HM. cbn [bind] in HM.
    destruct (r v0 ow oh) as [v|e] eqn:Ev; [|discriminate]. cbn [bind] in HM.
    destruct (HP _ _ _ _ Eu) as [Wu Su]. destruct (HP _ _ _ _ Ev) as [Wv Sv].
    rewrite U2 in Su. rewrite V2 in Sv. simpl in Su, Sv.
    destruct (stack_last_ok (scale (qratio ow W) u) (scale (qratio oh H) v) oh ow Su Sv)
      as [b' [B1 [B2 [B3 B4]]]].
    rewrite B1 in HM. inversion HM; subst b'. split; [exact B2|]. split; [exact B3|].
    exists flow, H, W. split; [exact HL|]. right. split.
    + intro E. inversion E; subst H W.
      assert (head2_is (shape flow) oh ow = true) by (apply head2_true; rewrite Sf; eauto). congruence.
    + exists u0, v0, u, v. split; [exact U2|]. split; [exact V2|]. split.
      { intros y x Hy Hx. split; [apply U4|apply V4]; auto. }
      split; [exact Eu|]. split; [exact Ev|]. intros y x Hy Hx. destruct (B4 y x Hy Hx) as [C1 C2].
      rewrite C1, C2. split; apply elt_scale.
Qed.

Lemma mat_load_inv : forall r m inc oh ow p d,
  mat_load r m inc oh ow p = Ok d ->
  exists dict v, stored m p dict /\ lookup "V" dict = Some v /\
    mat_flow r oh ow v = Ok (sd_flow d) /\ sd_files d = Some [p] /\ sd_mask d = None /\
    (inc = false -> sd_im1 d = None /\ sd_im2 d = None) /\
    (inc = true -> exists i0 i1 a0 a1, lookup "I0" dict = Some i0 /\ lookup "I1" dict = Some i1 /\
       mat_image r oh ow i0 = Ok a0 /\ mat_image r oh ow i1 = Ok a1 /\
       sd_im1 d = Some a0 /\ sd_im2 d = Some a1).
Proof.
  intros r m inc oh ow p d H. unfold mat_load in H.
  assert (HD : exists dict, stored m p dict /\
     match m_scipy m p with
     | Ok d => Ok d
     | Err NotImplementedError | Err ValueError =>
         if m_is_h5 m p then m_h5 m p else Err ValueError
     | Err e => Err e
     end = Ok dict).
  { unfold stored. destruct (m_scipy m p) as [d0|e] eqn:E; [exists d0; auto|].
    destruct e; try discriminate H; destruct (m_is_h5 m p); try discriminate H;
      destruct (m_h5 m p) as [d0|e0]; try discriminate H; exists d0; split; auto. }
  destruct HD as [dict [HS HD]]. rewrite HD in H. cbn [bind] in H.
  destruct (lookup "V" dict) as [v|] eqn:EV; [|discriminate].
  exists dict, v. split; [exact HS|]. split; [exact EV|].
  destruct inc.
  - destruct (lookup "I0" dict) as [i0|] eqn:E0; [|discriminate].
    destruct (lookup "I1" dict) as [i1|] eqn:E1; [|discriminate].
    destruct (mat_image r oh ow i0) as [a0|] eqn:A0; [|discriminate]. cbn [bind] in H.
    destruct (mat_image r oh ow i1) as [a1|] eqn:A1; [|discriminate]. cbn [bind] in H.
    destruct (mat_flow r oh ow v) as [fl|] eqn:AF; [|discriminate]. cbn [bind] in H.
    inversion H; subst d. cbn [sd_flow sd_files sd_mask sd_im1 sd_im2 fst snd].
    split; [reflexivity|]. split; [reflexivity|]. split; [reflexivity|]. split; [discriminate|].
    intros _. exists i0, i1, a0, a1. auto 10.
  - cbn [bind] in H.
    destruct (mat_flow r oh ow v) as [fl|] eqn:AF; [|discriminate]. cbn [bind] in H.
    inversion H; subst d. cbn [sd_flow sd_files sd_mask sd_im1 sd_im2 fst snd].
    split; [reflexivity|]. split; [reflexivity|]. split; [reflexivity|]. split; [auto|discriminate].
Qed.

(** One picture. *)
Lemma mat_image_spec : forall r oh ow a b,
  pil_ok r -> mat_image r oh ow (MArr a) = Ok b ->
  (forall rest, shape a = oh :: ow :: rest -> b = a) /\
  ((forall rest, shape a <> oh :: ow :: rest) -> shape b = ow :: oh :: skipn 2 (shape a)).
Proof.
  intros r oh ow a b HP H. unfold mat_image in H. destruct (head2_is (shape a) oh ow) eqn:E.
  - apply head2_true in E. destruct E as [r' E]. inversion H; subst b. split; auto.
    intro C. exfalso. eapply C; eauto.
  - split.
    + intros rest Hr. exfalso.
      assert (head2_is (shape a) oh ow = true) by (apply head2_true; eauto). congruence.
    + intros _. apply (HP _ _ _ _ H).
Qed.
