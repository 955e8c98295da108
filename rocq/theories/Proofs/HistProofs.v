(** Histogram matching. *)
From Coq Require Import List Arith ZArith QArith Qround Bool Lia Lqa.
From Verif Require Import Prelude Model.Interp Model.Render Model.DataGen Model.Hist Spec.InterpSpec Spec.RenderSpec Spec.HistSpec.
From Verif Require Import Proofs.InterpProofs Proofs.RenderProofs.
Import ListNotations.
Local Open Scope Q_scope.

Definition cnt (P : Q -> bool) (l : list Q) : Z := Z.of_nat (List.length (filter P l)).

(** * Pixels of an image as a list *)
Lemma ravel_prod : forall im, ravel im = map (fun rc => at_ im (fst rc) (snd rc)) (coordinates im).
Proof.
  intros im. unfold ravel, coordinates. generalize (seq 0 (Z.to_nat (rows im))) as rs. generalize (seq 0 (Z.to_nat (cols im))) as cs.
  intros cs. induction rs as [|r rs IH]; [reflexivity|]. cbn [flat_map map list_prod]. rewrite map_app, IH. f_equal.
  rewrite !map_map. reflexivity.
Qed.

Lemma filter_map_len : forall {A} (P : Q -> bool) (f : A -> Q) l,
  List.length (filter P (map f l)) = List.length (filter (fun a => P (f a)) l).
Proof. intros A P f. induction l as [|a l IH]; [reflexivity|]. cbn [map filter]. destruct (P (f a)); cbn [List.length]; congruence. Qed.

Lemma count_cnt : forall im P, count im P = inject_Z (cnt P (ravel im)).
Proof. intros im P. unfold count, cnt. rewrite ravel_prod, filter_map_len. reflexivity. Qed.

Lemma in_ravel : forall im x, In x (ravel im) -> exists r c, pixel im r c /\ x = at_ im r c.
Proof.
  intros im x H. unfold ravel in H. apply in_flat_map in H. destruct H as (r & R & H). apply in_map_iff in H.
  destruct H as (c & <- & C). apply in_seq in R, C. exists (Z.of_nat r), (Z.of_nat c). split; [|reflexivity]. split; lia.
Qed.

Lemma ravel_in : forall im r c, pixel im r c -> In (at_ im r c) (ravel im).
Proof.
  intros im r c [R C]. unfold ravel. apply in_flat_map. exists (Z.to_nat r). split; [apply in_seq; lia|].
  apply in_map_iff. exists (Z.to_nat c). split; [rewrite !Z2Nat.id by lia; reflexivity | apply in_seq; lia].
Qed.

Lemma ravel_length : forall im, nonempty im -> Z.of_nat (List.length (ravel im)) = (rows im * cols im)%Z.
Proof.
  intros im [R C]. unfold ravel. 
  assert (G : forall k, List.length (flat_map (fun r => map (fun c => at_ im (Z.of_nat r) (Z.of_nat c)) (seq 0 (Z.to_nat (cols im)))) k) = (List.length k * Z.to_nat (cols im))%nat).
  { induction k as [|a k IH]; [reflexivity|]. cbn [flat_map List.length]. rewrite app_length, map_length, seq_length, IH. lia. }
  rewrite G, seq_length, Nat2Z.inj_mul, !Z2Nat.id by lia. reflexivity.
Qed.

(** * Counting *)
Lemma cnt_ext : forall P P' l, (forall x, In x l -> P x = P' x) -> cnt P l = cnt P' l.
Proof.
  intros P P' l H. unfold cnt. f_equal. f_equal. induction l as [|a l IH]; [reflexivity|]. cbn [filter].
  rewrite IH by (intros; apply H; right; assumption). rewrite (H a (or_introl eq_refl)). reflexivity.
Qed.
Lemma cnt_le : forall P P' l, (forall x, In x l -> P x = true -> P' x = true) -> (cnt P l <= cnt P' l)%Z.
Proof.
  intros P P' l H. unfold cnt. induction l as [|a l IH]; [cbn; lia|]. cbn [filter].
  assert (I := IH (fun x i => H x (or_intror i))). pose proof (H a (or_introl eq_refl)) as A.
  destruct (P a); [rewrite (A eq_refl); cbn [List.length]; lia|]. destruct (P' a); cbn [List.length]; lia.
Qed.
Lemma cnt_split : forall P P' P'' l, (forall x, In x l -> (P x = true /\ P' x = true /\ P'' x = false) \/ (P x = true /\ P' x = false /\ P'' x = true) \/ (P x = false /\ P' x = false /\ P'' x = false)) ->
  (cnt P l = cnt P' l + cnt P'' l)%Z.
Proof.
  intros P P' P'' l H. unfold cnt. induction l as [|a l IH]; [reflexivity|]. cbn [filter].
  assert (I := IH (fun x i => H x (or_intror i))). destruct (H a (or_introl eq_refl)) as [(-> & -> & ->)|[(-> & -> & ->)|(-> & -> & ->)]];
    cbn [List.length]; lia.
Qed.
Lemma filter_le : forall {A} (P P' : A -> bool) l, (forall x, In x l -> P x = true -> P' x = true) ->
  (List.length (filter P l) <= List.length (filter P' l))%nat.
Proof.
  intros A P P' l H. induction l as [|a l IH]; [cbn; lia|]. cbn [filter].
  assert (I := IH (fun x i => H x (or_intror i))). pose proof (H a (or_introl eq_refl)) as B.
  destruct (P a); [rewrite (B eq_refl); cbn [List.length]; lia|]. destruct (P' a); cbn [List.length]; lia.
Qed.
Lemma cnt_pos : forall P l, (0 <= cnt P l)%Z.
Proof. intros. unfold cnt. lia. Qed.
Lemma cnt_in : forall P l x, In x l -> P x = true -> (0 < cnt P l)%Z.
Proof.
  intros P l x I E. unfold cnt. assert (In x (filter P l)) by (apply filter_In; split; assumption).
  destruct (filter P l); [destruct H | cbn [List.length]; lia].
Qed.

(** Level of a pixel at most [k]. *)
Definition lvl_le (k : Z) (x : Q) : bool := (Qfloor x <=? k)%Z.

Lemma lvl_le_spec : forall k x, negb (Qle_bool (inject_Z (k + 1)) x) = lvl_le k x.
Proof.
  intros k x. unfold lvl_le. destruct (Qle_bool (inject_Z (k + 1)) x) eqn:E; symmetry.
  - apply Qle_bool_iff in E. apply Z.leb_gt. pose proof (floor_le_mono x _ E). lia.
  - apply Qle_bool_false in E. apply Z.leb_le. pose proof (floor_lt x _ E). lia.
Qed.

Lemma up_to_cnt : forall im k, up_to im k = inject_Z (cnt (lvl_le k) (ravel im)).
Proof. intros im k. unfold up_to. rewrite count_cnt. f_equal. apply cnt_ext. intros. apply lvl_le_spec. Qed.

Definition levels_ok (l : list Q) : Prop := forall x, In x l -> 0 <= x <= 255.

Lemma floor_range : forall x, 0 <= x <= 255 -> (0 <= Qfloor x <= 255)%Z.
Proof.
  intros x [A B]. pose proof (floor_le_mono x 0 A). assert (x < inject_Z 256) by (change (inject_Z 256) with 256; lra).
  pose proof (floor_lt x _ H0). lia.
Qed.

Lemma in_bin_level : forall i x, (i <= 255)%nat -> 0 <= x <= 255 -> in_bin i x = (Qfloor x =? Z.of_nat i)%Z.
Proof.
  intros i x I X. unfold in_bin. pose proof (floor_range x X) as F.
  rewrite lvl_le_spec. unfold lvl_le.
  assert (E : Qle_bool (inject_Z (Z.of_nat i)) x = (Z.of_nat i <=? Qfloor x)%Z).
  { apply eq_true_iff_eq. rewrite Qle_bool_iff, Z.leb_le. split; [apply floor_le_mono|].
    intros L. apply inj_le in L. destruct (floor_spec x). lra. }
  rewrite E. destruct (Z.of_nat i <=? Qfloor x)%Z eqn:A; cbn [andb].
  - apply Z.leb_le in A. destruct (Qfloor x <=? Z.of_nat i)%Z eqn:B; cbn [orb].
    + apply Z.leb_le in B. symmetry. apply Z.eqb_eq. lia.
    + apply Z.leb_gt in B. rewrite (proj2 (Nat.eqb_neq i 255)) by lia. cbn [andb]. symmetry. apply Z.eqb_neq. lia.
  - apply Z.leb_gt in A. symmetry. apply Z.eqb_neq. lia.
Qed.

(** * Cumulative sums *)
Lemma cumsum_length : forall l acc, List.length (cumsum_from acc l) = List.length l.
Proof. induction l as [|x l IH]; intros acc; [reflexivity|]. cbn [cumsum_from List.length]. rewrite IH. reflexivity. Qed.

Lemma cumsum_nth : forall l acc j, (j < List.length l)%nat -> nth j (cumsum_from acc l) 0 == acc + sum (firstn (S j) l).
Proof.
  induction l as [|x l IH]; intros acc j H; cbn [List.length] in H; [lia|]. cbn [cumsum_from]. destruct j as [|j].
  - cbn [nth firstn]. rewrite sum_cons, sum_nil. lra.
  - cbn [nth]. rewrite IH by lia. change (firstn (S (S j)) (x :: l)) with (x :: firstn (S j) l). rewrite sum_cons. lra.
Qed.

Lemma last_nth : forall (l : list Q) d, last l d = nth (List.length l - 1) l d.
Proof.
  induction l as [|a l IH]; intros d; [reflexivity|]. destruct l as [|b l]; [reflexivity|].
  change (last (a :: b :: l) d) with (last (b :: l) d). rewrite IH. cbn [List.length].
  replace (S (S (List.length l)) - 1)%nat with (S (S (List.length l) - 1)) by lia. reflexivity.
Qed.

Lemma cumsum_last : forall l, l <> [] -> last (cumsum_from 0 l) 0 == sum l.
Proof.
  intros l H. rewrite last_nth, cumsum_length. rewrite cumsum_nth.
  - replace (S (List.length l - 1)) with (List.length l) by (destruct l; [congruence | cbn [List.length]; lia]).
    rewrite firstn_all. lra.
  - destruct l; [congruence | cbn [List.length]; lia].
Qed.

Lemma cdf_length : forall l, List.length (cdf l) = List.length l.
Proof. intros. unfold cdf. rewrite map_length, cumsum_length. reflexivity. Qed.

Lemma cdf_nth : forall l j, (j < List.length l)%nat -> nth j (cdf l) 0 == sum (firstn (S j) l) / sum l.
Proof.
  intros l j H. unfold cdf. set (L := last (cumsum_from 0 l) 0).
  assert (E : L == sum l) by (apply cumsum_last; destruct l; [cbn in H; lia | congruence]). clearbody L.
  rewrite (nth_indep _ 0 (0 / L)) by (rewrite map_length, cumsum_length; exact H).
  rewrite (map_nth (fun x => x / L)). rewrite cumsum_nth by assumption. rewrite E. unfold Qdiv. ring.
Qed.

(** * The source distribution *)
Lemma s_counts_length : forall l, List.length (s_counts l) = 256%nat.
Proof. intros. unfold s_counts. rewrite map_length, seq_length. reflexivity. Qed.

Lemma firstn_map_seq : forall (f : nat -> Q) n j, (j <= n)%nat -> firstn j (map f (seq 0 n)) = map f (seq 0 j).
Proof.
  intros f n j H. replace n with (j + (n - j))%nat by lia. rewrite seq_app, map_app, firstn_app, map_length, seq_length.
  rewrite Nat.sub_diag. cbn [firstn]. rewrite app_nil_r. rewrite firstn_all2; [reflexivity|]. rewrite map_length, seq_length. lia.
Qed.

Lemma s_counts_sum : forall l j, levels_ok l -> (j <= 256)%nat ->
  sum (firstn j (s_counts l)) == inject_Z (cnt (lvl_le (Z.of_nat j - 1)) l).
Proof.
  intros l j OK. unfold s_counts. induction j as [|j IH]; intros H.
  - cbn [firstn]. rewrite sum_nil. replace (cnt (lvl_le (Z.of_nat 0 - 1)) l) with 0%Z; [reflexivity|].
    symmetry. unfold cnt. rewrite (filter_ext_in _ (fun _ => false)).
    + clear. induction l; [reflexivity | exact IHl].
    + intros x I. unfold lvl_le. apply Z.leb_gt. pose proof (floor_range x (OK x I)). lia.
  - rewrite firstn_map_seq in * by lia. rewrite seq_S, map_app, sum_app. rewrite IH by lia.
    cbn [map plus]. rewrite sum_cons, sum_nil.
    rewrite (cnt_split (lvl_le (Z.of_nat (S j) - 1)) (lvl_le (Z.of_nat j - 1)) (in_bin j)).
    + rewrite inject_Z_plus. unfold cnt. lra.
    + intros x I. rewrite (in_bin_level j x) by (lia || apply OK; assumption). unfold lvl_le.
      rewrite Z.leb_le, Z.leb_gt, Z.leb_le, Z.leb_gt, Z.eqb_eq, Z.eqb_neq. lia.
Qed.

Lemma cnt_all : forall l, levels_ok l -> cnt (lvl_le 255) l = Z.of_nat (List.length l).
Proof.
  intros l OK. unfold cnt. f_equal. f_equal. rewrite (filter_ext_in _ (fun _ => true)).
  - clear. induction l; [reflexivity | cbn [filter]; congruence].
  - intros x I. unfold lvl_le. apply Z.leb_le. pose proof (floor_range x (OK x I)). lia.
Qed.

(** * Searching *)
Definition sorted_to (a : list Q) : Prop := forall i j, (i <= j < List.length a)%nat -> nth i a 0 <= nth j a 0.

Lemma search_spec : forall a q, (searchsorted a q <= List.length a)%nat /\
  (forall i, (i < searchsorted a q)%nat -> nth i a 0 < q) /\
  ((searchsorted a q < List.length a)%nat -> q <= nth (searchsorted a q) a 0).
Proof.
  induction a as [|x a IH]; intros q; cbn [searchsorted List.length].
  - split; [lia|]. split; intros; lia.
  - destruct (Qle_bool q x) eqn:E.
    + apply Qle_bool_iff in E. split; [lia|]. split; [intros; lia|]. intros _. exact E.
    + apply Qle_bool_false in E. destruct (IH q) as (A & B & C). split; [lia|]. split.
      * intros [|i] H; [exact E|]. cbn [nth]. apply B. lia.
      * intros H. cbn [nth]. apply C. lia.
Qed.

Lemma search_galois : forall a q k, sorted_to a -> (k < List.length a)%nat -> ((searchsorted a q <= k)%nat <-> q <= nth k a 0).
Proof.
  intros a q k S K. destruct (search_spec a q) as (A & B & C). split.
  - intros H. eapply Qle_trans; [apply C; lia|]. apply S. lia.
  - intros H. destruct (le_lt_dec (searchsorted a q) k) as [|L]; [assumption|]. specialize (B k L). lra.
Qed.

Lemma sum_firstn_mono : forall l i j, (forall x, In x l -> 0 <= x) -> (i <= j)%nat -> sum (firstn i l) <= sum (firstn j l).
Proof.
  intros l i j P H. replace (firstn j l) with (firstn i l ++ skipn i (firstn j l)).
  - rewrite sum_app. assert (0 <= sum (skipn i (firstn j l))); [|lra]. apply sum_nonneg. intros x I. apply P.
    rewrite <- (firstn_skipn j l). apply in_or_app. left. rewrite <- (firstn_skipn i (firstn j l)). apply in_or_app. right. exact I.
  - transitivity (firstn i (firstn j l) ++ skipn i (firstn j l)); [|apply firstn_skipn]. f_equal. rewrite firstn_firstn, Nat.min_l by lia. reflexivity.
Qed.

(** * Matching *)
Lemma cdf_sorted : forall l, (forall x, In x l -> 0 <= x) -> 0 < sum l -> sorted_to (cdf l).
Proof.
  intros l P S i j H. rewrite cdf_length in H. rewrite !cdf_nth by lia. unfold Qdiv. apply Qmult_le_compat_r.
  - apply sum_firstn_mono; [assumption | lia].
  - apply Qlt_le_weak, Qinv_lt_0_compat. assumption.
Qed.

Lemma levels_image : forall im, bounded 0 255 im -> levels_ok (ravel im).
Proof. intros im B x I. destruct (in_ravel im x I) as (r & c & P & ->). apply B, P. Qed.

Lemma digitize_level : forall x, 0 <= x <= 255 -> digitize x = Qfloor x.
Proof. intros x X. pose proof (floor_range x X). unfold digitize, clipZ. lia. Qed.

Lemma all_pixels_pos : forall im, nonempty im -> 0 < all_pixels im.
Proof.
  intros im [A B]. unfold all_pixels. apply Qmult_lt_0_compat; change 0 with (inject_Z 0); rewrite <- Zlt_Qlt; lia.
Qed.

Lemma s_cdf_nth : forall im j, nonempty im -> bounded 0 255 im -> (0 <= j <= 255)%Z ->
  nth (Z.to_nat j) (cdf (s_counts (ravel im))) 0 == share im j.
Proof.
  intros im j NE B J. pose proof (levels_image im B) as OK. rewrite cdf_nth by (rewrite s_counts_length; lia).
  rewrite (s_counts_sum _ _ OK) by lia.
  assert (E : sum (s_counts (ravel im)) == all_pixels im).
  { rewrite <- (firstn_all (s_counts (ravel im))). rewrite s_counts_length, (s_counts_sum _ _ OK) by lia.
    change (Z.of_nat 256 - 1)%Z with 255%Z. rewrite cnt_all, ravel_length by assumption. unfold all_pixels. rewrite inject_Z_mult. reflexivity. }
  rewrite E. unfold share. rewrite up_to_cnt. replace (Z.of_nat (S (Z.to_nat j)) - 1)%Z with j by lia. reflexivity.
Qed.

Lemma share_mono : forall im i j, nonempty im -> (i <= j)%Z -> share im i <= share im j.
Proof.
  intros im i j NE H. unfold share, Qdiv. apply Qmult_le_compat_r.
  - rewrite !up_to_cnt. apply inj_le. apply cnt_le. intros x _. unfold lvl_le. rewrite !Z.leb_le. lia.
  - apply Qlt_le_weak, Qinv_lt_0_compat, all_pixels_pos, NE.
Qed.

Lemma share_up_to : forall im k, nonempty im -> share im k * all_pixels im == up_to im k.
Proof. intros im k NE. unfold share. pose proof (all_pixels_pos im NE). field. lra. Qed.

(** The output level of a pixel. *)
Definition out_level (im : image) (h : list Q) (r c : Z) : Z :=
  clipZ 0 255 (Z.of_nat (searchsorted (cdf h) (nth (Z.to_nat (digitize (at_ im r c))) (cdf (s_counts (ravel im))) 0))).

Lemma match_at : forall im h r c, at_ (match_histogram im h) r c = inject_Z (out_level im h r c).
Proof. reflexivity. Qed.

Lemma wanted_nth : forall h k, target h -> (0 <= k <= 255)%Z -> nth (Z.to_nat k) (cdf h) 0 == wanted h k.
Proof.
  intros h k (L & _ & _) K. rewrite cdf_nth by lia. unfold wanted. replace (Z.to_nat (k + 1)) with (S (Z.to_nat k)) by lia. reflexivity.
Qed.

Lemma out_level_range : forall im h r c, (0 <= out_level im h r c <= 255)%Z.
Proof. intros. apply clipZ_range. lia. Qed.

Lemma out_level_galois : forall im h r c k, nonempty im -> bounded 0 255 im -> target h -> pixel im r c -> (0 <= k < 255)%Z ->
  ((out_level im h r c <= k)%Z <-> share im (Qfloor (at_ im r c)) <= wanted h k).
Proof.
  intros im h r c k NE B T P K. pose proof (B r c P) as X. pose proof T as (L & NN & S).
  assert (E := s_cdf_nth im (Qfloor (at_ im r c)) NE B (floor_range _ X)).
  assert (W := wanted_nth h k T ltac:(lia)).
  unfold out_level. rewrite (digitize_level _ X).
  set (q := nth _ (cdf (s_counts (ravel im))) 0) in *. clearbody q.
  assert (G := search_galois (cdf h) q (Z.to_nat k) (cdf_sorted h NN S) ltac:(rewrite cdf_length; lia)).
  rewrite <- E, <- W, <- G. unfold clipZ. lia.
Qed.

Lemma out_level_mono : forall im h r c r' c', nonempty im -> bounded 0 255 im -> target h -> pixel im r c -> pixel im r' c' ->
  at_ im r c <= at_ im r' c' -> (out_level im h r c <= out_level im h r' c')%Z.
Proof.
  intros im h r c r' c' NE B T P P' LE. pose proof (out_level_range im h r c). pose proof (out_level_range im h r' c').
  destruct (Z.eq_dec (out_level im h r' c') 255) as [->|N]; [lia|].
  apply (out_level_galois im h r c _ NE B T P); [lia|].
  eapply Qle_trans; [apply share_mono; [assumption | apply Qfloor_resp_le, LE]|].
  apply (out_level_galois im h r' c' _ NE B T P'); lia.
Qed.

Lemma wanted_nonneg : forall h k, target h -> 0 <= wanted h k.
Proof.
  intros h k (L & NN & S). unfold wanted, Qdiv. apply Qmult_le_0_compat.
  - apply sum_nonneg. intros x I. apply NN. rewrite <- (firstn_skipn (Z.to_nat (k + 1)) h). apply in_or_app. left. exact I.
  - apply Qlt_le_weak, Qinv_lt_0_compat, S.
Qed.

Lemma below_count : forall im t n, nonempty im -> 0 <= t ->
  inject_Z (cnt (fun x => ((Qfloor x <=? Z.of_nat n - 1) && Qle_bool (share im (Qfloor x)) t && (0 <=? Qfloor x))%Z) (ravel im)) <= t * all_pixels im.
Proof.
  intros im t n NE T. pose proof (all_pixels_pos im NE) as AP. induction n as [|n IH].
  - replace (cnt _ _) with 0%Z.
    + change (inject_Z 0) with 0. apply Qmult_le_0_compat; lra.
    + symmetry. unfold cnt. rewrite (filter_ext_in _ (fun _ => false)).
      * induction (ravel im); [reflexivity | assumption].
      * intros x _. cbn [Z.of_nat]. destruct (Qfloor x <=? 0 - 1)%Z eqn:A, (0 <=? Qfloor x)%Z eqn:C; rewrite ?andb_false_r; try reflexivity.
        apply Z.leb_le in A, C. lia.
  - destruct (Qlt_le_dec t (share im (Z.of_nat n))) as [L|L].
    + rewrite (cnt_ext _ (fun x => ((Qfloor x <=? Z.of_nat n - 1) && Qle_bool (share im (Qfloor x)) t && (0 <=? Qfloor x))%Z)); [exact IH|].
      intros x _. destruct (Z.eq_dec (Qfloor x) (Z.of_nat n)) as [E|N].
      * rewrite E. replace (Qle_bool (share im (Z.of_nat n)) t) with false; [rewrite !andb_false_r; reflexivity|].
        symmetry. apply not_true_iff_false. rewrite Qle_bool_iff. lra.
      * f_equal. f_equal. apply eq_true_iff_eq. rewrite !Z.leb_le. lia.
    + eapply Qle_trans.
      * apply inj_le. apply (cnt_le _ (lvl_le (Z.of_nat n))). intros x _ H. apply andb_true_iff in H. destruct H as [H _].
        apply andb_true_iff in H. destruct H as [H _]. unfold lvl_le. rewrite Z.leb_le in *. lia.
      * rewrite <- up_to_cnt, <- (share_up_to im _ NE). apply Qmult_le_compat_r; lra.
Qed.

Lemma cnt_out : forall im h k, nonempty im -> bounded 0 255 im ->
  up_to (match_histogram im h) k = inject_Z (Z.of_nat (List.length (filter (fun rc => (out_level im h (fst rc) (snd rc) <=? k)%Z) (coordinates im)))).
Proof.
  intros im h k NE B. unfold up_to, count. f_equal. f_equal. f_equal. apply filter_ext_in.
  intros [r c] _. cbn [fst snd]. rewrite lvl_le_spec, match_at. unfold lvl_le. rewrite floor_inj. reflexivity.
Qed.

Lemma in_coordinates : forall im r c, In (r, c) (coordinates im) -> pixel im r c.
Proof.
  intros im r c I. unfold coordinates in I. apply in_prod_iff in I. destruct I as [R C]. apply in_map_iff in R, C.
  destruct R as (i & <- & R), C as (j & <- & C). apply in_seq in R, C. split; lia.
Qed.

Lemma coordinates_length : forall im, nonempty im -> Z.of_nat (List.length (coordinates im)) = (rows im * cols im)%Z.
Proof. intros im NE. rewrite <- ravel_length by assumption. rewrite ravel_prod, map_length. reflexivity. Qed.

Lemma wanted_255 : forall h, target h -> wanted h 255 == 1.
Proof.
  intros h (L & NN & S). unfold wanted. change (Z.to_nat (255 + 1)) with 256%nat. rewrite <- L, firstn_all. field. lra.
Qed.

Lemma match_count : forall im h k, nonempty im -> bounded 0 255 im -> target h -> (0 <= k <= 255)%Z ->
  up_to (match_histogram im h) k <= wanted h k * all_pixels im.
Proof.
  intros im h k NE B T K. rewrite (cnt_out im h k NE B). destruct (Z.eq_dec k 255) as [->|N].
  - rewrite (wanted_255 h T). rewrite (filter_ext_in _ (fun _ => true)).
    + assert (E : forall l : list (Z * Z), filter (fun _ => true) l = l) by (induction l; [reflexivity | cbn [filter]; congruence]).
      rewrite E, (coordinates_length im NE). unfold all_pixels. rewrite inject_Z_mult. lra.
    + intros [r c] _. apply Z.leb_le. apply out_level_range.
  - eapply Qle_trans; [|apply (below_count im (wanted h k) 256 NE (wanted_nonneg h k T))].
    rewrite ravel_prod. unfold cnt. rewrite filter_map_len. apply inj_le.
    apply Nat2Z.inj_le. apply filter_le. intros [r c] I L. cbn [fst snd] in *. apply in_coordinates in I. apply Z.leb_le in L.
    pose proof (floor_range _ (B r c I)) as F. rewrite !andb_true_iff, !Z.leb_le, Qle_bool_iff. split; [split|]; [lia| |lia].
    apply (out_level_galois im h r c k NE B T I); lia.
Qed.

(** * Matching an image to its own histogram *)
Definition integer_levels (im : image) : Prop :=
  forall r c, pixel im r c -> exists k, (0 <= k <= 255)%Z /\ at_ im r c == inject_Z k.

Lemma integer_bounded : forall im, integer_levels im -> bounded 0 255 im.
Proof.
  intros im I r c P. destruct (I r c P) as (k & K & E). rewrite E. change 255 with (inject_Z 255). change 0 with (inject_Z 0).
  rewrite <- !Zle_Qle. exact K.
Qed.

Lemma own_sum : forall a im h j, integer_levels im -> own_histogram a im h -> (j <= 256)%nat ->
  sum (firstn j h) == a * inject_Z (cnt (lvl_le (Z.of_nat j - 1)) (ravel im)).
Proof.
  intros a im h j I (L & O). pose proof (levels_image im (integer_bounded im I)) as OK.
  induction j as [|j IH]; intros H.
  - cbn [firstn]. rewrite sum_nil. rewrite <- (s_counts_sum _ 0 OK) by lia. cbn [firstn]. rewrite sum_nil. lra.
  - assert (S : firstn (S j) h = firstn j h ++ [nth j h 0]).
    { clear -H L. assert (j < List.length h)%nat as K by lia. clear H L. revert h K. induction j as [|j IH]; intros [|x h] K; cbn [List.length] in K; try lia; [reflexivity|].
      change (firstn (S (S j)) (x :: h)) with (x :: firstn (S j) h). rewrite IH by lia. reflexivity. }
    rewrite S, sum_app, IH by lia. rewrite sum_cons, sum_nil.
    specialize (O (Z.of_nat j) ltac:(lia)). rewrite Nat2Z.id in O. rewrite O, count_cnt.
    rewrite (cnt_split (lvl_le (Z.of_nat (Datatypes.S j) - 1)) (lvl_le (Z.of_nat j - 1)) (fun x => Qeq_bool x (inject_Z (Z.of_nat j)))).
    + rewrite inject_Z_plus. lra.
    + intros x X. destruct (in_ravel im x X) as (r & c & P & ->). destruct (I r c P) as (k & K & E). unfold lvl_le.
      assert (F : Qfloor (at_ im r c) = k) by (rewrite E; apply floor_inj). rewrite F.
      replace (Qeq_bool (at_ im r c) (inject_Z (Z.of_nat j))) with (k =? Z.of_nat j)%Z.
      * rewrite Z.leb_le, Z.leb_gt, Z.leb_le, Z.leb_gt, Z.eqb_eq, Z.eqb_neq. lia.
      * apply eq_true_iff_eq. rewrite Z.eqb_eq, Qeq_bool_iff, E. split; [intros ->; reflexivity|].
        unfold Qeq, inject_Z. cbn [Qnum Qden]. lia.
Qed.

Lemma own_wanted : forall a im h k, nonempty im -> 0 < a -> integer_levels im -> own_histogram a im h -> (-1 <= k <= 255)%Z ->
  wanted h k == share im k /\ target h.
Proof.
  intros a im h k NE A I O K. pose proof (integer_bounded im I) as B. pose proof (levels_image im B) as OK. pose proof (all_pixels_pos im NE) as AP.
  assert (T : sum h == a * all_pixels im).
  { destruct O as (L & O). rewrite <- (firstn_all h). rewrite (own_sum a im h _ I (conj L O)) by lia. rewrite L. change (Z.of_nat 256 - 1)%Z with 255%Z.
    rewrite cnt_all, ravel_length by assumption. unfold all_pixels. rewrite inject_Z_mult. reflexivity. }
  split.
  - unfold wanted. rewrite T. rewrite (own_sum a im h _ I O) by lia. replace (Z.of_nat (Z.to_nat (k + 1)) - 1)%Z with k by lia.
    unfold share. rewrite up_to_cnt. field. split; lra.
  - destruct O as (L & O). split; [assumption|]. split.
    + intros x X. destruct (In_nth h x 0 X) as (j & J & <-). specialize (O (Z.of_nat j) ltac:(lia)). rewrite Nat2Z.id in O. rewrite O, count_cnt.
      apply Qmult_le_0_compat; [lra|]. change 0 with (inject_Z 0). apply inj_le, cnt_pos.
    + rewrite T. apply Qmult_lt_0_compat; lra.
Qed.

Lemma match_own : forall a im h r c, nonempty im -> 0 < a -> integer_levels im -> own_histogram a im h -> pixel im r c ->
  at_ (match_histogram im h) r c == at_ im r c.
Proof.
  intros a im h r c NE A I O P. pose proof (integer_bounded im I) as B. destruct (I r c P) as (k & K & E). rewrite match_at, E.
  assert (F : Qfloor (at_ im r c) = k) by (rewrite E; apply floor_inj).
  destruct (own_wanted a im h k NE A I O ltac:(lia)) as [W T].
  assert (U : (out_level im h r c <= k)%Z).
  { destruct (Z.eq_dec k 255) as [->|N]; [apply out_level_range|].
    apply (out_level_galois im h r c k NE B T P); [lia|]. rewrite F, W. lra. }
  assert (V : ~ (out_level im h r c <= k - 1)%Z).
  { intros C. destruct (Z.eq_dec k 0) as [->|N]; [pose proof (out_level_range im h r c); lia|].
    apply (out_level_galois im h r c (k - 1) NE B T P) in C; [|lia]. rewrite F in C.
    destruct (own_wanted a im h (k - 1) NE A I O ltac:(lia)) as [W' _]. rewrite W' in C.
    apply (Qmult_le_compat_r _ _ (all_pixels im)) in C; [|apply Qlt_le_weak, all_pixels_pos, NE].
    rewrite !(share_up_to im _ NE), !up_to_cnt in C. rewrite <- Zle_Qle in C.
    rewrite (cnt_split (lvl_le k) (lvl_le (k - 1)) (fun x => (Qfloor x =? k)%Z)) in C.
    - pose proof (cnt_in (fun x => (Qfloor x =? k)%Z) (ravel im) (at_ im r c) (ravel_in im r c P) ltac:(apply Z.eqb_eq; exact F)). lia.
    - intros x _. unfold lvl_le. rewrite !Z.leb_le, !Z.leb_gt, !Z.eqb_eq, !Z.eqb_neq. lia. }
  replace (out_level im h r c) with k by lia. reflexivity.
Qed.
