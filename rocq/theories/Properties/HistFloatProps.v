(** Property C105: histogram matching in float arithmetic. *)
From Coq Require Import List Arith ZArith QArith Qround Bool Lia.
From Flocq Require Import IEEE754.BinarySingleNaN.
From Verif Require Import Prelude Model.Interp Model.Geometry Model.Render Model.InterpFloat Model.Hist Model.HistFloat.
From Verif Require Import Spec.InterpSpec Spec.InterpFloatSpec Spec.HistFloatSpec Proofs.HistFloatProofs.
Import ListNotations.
Local Open Scope Z_scope.

(** * C105 *)
(** A histogram of counts that add up to the number of pixels, at most 2^24: the
    floats give the exact result, in whatever order the sums are taken. *)
Theorem C105_exact : forall n im h out, intensities n im -> n <= 2 ^ 24 -> counts_of n h -> matched32 im h out ->
  forall r c, (value (g_at out r c) == at_ (match_histogram (values im) (map value h)) r c)%Q.
Proof. exact hist_exact. Qed.
Print Assumptions C105_exact.

(** With another total the rounding can only darken. *)
Theorem C105_darker : forall n m im h out, intensities n im -> n <= 2 ^ 24 -> counts_of m h -> 0 < m <= 2 ^ 24 ->
  matched32 im h out ->
  forall r c, (value (g_at out r c) <= at_ (match_histogram (values im) (map value h)) r c)%Q.
Proof. exact hist_lower. Qed.
Print Assumptions C105_darker.

(** Adding up from left to right is one way of doing it. *)
Fixpoint running (acc : f32) (l : list f32) : list f32 :=
  match l with
  | [] => []
  | x :: l => let acc := plus32 acc x in acc :: running acc l
  end.
Definition left_to_right (l : list f32) : list f32 := match l with [] => [] | x :: l => x :: running x l end.

Lemma running_length : forall l acc, List.length (running acc l) = List.length l.
Proof. induction l as [|x l IH]; intros acc; cbn [running List.length]; [reflexivity | rewrite IH; reflexivity]. Qed.

Lemma running_sums : forall l acc pre j, sum32 pre acc -> (j < List.length l)%nat ->
  sum32 (pre ++ firstn (S j) l) (nth j (running acc l) (f32_ofZ 0)).
Proof.
  induction l as [|x l IH]; intros acc pre j S J; [cbn in J; lia|]. cbn [running]. cbv zeta. destruct j as [|j].
  - exact (sum_two pre [x] acc x S (sum_one x)).
  - cbn [nth]. change (firstn (Datatypes.S (Datatypes.S j)) (x :: l)) with ([x] ++ firstn (Datatypes.S j) l). rewrite app_assoc.
    apply IH; [exact (sum_two pre [x] acc x S (sum_one x)) | cbn in J; lia].
Qed.

Lemma left_to_right_sums : forall l, cumsum32 l (left_to_right l).
Proof.
  intros [|x l]; [split; [reflexivity | intros j J; cbn in J; lia]|]. split; [cbn; rewrite running_length; reflexivity|].
  intros [|j] J; [exact (sum_one x)|]. cbn [left_to_right nth].
  change (firstn (Datatypes.S (Datatypes.S j)) (x :: l)) with ([x] ++ firstn (Datatypes.S j) l).
  apply running_sums; [exact (sum_one x) | cbn in J; lia].
Qed.

Definition match32 (im : fimage) (h : list f32) : fimage :=
  @mkGimage binary32 (g_rows im) (g_cols im)
    (fun r c => f32_ofZ (level32 im (left_to_right (counts32 (fravel im))) (left_to_right h) r c)).

Lemma match32_matched : forall im h, matched32 im h (match32 im h).
Proof.
  intros im h. exists (left_to_right (counts32 (fravel im))), (left_to_right h).
  split; [apply left_to_right_sums|]. split; [apply left_to_right_sums|]. split; [reflexivity|]. split; [reflexivity|].
  intros r c. reflexivity.
Qed.

Definition four : fimage := @mkGimage binary32 1 4 (fun _ c => f32_ofZ (40 * c)).
Definition two_bins (a b : Z) : list f32 := f32_ofZ a :: f32_ofZ b :: repeat (f32_ofZ 0) 254.

Lemma four_ok : intensities 4 four.
Proof.
  split; [cbn; lia|]. split; [cbn; lia|]. split; [reflexivity|]. intros r c [_ C]. cbn [four g_cols g_at] in *.
  assert (D : c = 0 \/ c = 1 \/ c = 2 \/ c = 3) by lia.
  destruct D as [->|[->|[->| ->]]]; (split; [vm_compute; reflexivity | split; vm_compute; discriminate]).
Qed.

Lemma count_ofZ : forall z, 0 <= z < 2 ^ 24 -> is_count (f32_ofZ z) z.
Proof.
  intros z Z. destruct (InterpBinary.rep_ofZ z ltac:(lia)) as [F E]. split; [exact F|]. split; [lia|].
  apply Qreals.eqR_Qeq. rewrite (InterpBinary.value_R _ F), E, InterpFloatProofs.Q2R_Z. reflexivity.
Qed.

Lemma two_bins_ok : forall a b, 0 <= a < 2 ^ 24 -> 0 <= b < 2 ^ 24 -> counts_of (a + b) (two_bins a b).
Proof.
  intros a b A B. split; [reflexivity|]. exists (a :: b :: repeat 0 254). split.
  - unfold two_bins. do 2 (constructor; [apply count_ofZ; lia|]).
    generalize 254%nat. intros k. induction k as [|k IH]; cbn [repeat]; constructor; [apply count_ofZ; lia | exact IH].
  - cbn [fold_right]. assert (E : forall k, fold_right Z.add 0 (repeat 0 k) = 0) by (induction k; cbn; lia).
    rewrite E. lia.
Qed.

(** A total that is not the number of pixels: not always the exact result. *)
Theorem C105_other_total_refuted : exists n m im h out r c, intensities n im /\ n <= 2 ^ 24 /\ counts_of m h /\ 0 < m <= 2 ^ 24 /\
  matched32 im h out /\ fpixel im r c /\
  ~ (value (g_at out r c) == at_ (match_histogram (values im) (map value h)) r c)%Q.
Proof.
  exists 4, (12582884 + 4194295), four, (two_bins 12582884 4194295), (match32 four (two_bins 12582884 4194295)), 0, 2.
  split; [exact four_ok|]. split; [lia|]. split; [apply two_bins_ok; lia|]. split; [lia|].
  split; [apply match32_matched|]. split; [split; cbn; lia|]. vm_compute. discriminate.
Qed.
Print Assumptions C105_other_total_refuted.

Example C105_case : intensities 4 four /\ counts_of 4 (two_bins 2 2) /\ matched32 four (two_bins 2 2) (match32 four (two_bins 2 2)) /\
  (value (g_at (match32 four (two_bins 2 2)) 0 1) == 0)%Q /\ (value (g_at (match32 four (two_bins 2 2)) 0 2) == 1)%Q.
Proof.
  split; [exact four_ok|]. split; [exact (two_bins_ok 2 2 ltac:(lia) ltac:(lia))|]. split; [apply match32_matched|].
  split; vm_compute; reflexivity.
Qed.
