(** Validation accepts exactly the documented values. *)
From Coq Require Import List Arith ZArith QArith String Bool Lia Lqa.
From Verif Require Import Prelude Model.PyVal Model.Types Spec.TypesSpec.
Import ListNotations.

Definition to_ext (x : pynum) : option ext :=
  match x with NaN => None | Inf true => Some NegInf | Inf false => Some PosInf | Fin q => Some (Num q) end.

Lemma number_num : forall v a, number v a <-> exists x, num_of v = Some x /\ to_ext x = Some a.
Proof.
  intros v a. split.
  - intros H. destruct H; cbn; eexists; split; reflexivity.
  - intros (x & A & B). destruct v as [ | b | z | f | | | | ]; cbn in A; try discriminate; inversion A; subst.
    + cbn in B. inversion B. subst. destruct b; constructor.
    + cbn in B. inversion B. constructor.
    + destruct x as [ | [] | q ]; cbn in B; inversion B; constructor.
Qed.

Lemma number_fun : forall v a b, number v a -> number v b -> a = b.
Proof. intros v a b A B. rewrite number_num in A, B. destruct A as (x & A1 & A2), B as (y & B1 & B2). congruence. Qed.

Lemma num_leb_le : forall x y, num_leb x y = true <-> exists a b, to_ext x = Some a /\ to_ext y = Some b /\ le a b.
Proof.
  intros x y. split.
  - destruct x as [ | [] | p ], y as [ | [] | q ]; cbn; intros H; try discriminate; eexists _, _; (split; [reflexivity|]); (split; [reflexivity|]); cbn; try exact I.
    apply Qle_bool_iff, H.
  - intros (a & b & A & B & L). destruct x as [ | [] | p ], y as [ | [] | q ]; cbn in A, B; inversion A; inversion B; subst; cbn in *; try reflexivity; try contradiction.
    apply Qle_bool_iff, L.
Qed.

Lemma num_ltb_lt : forall x y, num_ltb x y = true <-> exists a b, to_ext x = Some a /\ to_ext y = Some b /\ lt a b.
Proof.
  intros x y. split.
  - destruct x as [ | [] | p ], y as [ | [] | q ]; cbn; intros H; try discriminate; eexists _, _; (split; [reflexivity|]); (split; [reflexivity|]); unfold lt; cbn; try tauto.
    apply negb_true_iff, not_true_iff_false in H. rewrite Qle_bool_iff in H. lra.
  - intros (a & b & A & B & L1 & L2). destruct x as [ | [] | p ], y as [ | [] | q ]; cbn in A, B; inversion A; inversion B; subst; cbn in *; try reflexivity; try tauto.
    apply negb_true_iff, not_true_iff_false. rewrite Qle_bool_iff. exact L2.
Qed.

Lemma py_le_ok : forall u v, py_le u v = Ok true <-> exists a b, number u a /\ number v b /\ le a b.
Proof.
  intros u v. unfold py_le, py_cmp. split.
  - intros H. destruct (num_of u) as [x|] eqn:U; [|discriminate]. destruct (num_of v) as [y|] eqn:V; [|discriminate].
    assert (E : num_leb x y = true) by congruence. apply num_leb_le in E. destruct E as (a & b & A & B & L). exists a, b.
    rewrite !number_num. split; [exists x; auto|]. split; [exists y; auto | exact L].
  - intros (a & b & A & B & L). rewrite number_num in A, B. destruct A as (x & U & A), B as (y & V & B). rewrite U, V. f_equal.
    apply num_leb_le. exists a, b. auto.
Qed.
Lemma py_lt_ok : forall u v, py_lt u v = Ok true <-> exists a b, number u a /\ number v b /\ lt a b.
Proof.
  intros u v. unfold py_lt, py_cmp. split.
  - intros H. destruct (num_of u) as [x|] eqn:U; [|discriminate]. destruct (num_of v) as [y|] eqn:V; [|discriminate].
    assert (E : num_ltb x y = true) by congruence. apply num_ltb_lt in E. destruct E as (a & b & A & B & L). exists a, b.
    rewrite !number_num. split; [exists x; auto|]. split; [exists y; auto | exact L].
  - intros (a & b & A & B & L). rewrite number_num in A, B. destruct A as (x & U & A), B as (y & V & B). rewrite U, V. f_equal.
    apply num_ltb_lt. exists a, b. auto.
Qed.

Lemma py_and_ok : forall a b, py_and a b = Ok true <-> a = Ok true /\ b = Ok true.
Proof. intros [[]|e] b; cbn; (split; [intros H | intros [H1 H2]]); try discriminate; auto. Qed.
Lemma require_ok : forall c k, require c k = Ok tt <-> c = Ok true /\ k = Ok tt.
Proof. intros [[]|e] k; cbn; (split; [intros H | intros [H1 H2]]); try discriminate; auto. Qed.
Lemma py_all_ok : forall {A} (p : A -> result bool) l, py_all p l = Ok true <-> Forall (fun x => p x = Ok true) l.
Proof.
  intros A p l. induction l as [|x l IH]; cbn [py_all]; [split; constructor|]. rewrite py_and_ok, IH. split.
  - intros [H1 H2]. constructor; assumption.
  - intros H. inversion H. auto.
Qed.

Lemma number_zero : forall a, number zero a <-> a = Num 0.
Proof. intros a. split; [intros H; inversion H; reflexivity | intros ->; constructor]. Qed.
Lemma number_const : forall q a, number (PFloat (Fin q)) a <-> a = Num q.
Proof. intros q a. split; [intros H; inversion H; reflexivity | intros ->; constructor]. Qed.
Lemma number_z : forall z a, number (PInt z) a <-> a = Num (inject_Z z).
Proof. intros z a. split; [intros H; inversion H; reflexivity | intros ->; constructor]. Qed.

Lemma integer_number : forall v z, integer v z -> number v (Num (inject_Z z)).
Proof. intros v z H. destruct H; [constructor | change (inject_Z 1) with 1%Q; constructor | change (inject_Z 0) with 0%Q; constructor]. Qed.
Lemma is_int_integer : forall v, is_int v = true <-> exists z, integer v z.
Proof.
  intros v. split.
  - destruct v as [ | b | z | | | | | ]; cbn; intros H; try discriminate; [destruct b|]; eexists; constructor.
  - intros [z H]. destruct H; reflexivity.
Qed.
Lemma number_is_number : forall v a, number v a -> is_number v = true.
Proof. intros v a H. destruct H; reflexivity. Qed.

Lemma lt_Z : forall z, lt (Num 0) (Num (inject_Z z)) <-> (0 < z)%Z.
Proof.
  intros z. unfold lt, le. rewrite Zlt_Qlt. change (inject_Z 0) with 0%Q. split; [intros [A B] | intros A]; lra.
Qed.

Lemma positive_int_ok : forall v, positive_int v = Ok true <-> exists z, integer v z /\ (0 < z)%Z.
Proof.
  intros v. unfold positive_int. rewrite py_and_ok. split.
  - intros [A B]. assert (I : is_int v = true) by congruence. apply is_int_integer in I. destruct I as [z I]. exists z. split; [exact I|].
    apply py_lt_ok in B. destruct B as (a & b & Ha & Hb & L). apply number_zero in Ha. subst a.
    rewrite (number_fun _ _ _ Hb (integer_number _ _ I)) in L. apply lt_Z, L.
  - intros (z & I & P). split; [f_equal; apply is_int_integer; eauto|]. apply py_lt_ok. exists (Num 0), (Num (inject_Z z)).
    split; [apply number_zero; reflexivity|]. split; [apply integer_number, I | apply lt_Z, P].
Qed.

Lemma non_negative_ok : forall v, non_negative_number v = Ok true <-> exists a, number v a /\ non_negative a.
Proof.
  intros v. unfold non_negative_number. rewrite py_and_ok. split.
  - intros [_ B]. apply py_le_ok in B. destruct B as (a & b & Ha & Hb & L). apply number_zero in Ha. subst a. exists b. split; [exact Hb | exact L].
  - intros (a & N & P). split; [f_equal; exact (number_is_number _ _ N)|]. apply py_le_ok. exists (Num 0), a.
    split; [apply number_zero; reflexivity|]. split; [exact N | exact P].
Qed.

Lemma tuple2_ok : forall {A} (R : pyval -> A -> Prop) (P : A -> Prop) p, (forall v, p v = Ok true <-> exists a, R v a /\ P a) ->
  forall v, tuple2 p v = Ok true <-> exists ab, pair_of R v ab /\ P (fst ab) /\ P (snd ab).
Proof.
  intros A R P p S v. split.
  - unfold tuple2. destruct v as [ | | | | | | [|u [|w [|]]] | ]; intros H; try discriminate. apply py_all_ok in H. inversion H as [|? ? H1 H2]; subst. inversion H2 as [|? ? H3 H4]; subst.
    apply S in H1. apply S in H3. destruct H1 as (a & R1 & P1), H3 as (b & R2 & P2). exists (a, b). split; [constructor; assumption | split; assumption].
  - intros ((a & b) & H & P1 & P2). inversion H; subst. cbn [tuple2]. apply py_all_ok. cbn [fst snd] in *. repeat constructor; apply S; eauto.
Qed.

Lemma probability_ok : forall v, py_and (py_le f_zero v) (py_le v f_one) = Ok true <-> exists a, number v a /\ probability a.
Proof.
  intros v. rewrite py_and_ok, !py_le_ok. split.
  - intros [(a & b & A & B & L) (c & d & C & D & M)]. apply number_const in A. apply number_const in D. subst a d.
    rewrite (number_fun _ _ _ C B) in M. exists b. split; [exact B | split; assumption].
  - intros (a & N & P1 & P2). split; [exists (Num 0), a | exists a, (Num 1)]; (split; [|split]); try assumption; apply number_const; reflexivity.
Qed.

Lemma density_ok : forall v, tuple2 non_negative_number v = Ok true ->
  (match v with PTuple (a :: b :: _) => bind (py_lt b a) (fun x => Ok (negb x)) | _ => Err TypeError end) = Ok true <->
  exists ab, pair_of number v ab /\ non_negative (fst ab) /\ le (fst ab) (snd ab).
Proof.
  intros v H. apply (tuple2_ok number non_negative _ non_negative_ok) in H. destruct H as ((a & b) & H & P1 & P2). inversion H as [u w ? ? N1 N2]; subst. cbn [fst snd] in *.
  split.
  - intros E. exists (a, b). split; [exact H|]. split; [exact P1|]. cbn [fst snd]. unfold py_lt, py_cmp in E. rewrite number_num in N1, N2. destruct N1 as (x & X1 & X2), N2 as (y & Y1 & Y2).
    rewrite X1, Y1 in E. cbn [bind] in E. assert (F : num_ltb y x = false) by (apply negb_true_iff; inversion E; reflexivity).
    destruct x as [ | [] | p ], y as [ | [] | q ]; cbn in X2, Y2; inversion X2; inversion Y2; subst; cbn in *; try discriminate; try exact I; try contradiction.
    apply negb_false_iff, Qle_bool_iff in F. exact F.
  - intros ((a' & b') & H' & P1' & L). inversion H' as [? ? ? ? N1' N2']; subst. cbn [fst snd] in *.
    rewrite (number_fun _ _ _ N1' N1), (number_fun _ _ _ N2' N2) in L. unfold py_lt, py_cmp. rewrite number_num in N1, N2. destruct N1 as (x & X1 & X2), N2 as (y & Y1 & Y2).
    rewrite X1, Y1. cbn [bind]. f_equal. apply negb_true_iff.
    destruct x as [ | [] | p ], y as [ | [] | q ]; cbn in X2, Y2; inversion X2; inversion Y2; subst; cbn in *; try reflexivity; try contradiction.
    apply negb_false_iff, Qle_bool_iff, L.
Qed.

(** The three lists of ranges. *)
Lemma ranges_ok : forall (P : ext * ext -> Prop) p v,
  (forall a b, p a b = Ok true <-> exists r, number a (fst r) /\ number b (snd r) /\ P r) ->
  list_of_pairs v = Ok true /\ all_pairs p v = Ok true <-> exists l, list_of (pair_of number) v l /\ l <> [] /\ Forall P l.
Proof.
  intros P p v S. split.
  - intros [A B]. destruct v as [ | | | | | us | | ]; cbn in A; try discriminate. destruct us as [|u us]; [discriminate|].
    assert (F : forallb is_pair (u :: us) = true) by (inversion A; reflexivity). unfold all_pairs in B. apply py_all_ok in B.
    assert (G : forall us, forallb is_pair us = true ->
      Forall (fun r => match r with PTuple [a; b] => p a b | _ => Err ValueError end = Ok true) us ->
      exists l, Forall2 (pair_of number) us l /\ Forall P l).
    { clear - S. induction us as [|u us IH]; intros F B; [exists []; split; constructor|]. cbn [forallb] in F. apply andb_true_iff in F. destruct F as [F1 F2].
      inversion B as [|? ? B1 B2]; subst. destruct (IH F2 B2) as (l & L1 & L2).
      destruct u as [ | | | | | | [|a [|b [|]]] | ]; try discriminate. apply S in B1. destruct B1 as ((x & y) & N1 & N2 & R). cbn [fst snd] in *.
      exists ((x, y) :: l). split; constructor; try assumption. constructor; assumption. }
    destruct (G _ F B) as (l & L1 & L2). exists l. split; [constructor; exact L1|]. split; [|exact L2]. intros ->. inversion L1.
  - intros (l & L & NE & F). inversion L as [us ? L2]; subst. split.
    + destruct us as [|u us]; [inversion L2; subst; congruence|]. cbn [list_of_pairs]. f_equal. clear - L2. remember (u :: us) as w. clear Heqw u us.
      induction L2 as [|x y w l H L IH]; [reflexivity|]. cbn [forallb]. rewrite IH, andb_true_r. inversion H. reflexivity.
    + cbn [all_pairs]. apply py_all_ok. clear - L2 F S. induction L2 as [|x y w l H L IH]; constructor.
      * inversion H; subst. inversion F; subst. apply S. exists (a, b). auto.
      * apply IH. inversion F. assumption.
Qed.

Lemma positive_range_ok : forall a b, py_and (py_lt zero a) (py_le a b) = Ok true <->
  exists r, number a (fst r) /\ number b (snd r) /\ positive_range r.
Proof.
  intros a b. rewrite py_and_ok, py_lt_ok, py_le_ok. split.
  - intros [(z & x & Z & X & L) (x' & y & X' & Y & M)]. apply number_zero in Z. subst z. rewrite (number_fun _ _ _ X' X) in M.
    exists (x, y). split; [exact X|]. split; [exact Y | split; assumption].
  - intros ((x & y) & X & Y & L & M). cbn [fst snd] in *. split; [exists (Num 0), x | exists x, y]; (split; [|split]); try assumption. apply number_zero; reflexivity.
Qed.
Lemma correlation_range_ok : forall a b, py_and (py_lt minus_one a) (py_and (py_le a b) (py_lt b one)) = Ok true <->
  exists r, number a (fst r) /\ number b (snd r) /\ correlation_range r.
Proof.
  intros a b. rewrite !py_and_ok, !py_lt_ok, py_le_ok. split.
  - intros [(z & x & Z & X & L) [(x' & y & X' & Y & M) (y' & o & Y' & O & N)]]. apply number_z in Z. apply number_z in O. subst z o.
    rewrite (number_fun _ _ _ X' X) in M. rewrite (number_fun _ _ _ Y' Y) in N.
    exists (x, y). split; [exact X|]. split; [exact Y | split; [exact L | split; assumption]].
  - intros ((x & y) & X & Y & L & M & N). cbn [fst snd] in *. split; [exists (Num (-(1))), x | split; [exists x, y | exists y, (Num 1)]];
      (split; [|split]); try assumption; apply number_z; reflexivity.
Qed.

Lemma std_ok_ok : forall v, v <> nan -> std_ok v = Ok true <-> exists a, number v a /\ non_negative a.
Proof.
  intros v NN. unfold std_ok, nan in *. split.
  - destruct (is_number v) eqn:I; [|discriminate]. intros H. unfold py_lt, py_cmp in H. destruct (num_of v) as [x|] eqn:V; [|discriminate].
    cbn [num_of zero bind] in H. assert (F : num_ltb x (Fin (inject_Z 0)) = false) by (apply negb_true_iff; congruence).
    destruct (to_ext x) as [a|] eqn:X.
    + exists a. split; [apply number_num; eauto|]. destruct x as [ | [] | q ]; cbn in X, F; inversion X; subst; try discriminate; [exact I0 || exact Logic.I|].
      apply negb_false_iff, Qle_bool_iff in F. exact F.
    + exfalso. apply NN. destruct x as [ | [] | q ]; cbn in X; try discriminate. destruct v; cbn in V; try discriminate. congruence.
  - intros (a & N & P). rewrite (number_is_number _ _ N). apply number_num in N. destruct N as (x & V & X). unfold py_lt, py_cmp. rewrite V. cbn [num_of zero bind]. f_equal.
    apply negb_true_iff. destruct x as [ | [] | q ]; cbn in X; inversion X; subst; cbn in *; try contradiction; try reflexivity. apply negb_false_iff, Qle_bool_iff, P.
Qed.
Lemma dt_ok_ok : forall v, v <> nan -> dt_ok v = Ok true <-> exists a, number v a /\ lt (Num 0) a.
Proof.
  intros v NN. unfold dt_ok, nan in *. split.
  - destruct (is_number v) eqn:I; [|discriminate]. intros H. unfold py_le, py_cmp in H. destruct (num_of v) as [x|] eqn:V; [|discriminate].
    cbn [num_of zero bind] in H. assert (F : num_leb x (Fin (inject_Z 0)) = false) by (apply negb_true_iff; congruence).
    destruct (to_ext x) as [a|] eqn:X.
    + exists a. split; [apply number_num; eauto|]. destruct x as [ | [] | q ]; cbn in X, F; inversion X; subst; try discriminate; [unfold lt; cbn; tauto|].
      apply not_true_iff_false in F. rewrite Qle_bool_iff in F. unfold lt, le. change (inject_Z 0) with 0%Q in F. lra.
    + exfalso. apply NN. destruct x as [ | [] | q ]; cbn in X; try discriminate. destruct v; cbn in V; try discriminate. congruence.
  - intros (a & N & P1 & P2). rewrite (number_is_number _ _ N). apply number_num in N. destruct N as (x & V & X). unfold py_le, py_cmp. rewrite V. cbn [num_of zero bind]. f_equal.
    apply negb_true_iff. destruct x as [ | [] | q ]; cbn in X; inversion X; subst; cbn in *; try contradiction; try reflexivity.
    apply not_true_iff_false. rewrite Qle_bool_iff. exact P2.
Qed.

Lemma accepted : forall s, i_dt s <> nan -> i_noise_gaussian_std s <> nan ->
  (post_init s = Ok tt <-> exists t, denotes s t /\ documented t).
Proof.
  intros s ND NS. unfold post_init.
  assert (D : forall k, (require (list_of_pairs (i_diameter_ranges s)) (require (all_pairs (fun a b => py_and (py_lt zero a) (py_le a b)) (i_diameter_ranges s)) k) = Ok tt
    <-> (exists l, list_of (pair_of number) (i_diameter_ranges s) l /\ l <> [] /\ Forall positive_range l) /\ k = Ok tt)).
  { intros k. rewrite !require_ok, <- (ranges_ok _ _ _ positive_range_ok). tauto. }
  assert (J : forall k, (require (list_of_pairs (i_intensity_ranges s)) (require (all_pairs (fun a b => py_and (py_lt zero a) (py_le a b)) (i_intensity_ranges s)) k) = Ok tt
    <-> (exists l, list_of (pair_of number) (i_intensity_ranges s) l /\ l <> [] /\ Forall positive_range l) /\ k = Ok tt)).
  { intros k. rewrite !require_ok, <- (ranges_ok _ _ _ positive_range_ok). tauto. }
  assert (R : forall k, (require (list_of_pairs (i_rho_ranges s)) (require (all_pairs (fun a b => py_and (py_lt minus_one a) (py_and (py_le a b) (py_lt b one))) (i_rho_ranges s)) k) = Ok tt
    <-> (exists l, list_of (pair_of number) (i_rho_ranges s) l /\ l <> [] /\ Forall correlation_range l) /\ k = Ok tt)).
  { intros k. rewrite !require_ok, <- (ranges_ok _ _ _ correlation_range_ok). tauto. }
  split.
  - intros H.
    apply require_ok in H; destruct H as [H1 H]. apply require_ok in H; destruct H as [H2 H]. apply require_ok in H; destruct H as [H3 H].
    apply require_ok in H; destruct H as [H4 H]. apply require_ok in H; destruct H as [_ H]. apply require_ok in H; destruct H as [H5 H].
    apply require_ok in H; destruct H as [H6 H]. apply require_ok in H; destruct H as [H7 H].
    apply D in H; destruct H as [(ds & L1 & N1 & F1) H]. apply J in H; destruct H as [(is_ & L2 & N2 & F2) H]. apply R in H; destruct H as [(rs & L3 & N3 & F3) H].
    apply require_ok in H; destruct H as [G1 H]. apply require_ok in H; destruct H as [G2 H]. apply require_ok in H; destruct H as [G3 H].
    apply require_ok in H; destruct H as [G4 H]. apply require_ok in H; destruct H as [G5 H]. apply require_ok in H; destruct H as [G6 H].
    apply require_ok in H; destruct H as [G7 _].
    apply positive_int_ok in H1. apply (tuple2_ok integer (fun z => (0 < z)%Z) _ positive_int_ok) in H2. apply probability_ok in H3. apply probability_ok in H4.
    apply (tuple2_ok number non_negative _ non_negative_ok) in H5. apply (density_ok _ H6) in H7.
    apply non_negative_ok in G1. apply non_negative_ok in G2. apply non_negative_ok in G3. apply non_negative_ok in G4. apply non_negative_ok in G5.
    apply (std_ok_ok _ NS) in G6. apply (dt_ok_ok _ ND) in G7.
    destruct H1 as (b & B1 & B2), H2 as (sh & S1 & S2), H3 as (h1 & P1 & P2), H4 as (h2 & P3 & P4), H5 as (o & O1 & O2), H7 as (d & D1 & D2).
    destruct G1 as (dv & V1 & V2), G2 as (iv & V3 & V4), G3 as (rv & V5 & V6), G4 as (nu & V7 & V8), G5 as (nm & V9 & V10), G6 as (ns & W1 & W2), G7 as (dt & W3 & W4).
    exists (mkTspec b sh o d h1 h2 ds dv is_ iv rs rv dt nu nm ns). split; constructor; cbn; auto.
  - intros (t & N & P). pose proof (d_density _ P) as PD. pose proof (d_diameters _ P) as PS. pose proof (d_intensities _ P) as PI. pose proof (d_rhos _ P) as PR. destruct N, P.
    apply require_ok. split; [apply positive_int_ok; eauto|].
    assert (SH : tuple2 positive_int (i_image_shape s) = Ok true) by (apply (tuple2_ok integer (fun z => (0 < z)%Z) _ positive_int_ok); eauto).
    apply require_ok. split; [exact SH|]. apply require_ok. split; [apply probability_ok; eauto|]. apply require_ok. split; [apply probability_ok; eauto|].
    apply require_ok. split; [exact SH|]. apply require_ok. split; [apply (tuple2_ok number non_negative _ non_negative_ok); eauto|].
    assert (DE : tuple2 non_negative_number (i_seeding_density_range s) = Ok true).
    { apply (tuple2_ok number non_negative _ non_negative_ok). exists (t_density t). split; [assumption|]. destruct PD as [A B]. split; [exact A|].
      unfold non_negative in *. destruct (fst (t_density t)) as [ | p | ], (snd (t_density t)) as [ | q | ]; cbn in *; try contradiction; try exact Logic.I. lra. }
    apply require_ok. split; [exact DE|]. apply require_ok. split; [apply (density_ok _ DE); eauto|].
    apply D. split; [destruct PS; eauto|]. apply J. split; [destruct PI; eauto|]. apply R. split; [destruct PR; eauto|].
    apply require_ok. split; [apply non_negative_ok; eauto|]. apply require_ok. split; [apply non_negative_ok; eauto|]. apply require_ok. split; [apply non_negative_ok; eauto|].
    apply require_ok. split; [apply non_negative_ok; eauto|]. apply require_ok. split; [apply non_negative_ok; eauto|].
    apply require_ok. split; [apply (std_ok_ok _ NS); eauto|]. apply require_ok. split; [apply (dt_ok_ok _ ND); eauto | reflexivity].
Qed.

(** ** Which exceptions validation raises *)

Lemma numeric_num : forall v, numeric v <-> exists x, num_of v = Some x.
Proof.
  intros v. split.
  - intros [->|[a H]]; [exists NaN; reflexivity|]. apply number_num in H. destruct H as (x & H & _). eauto.
  - intros [x H]. destruct (to_ext x) as [a|] eqn:E; [right; exists a; apply number_num; eauto|]. left.
    destruct x as [ | [] | q ]; cbn in E; try discriminate. destruct v; cbn in H; try discriminate. inversion H. reflexivity.
Qed.

Lemma py_cmp_err : forall c u v e, py_cmp c u v = Err e -> e = TypeError /\ (~ numeric u \/ ~ numeric v).
Proof.
  intros c u v e H. unfold py_cmp in H. rewrite !numeric_num. destruct (num_of u) as [x|].
  - destruct (num_of v) as [y|]; inversion H. split; [reflexivity|]. right. intros [? ?]. discriminate.
  - inversion H. split; [reflexivity|]. left. intros [? ?]. discriminate.
Qed.
Lemma require_err : forall c k e, require c k = Err e -> e = ValueError \/ c = Err e \/ k = Err e.
Proof. intros [[]|e'] k e H; cbn in H; [right; right; exact H | inversion H; left; reflexivity | right; left; inversion H; reflexivity]. Qed.
Lemma py_and_err : forall a b e, py_and a b = Err e -> a = Err e \/ (a = Ok true /\ b = Err e).
Proof. intros [[]|e'] b e H; cbn in H; [right; auto | discriminate | left; exact H]. Qed.
Lemma py_all_err : forall {A} (p : A -> result bool) l e, py_all p l = Err e -> exists x, In x l /\ p x = Err e.
Proof.
  intros A p l e. induction l as [|x l IH]; cbn [py_all]; [discriminate|]. intros H. apply py_and_err in H. destruct H as [H|[_ H]].
  - exists x. split; [left; reflexivity | exact H].
  - destruct (IH H) as (y & I & E). exists y. split; [right; exact I | exact E].
Qed.
Lemma zero_numeric : numeric zero. Proof. right. eexists. constructor. Qed.
Lemma is_number_numeric : forall v, is_number v = true -> numeric v.
Proof. intros v H. apply numeric_num. destruct v; try discriminate; cbn; eauto. Qed.
Lemma positive_int_total : forall v e, positive_int v = Err e -> False.
Proof.
  intros v e H. unfold positive_int in H. apply py_and_err in H. destruct H as [H|[A H]]; [discriminate|]. apply py_cmp_err in H. destruct H as [_ [H|H]]; [exact (H zero_numeric)|].
  apply H, is_number_numeric. destruct v; cbn in *; congruence.
Qed.
Lemma non_negative_total : forall v e, non_negative_number v = Err e -> False.
Proof.
  intros v e H. unfold non_negative_number in H. apply py_and_err in H. destruct H as [H|[A H]]; [discriminate|]. apply py_cmp_err in H. destruct H as [_ [H|H]]; [exact (H zero_numeric)|].
  apply H, is_number_numeric. congruence.
Qed.
Lemma tuple2_total : forall p v e, (forall u e, p u = Err e -> False) -> tuple2 p v = Err e -> False.
Proof.
  intros p v e T H. unfold tuple2 in H. destruct v as [ | | | | | | [|u [|w [|]]] | ]; try discriminate. apply py_all_err in H. destruct H as (x & _ & H). exact (T _ _ H).
Qed.
Lemma std_total : forall v e, std_ok v = Err e -> False.
Proof.
  intros v e H. unfold std_ok in H. destruct (is_number v) eqn:I; [|discriminate]. destruct (py_lt v zero) as [b|e'] eqn:C; cbn in H; [discriminate|].
  apply py_cmp_err in C. destruct C as [_ [C|C]]; [exact (C (is_number_numeric _ I)) | exact (C zero_numeric)].
Qed.
Lemma dt_total : forall v e, dt_ok v = Err e -> False.
Proof.
  intros v e H. unfold dt_ok in H. destruct (is_number v) eqn:I; [|discriminate]. destruct (py_le v zero) as [b|e'] eqn:C; cbn in H; [discriminate|].
  apply py_cmp_err in C. destruct C as [_ [C|C]]; [exact (C (is_number_numeric _ I)) | exact (C zero_numeric)].
Qed.
Lemma probability_err : forall v e, py_and (py_le f_zero v) (py_le v f_one) = Err e -> e = TypeError /\ ~ numeric v.
Proof.
  assert (F : numeric f_zero /\ numeric f_one) by (split; right; eexists; constructor).
  intros v e H. apply py_and_err in H. destruct H as [H|[_ H]]; apply py_cmp_err in H; destruct H as [E [H|H]]; tauto.
Qed.
Lemma list_of_pairs_total : forall v e, list_of_pairs v = Err e -> False.
Proof. intros v e H. destruct v as [ | | | | | [|] | | ]; discriminate. Qed.
Lemma density_total : forall v e, tuple2 non_negative_number v = Ok true ->
  (match v with PTuple (a :: b :: _) => bind (py_lt b a) (fun x => Ok (negb x)) | _ => Err TypeError end) = Err e -> False.
Proof.
  intros v e H E. apply (tuple2_ok number non_negative _ non_negative_ok) in H. destruct H as ((a & b) & H & _). inversion H as [u w ? ? N1 N2]; subst.
  destruct (py_lt w u) as [|e'] eqn:C; cbn in E; [discriminate|]. apply py_cmp_err in C. destruct C as [_ [C|C]]; apply C; right; eauto.
Qed.
Lemma ranges_err : forall p v e, list_of_pairs v = Ok true -> (forall a b e, p a b = Err e -> e = TypeError /\ (~ numeric a \/ ~ numeric b)) ->
  all_pairs p v = Err e -> e = TypeError /\ odd_entry v.
Proof.
  intros p v e L S H. destruct v as [ | | | | | [|r l] | | ]; try discriminate. cbn [all_pairs] in H. apply py_all_err in H. destruct H as (x & I & H).
  cbn [list_of_pairs] in L. assert (F : forallb is_pair (r :: l) = true) by (inversion L; reflexivity). rewrite forallb_forall in F. specialize (F _ I).
  destruct x as [ | | | | | | [|a [|b [|]]] | ]; try discriminate. apply S in H. destruct H as [E H]. split; [exact E|]. exists (r :: l), a, b. auto.
Qed.
Lemma positive_range_err : forall a b e, py_and (py_lt zero a) (py_le a b) = Err e -> e = TypeError /\ (~ numeric a \/ ~ numeric b).
Proof.
  intros a b e H. pose proof zero_numeric. apply py_and_err in H. destruct H as [H|[_ H]]; apply py_cmp_err in H; tauto.
Qed.
Lemma correlation_range_err : forall a b e, py_and (py_lt minus_one a) (py_and (py_le a b) (py_lt b one)) = Err e ->
  e = TypeError /\ (~ numeric a \/ ~ numeric b).
Proof.
  assert (F : numeric minus_one /\ numeric one) by (split; right; eexists; constructor).
  intros a b e H. apply py_and_err in H. destruct H as [H|[_ H]]; [apply py_cmp_err in H; tauto|].
  apply py_and_err in H. destruct H as [H|[_ H]]; apply py_cmp_err in H; tauto.
Qed.

Lemma require_err_after : forall c k e, require c k = Err e -> e = ValueError \/ c = Err e \/ (c = Ok true /\ k = Err e).
Proof. intros [[]|e'] k e H; cbn in H; [right; right; auto | inversion H; left; reflexivity | right; left; inversion H; reflexivity]. Qed.

Lemma rejected : forall s e, post_init s = Err e ->
  e = ValueError \/ (e = TypeError /\
    (~ numeric (i_p_hide_img1 s) \/ ~ numeric (i_p_hide_img2 s) \/
     odd_entry (i_diameter_ranges s) \/ odd_entry (i_intensity_ranges s) \/ odd_entry (i_rho_ranges s))).
Proof.
  intros s e H. unfold post_init in H.
  apply require_err_after in H; destruct H as [H|[H|[_ H]]]; [left; exact H | destruct (positive_int_total _ _ H) |].
  apply require_err_after in H; destruct H as [H|[H|[_ H]]]; [left; exact H | destruct (tuple2_total _ _ _ positive_int_total H) |].
  apply require_err_after in H; destruct H as [H|[H|[_ H]]]; [left; exact H | apply probability_err in H; tauto |].
  apply require_err_after in H; destruct H as [H|[H|[_ H]]]; [left; exact H | apply probability_err in H; tauto |].
  apply require_err_after in H; destruct H as [H|[H|[_ H]]]; [left; exact H | destruct (tuple2_total _ _ _ positive_int_total H) |].
  apply require_err_after in H; destruct H as [H|[H|[_ H]]]; [left; exact H | destruct (tuple2_total _ _ _ non_negative_total H) |].
  apply require_err_after in H; destruct H as [H|[H|[D H]]]; [left; exact H | destruct (tuple2_total _ _ _ non_negative_total H) |].
  apply require_err_after in H; destruct H as [H|[H|[_ H]]]; [left; exact H | destruct (density_total _ _ D H) |].
  apply require_err_after in H; destruct H as [H|[H|[L1 H]]]; [left; exact H | destruct (list_of_pairs_total _ _ H) |].
  apply require_err_after in H; destruct H as [H|[H|[_ H]]]; [left; exact H | apply (ranges_err _ _ _ L1 positive_range_err) in H; tauto |].
  apply require_err_after in H; destruct H as [H|[H|[L2 H]]]; [left; exact H | destruct (list_of_pairs_total _ _ H) |].
  apply require_err_after in H; destruct H as [H|[H|[_ H]]]; [left; exact H | apply (ranges_err _ _ _ L2 positive_range_err) in H; tauto |].
  apply require_err_after in H; destruct H as [H|[H|[L3 H]]]; [left; exact H | destruct (list_of_pairs_total _ _ H) |].
  apply require_err_after in H; destruct H as [H|[H|[_ H]]]; [left; exact H | apply (ranges_err _ _ _ L3 correlation_range_err) in H; tauto |].
  do 5 (apply require_err_after in H; destruct H as [H|[H|[_ H]]]; [left; exact H | destruct (non_negative_total _ _ H) |]).
  apply require_err_after in H; destruct H as [H|[H|[_ H]]]; [left; exact H | destruct (std_total _ _ H) |].
  apply require_err_after in H; destruct H as [H|[H|[_ H]]]; [left; exact H | destruct (dt_total _ _ H) | discriminate].
Qed.

(** ** Updates *)
Lemma dict_get_given : forall kw k d, dict_get kw k d = match given k kw with Some v => v | None => d end.
Proof.
  intros kw k d. induction kw as [|[k' v] kw IH]; [reflexivity|]. unfold given in *. cbn [dict_get List.find fst]. destruct (String.eqb k k'); [reflexivity | exact IH].
Qed.
Lemma kw_get_given : forall {A} (kw : list (string * A)) k d, kw_get kw k d = match given k kw with Some v => v | None => d end.
Proof.
  intros A kw k d. induction kw as [|[k' v] kw IH]; [reflexivity|]. unfold given in *. cbn [kw_get List.find fst]. destruct (String.eqb k k'); [reflexivity | exact IH].
Qed.

Lemma field_update : forall kw s name,
  field (update_fields kw s) name = option_map (fun old => match given name kw with Some v => v | None => old end) (field s name).
Proof.
  intros kw s name. unfold field. cbn [List.find fst update_fields i_batch_size i_image_shape i_img_offset i_seeding_density_range i_p_hide_img1 i_p_hide_img2
    i_diameter_ranges i_diameter_var i_intensity_ranges i_intensity_var i_rho_ranges i_rho_var i_dt i_noise_uniform i_noise_gaussian_mean i_noise_gaussian_std].
  repeat match goal with |- context [ String.eqb name ?k ] =>
    let E := fresh "E" in destruct (String.eqb name k) eqn:E; [apply String.eqb_eq in E; subst name; cbn [option_map snd]; rewrite dict_get_given; reflexivity|] end.
  reflexivity.
Qed.

Lemma updates_spec : forall kws s s', post_init s = Ok tt -> updates kws s = Ok s' ->
  post_init s' = Ok tt /\ forall name, field s' name = option_map (after name kws) (field s name).
Proof.
  induction kws as [|kw kws IH]; intros s s' V H; cbn [updates] in H.
  - inversion H; subst. split; [exact V|]. intros name. destruct (field s' name); reflexivity.
  - unfold update, make_spec in H. destruct (post_init (update_fields kw s)) as [[]|e] eqn:P; cbn [bind] in H; [|discriminate].
    destruct (IH _ _ P H) as [V' F]. split; [exact V'|]. intros name. rewrite F, field_update. destruct (field s name); reflexivity.
Qed.

(** A chain fails at its first unacceptable member, with that member's error. *)
Lemma updates_fail : forall kws s e, updates kws s = Err e ->
  exists before kw rest s1 s2, kws = before ++ kw :: rest /\ updates before s = Ok s1 /\
    (forall name, field s2 name = option_map (after name [kw]) (field s1 name)) /\ post_init s2 = Err e.
Proof.
  induction kws as [|kw kws IH]; intros s e H; cbn [updates] in H; [discriminate|].
  unfold update, make_spec in H. destruct (post_init (update_fields kw s)) as [[]|e'] eqn:P; cbn [bind] in H.
  - destruct (IH _ _ H) as (b & kw' & r & s1 & s2 & -> & U & F & E). exists (kw :: b), kw', r, s1, s2. split; [reflexivity|]. split; [|split; assumption].
    cbn [updates]. unfold update, make_spec. rewrite P. exact U.
  - inversion H; subst. exists [], kw, kws, s, (update_fields kw s). split; [reflexivity|]. split; [reflexivity|]. split; [|exact P].
    intros name. rewrite field_update. reflexivity.
Qed.

(** A record is determined by its fields. *)
Lemma field_ext : forall s s', (forall name, field s name = field s' name) -> s = s'.
Proof.
  intros s s' H. destruct s, s'.
  pose proof (H "batch_size"%string) as H1. pose proof (H "image_shape"%string) as H2. pose proof (H "img_offset"%string) as H3.
  pose proof (H "seeding_density_range"%string) as H4. pose proof (H "p_hide_img1"%string) as H5. pose proof (H "p_hide_img2"%string) as H6.
  pose proof (H "diameter_ranges"%string) as H7. pose proof (H "diameter_var"%string) as H8. pose proof (H "intensity_ranges"%string) as H9.
  pose proof (H "intensity_var"%string) as H10. pose proof (H "rho_ranges"%string) as H11. pose proof (H "rho_var"%string) as H12.
  pose proof (H "dt"%string) as H13. pose proof (H "noise_uniform"%string) as H14. pose proof (H "noise_gaussian_mean"%string) as H15.
  pose proof (H "noise_gaussian_std"%string) as H16.
  clear H. cbn in *. injection H1 as ->. injection H2 as ->. injection H3 as ->. injection H4 as ->. injection H5 as ->. injection H6 as ->. injection H7 as ->. injection H8 as ->.
  injection H9 as ->. injection H10 as ->. injection H11 as ->. injection H12 as ->. injection H13 as ->. injection H14 as ->. injection H15 as ->. injection H16 as ->.
  reflexivity.
Qed.
