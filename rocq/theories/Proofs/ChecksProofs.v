(** Proofs for C124: what the argument checks accept. *)
From Coq Require Import List Arith ZArith QArith Qabs String Ascii Bool Lia Lqa.
From Verif Require Import Prelude Model.PyVal Model.Types Model.Synthetic Model.Checks.
From Verif Require Import Spec.TypesSpec Spec.ChecksSpec Proofs.TypesProofs.
Import ListNotations.

(** A check that accepts exactly when [P], and otherwise raises ValueError. *)
Definition decides (r : result unit) (P : Prop) : Prop := (r = Ok tt /\ P) \/ (r = Err ValueError /\ ~ P).
Definition answers (c : result bool) (P : Prop) : Prop := (c = Ok true /\ P) \/ (c = Ok false /\ ~ P).

Lemma decides_iff : forall r P Q, decides r P -> (P <-> Q) -> decides r Q.
Proof. unfold decides. intros r P Q [[A B]|[A B]] E; [left|right]; tauto. Qed.
Lemma decides_spec : forall r P, decides r P -> (r = Ok tt <-> P) /\ (forall e, r = Err e -> e = ValueError).
Proof. intros r P [[-> B]|[-> B]]; (split; [split; [auto|]|]); try congruence; try tauto. Qed.

Lemma decides_ok : decides (Ok tt) True. Proof. left. auto. Qed.
Lemma decides_err : forall P : Prop, ~ P -> decides (Err ValueError) P. Proof. right. auto. Qed.

Lemma decides_require : forall c k P Q, answers c P -> decides k Q -> decides (require c k) (P /\ Q).
Proof.
  intros c k P Q [[-> A]|[-> A]] D; unfold require; cbn.
  - apply (decides_iff _ Q); [exact D|tauto].
  - apply decides_err. tauto.
Qed.
Lemma decides_if : forall (b : bool) k P Q, (b = true <-> P) -> decides k Q -> decides (if b then k else Err ValueError) (P /\ Q).
Proof.
  intros [] k P Q E D.
  - apply (decides_iff _ Q); [exact D|]. tauto.
  - apply decides_err. intros [p _]. apply E in p. discriminate.
Qed.
Lemma decides_ifnot : forall (b : bool) k P Q, (b = true <-> P) -> decides k Q -> decides (if negb b then Err ValueError else k) (P /\ Q).
Proof. intros b k P Q E D. pose proof (decides_if b k P Q E D) as H. destruct b; exact H. Qed.

(** ** Numbers *)
Lemma some_number_iff : forall v, is_number v = true <-> some_number v.
Proof.
  intro v. split.
  - destruct v as [ | b | z | x | | | | ]; cbn; try discriminate; intros _.
    + right. destruct b; eexists; constructor.
    + right. eexists; constructor.
    + destruct x as [ | [] | q ]; [left; reflexivity|right|right|right]; eexists; constructor.
  - intros [-> |[x H]]; [reflexivity|exact (number_is_number _ _ H)].
Qed.

Lemma le0_or : forall x, le x (Num 0) \/ lt (Num 0) x.
Proof.
  intros [|q|]; unfold lt; cbn; [left; exact I| |right; tauto].
  destruct (Qlt_le_dec 0 q); [right; lra|left; assumption].
Qed.

Lemma le0_answers : forall v, is_number v = true -> exists b, py_le v zero = Ok b /\ (b = false <-> positive_or_nan v).
Proof.
  intros v H. apply some_number_iff in H. destruct H as [-> |[x H]].
  - exists false. split; [reflexivity|]. split; [left; reflexivity|reflexivity].
  - assert (E : exists b, py_le v zero = Ok b) by (destruct H; cbn; eexists; reflexivity).
    destruct E as [b E]. exists b. split; [exact E|]. split.
    + intros ->. right. exists x. split; [exact H|].
      destruct (le0_or x) as [L|L]; [|exact L]. exfalso.
      assert (T : py_le v zero = Ok true) by (apply py_le_ok; exists x, (Num 0); split; [exact H|split; [apply number_zero; reflexivity|exact L]]).
      congruence.
    + intros [-> |[y [H2 L]]]; [inversion H|]. destruct b; [|reflexivity]. exfalso.
      assert (T : py_le v zero = Ok true) by exact E. apply py_le_ok in T. destruct T as (a & c & Ha & Hc & L2).
      apply number_zero in Hc. subst c. rewrite (number_fun _ _ _ Ha H2) in L2. destruct L as [_ L]. exact (L L2).
Qed.

Lemma decides_refuse : forall a k Q, decides k Q -> decides (refuse_le0 a k) (is positive_or_nan a /\ Q).
Proof.
  intros a k Q D. unfold refuse_le0. destruct a as [v|sh t]; cbn [arg_number arg_le0].
  - destruct (is_number v) eqn:N.
    + destruct (le0_answers v N) as [b [E I]]. rewrite E. cbn [bind]. destruct b.
      * apply decides_err. intros [[w [W P]] _]. injection W as <-. apply I in P. discriminate.
      * apply (decides_iff _ Q); [exact D|]. split; [intro q; split; [exists v; split; [reflexivity|apply I; reflexivity]|exact q]|tauto].
    + apply decides_err. intros [[w [W P]] _]. injection W as <-. enough (is_number v = true) by congruence.
      apply some_number_iff. destruct P as [P|[x [P _]]]; [left; exact P|right; exists x; exact P].
  - apply decides_err. intros [[w [W _]] _]. discriminate.
Qed.

Lemma cmp0_bool : forall v, is_number v = true -> (exists b, py_lt zero v = Ok b) /\ (exists b, py_le zero v = Ok b).
Proof. intros v H. destruct v; try discriminate H; cbn; split; eexists; reflexivity. Qed.

Lemma positive_answers : forall v, answers (positive_number v) (positive v).
Proof.
  intro v. unfold answers, positive_number. destruct (is_number v) eqn:N; cbn [py_and bind].
  - destruct (proj1 (cmp0_bool v N)) as [[] E]; rewrite E; [left|right]; (split; [reflexivity|]).
    + apply py_lt_ok in E. destruct E as (a & b & A & B & L). apply number_zero in A. subst a. exists b. auto.
    + intros [x [X L]]. assert (T : py_lt zero v = Ok true) by (apply py_lt_ok; exists (Num 0), x; split; [apply number_zero; reflexivity|auto]).
      congruence.
  - right. split; [reflexivity|]. intros [x [X _]]. rewrite (number_is_number _ _ X) in N. discriminate.
Qed.
Lemma nonneg_answers : forall v, answers (non_negative_number v) (at_least_0 v).
Proof.
  intro v. unfold answers, non_negative_number. destruct (is_number v) eqn:N; cbn [py_and bind].
  - destruct (proj2 (cmp0_bool v N)) as [[] E]; rewrite E; [left|right]; (split; [reflexivity|]).
    + apply py_le_ok in E. destruct E as (a & b & A & B & L). apply number_zero in A. subst a. exists b. auto.
    + intros [x [X L]]. assert (T : py_le zero v = Ok true) by (apply py_le_ok; exists (Num 0), x; split; [apply number_zero; reflexivity|auto]).
      congruence.
  - right. split; [reflexivity|]. intros [x [X _]]. rewrite (number_is_number _ _ X) in N. discriminate.
Qed.

Lemma integer_is_int : forall v z, integer v z -> is_int v = true.
Proof. intros v z []; reflexivity. Qed.
Lemma int_integer : forall v, is_int v = true -> exists z, integer v z /\ num_of v = Some (Fin (inject_Z z)) /\ int_value v = z.
Proof.
  intros v H. destruct v as [ | [] | z | | | | | ]; try discriminate H; eexists; (split; [constructor|split; reflexivity]).
Qed.
Lemma integer_unique : forall v y z, integer v y -> integer v z -> y = z.
Proof. intros v y z [] H; inversion H; reflexivity. Qed.

Lemma lt_int : forall z, num_ltb (Fin (inject_Z 0)) (Fin (inject_Z z)) = (0 <? z)%Z.
Proof.
  intro z. cbn. unfold Qle_bool. cbn. rewrite Z.leb_antisym, Z.mul_1_r. apply negb_involutive.
Qed.
Lemma le_int : forall z, num_leb (Fin (inject_Z 0)) (Fin (inject_Z z)) = (0 <=? z)%Z.
Proof. intro z. cbn. unfold Qle_bool. cbn. rewrite Z.mul_1_r. reflexivity. Qed.

Lemma positive_i_answers : forall v, answers (positive_int v) (positive_i v).
Proof.
  intro v. unfold answers, positive_int. destruct (is_int v) eqn:N; cbn [py_and bind].
  - destruct (int_integer v N) as [z [I [E _]]]. unfold py_lt, py_cmp. cbn [num_of zero]. rewrite E, lt_int.
    destruct (0 <? z)%Z eqn:L; [left|right]; (split; [reflexivity|]).
    + exists z. split; [exact I|apply Z.ltb_lt, L].
    + intros [y [Y P]]. rewrite (integer_unique _ _ _ Y I) in P. apply Z.ltb_ge in L. lia.
  - right. split; [reflexivity|]. intros [y [Y _]]. rewrite (integer_is_int _ _ Y) in N. discriminate.
Qed.
Lemma nonneg_i_answers : forall v, answers (non_negative_int v) (at_least_0_i v).
Proof.
  intro v. unfold answers, non_negative_int. destruct (is_int v) eqn:N; cbn [py_and bind].
  - destruct (int_integer v N) as [z [I [E _]]]. unfold py_le, py_cmp. cbn [num_of zero]. rewrite E, le_int.
    destruct (0 <=? z)%Z eqn:L; [left|right]; (split; [reflexivity|]).
    + exists z. split; [exact I|apply Z.leb_le, L].
    + intros [y [Y P]]. rewrite (integer_unique _ _ _ Y I) in P. apply Z.leb_gt in L. lia.
  - right. split; [reflexivity|]. intros [y [Y _]]. rewrite (integer_is_int _ _ Y) in N. discriminate.
Qed.

Lemma decides_tuple2 : forall p P a k Q, (forall v, answers (p v) (P v)) -> decides k Q -> decides (require_tuple2 p a k) (two P a /\ Q).
Proof.
  intros p P a k Q H D.
  assert (BAD : forall v, (forall u w, v <> PTuple [u; w]) -> decides (Err ValueError) (two P (Val v) /\ Q)).
  { intros v NE. apply decides_err. intros [[u [w [E _]]] _]. injection E as E. exact (NE u w E). }
  destruct a as [v|sh t]; [|apply decides_err; intros [[u [w [E _]]] _]; discriminate].
  cbn [require_tuple2]. unfold tuple2, require.
  destruct v; try (cbn; apply BAD; intros; discriminate).
  destruct l as [|u [|w [|x l]]]; try (cbn; apply BAD; intros; discriminate).
  cbn [py_all]. destruct (H u) as [[-> A]|[-> A]]; cbn [py_and bind].
  - destruct (H w) as [[-> B]|[-> B]]; cbn [bind].
    + apply (decides_iff _ Q); [exact D|]. split; [intro q; split; [exists u, w; auto|exact q]|tauto].
    + apply decides_err. intros [[u' [w' [E [_ K]]]] _]. injection E as <- <-. exact (B K).
  - apply decides_err. intros [[u' [w' [E [K _]]]] _]. injection E as <- <-. exact (A K).
Qed.

(** ** input_check_apply_flow *)
Lemma k23 : forall k, (Nat.eqb k 2 || Nat.eqb k 3)%bool = true <-> (k = 2 \/ k = 3)%nat.
Proof. intro k. rewrite orb_true_iff, !Nat.eqb_eq. tauto. Qed.

Lemma apply_decides : forall pos flow dt rx ry rz, decides (check_apply pos flow dt rx ry rz) (apply_args pos flow dt rx ry rz).
Proof.
  intros pos flow dt rx ry rz. unfold check_apply.
  destruct pos as [v|[|n [|k [|]]] t]; try (apply decides_err; intros [[? [? [? [? [? [? [_ [E _]]]]]]]] _ _ _ _]; discriminate).
  destruct (Nat.eqb k 2 || Nat.eqb k 3)%bool eqn:K; cbn [negb].
  2:{ apply decides_err. intros [[? [? [? [k' [? [? [D [E _]]]]]]]] _ _ _ _]. injection E as -> -> ->. apply k23 in D. congruence. }
  destruct flow as [v|[|h [|w [|c [|]]]] t']; try (apply decides_err; intros [[? [? [? [? [? [? [_ [_ E]]]]]]]] _ _ _ _]; discriminate).
  assert (BAD : k <> c -> forall r, ~ apply_args (Jax [n; k] t) (Jax [h; w; c] t') dt rx ry r).
  { intros NE r [[? [? [? [? [? [? [_ [E1 E2]]]]]]]] _ _ _ _]. injection E1 as E1. injection E2 as E2. congruence. }
  destruct (Nat.eqb c 2 || Nat.eqb c 3)%bool eqn:C; cbn [negb].
  2:{ apply decides_err. apply BAD. intros ->. congruence. }
  destruct (Nat.eqb k 2 && negb (Nat.eqb c 2))%bool eqn:B1.
  { apply decides_err, BAD. intros ->. destruct (Nat.eqb c 2); discriminate. }
  destruct (Nat.eqb k 3 && negb (Nat.eqb c 3))%bool eqn:B2.
  { apply decides_err, BAD. intros ->. destruct (Nat.eqb c 3); discriminate. }
  assert (EQ : k = c).
  { apply k23 in K. apply k23 in C. destruct K as [-> | ->], C as [-> | ->]; try reflexivity; cbn in B1, B2; discriminate. }
  subst c.
  apply (decides_iff _ (is some_number dt /\ is positive_or_nan rx /\ is positive_or_nan ry /\ is positive_or_nan rz /\ True)).
  - apply decides_ifnot.
    + destruct dt as [v|sh t0]; cbn [arg_number].
      * rewrite some_number_iff. split; [intro S; exists v; auto|intros [v' [E S]]; injection E as ->; exact S].
      * split; [discriminate|intros [v' [E _]]; discriminate].
    + apply decides_refuse, decides_refuse, decides_refuse, decides_ok.
  - split.
    + intros [A [B' [D [E _]]]]. constructor; try assumption. exists n, h, w, k, t, t'. split; [apply k23, K|auto].
    + intros [_ A B' D E]. tauto.
Qed.

(** ** input_check_flow_field_adapter *)
Lemma adapter_decides : forall flow new image off res rx ry pb pbo batch units dt pad,
  decides (check_adapter_args flow new image off res rx ry pb pbo batch units dt pad)
    (adapter_inputs flow new image off res rx ry pb pbo batch units dt pad).
Proof.
  intros flow new image off res rx ry pb pbo batch units dt pad. unfold check_adapter_args.
  destruct flow as [v|[|n [|h [|w [|c [|]]]]] t]; try (apply decides_err; intros [[? [? [? [? E]]]] _ _ _ _ _ _ _ _ _ _ _ _]; discriminate).
  apply (decides_iff _ (c = 2%nat /\ two positive_i new /\ two positive_i image /\ two at_least_0 off /\ is positive_or_nan res /\
    is positive_or_nan rx /\ is positive_or_nan ry /\ two positive pb /\ two at_least_0 pbo /\
    (is positive_i batch /\ (units = Val (PStr "pixels") \/ units = Val (PStr "measure units per second")) /\
     is positive_or_nan dt /\ two at_least_0_i pad /\ True))).
  - apply decides_ifnot; [apply Nat.eqb_eq|].
    do 2 (apply decides_tuple2; [exact positive_i_answers|]).
    apply decides_tuple2; [exact nonneg_answers|]. do 3 apply decides_refuse.
    apply decides_tuple2; [exact positive_answers|]. apply decides_tuple2; [exact nonneg_answers|].
    assert (REST : decides
        match units with
        | Val (PStr s) =>
            if negb (String.eqb s "pixels" || String.eqb s "measure units per second") then Err ValueError
            else refuse_le0 dt (require_tuple2 non_negative_int pad (Ok tt))
        | _ => Err ValueError
        end
        ((units = Val (PStr "pixels") \/ units = Val (PStr "measure units per second")) /\
         is positive_or_nan dt /\ two at_least_0_i pad /\ True)).
    { destruct units as [[ | | | | s | | | ]|]; try (apply decides_err; intros [[E|E] _]; discriminate).
      apply decides_ifnot.
      - rewrite orb_true_iff, !String.eqb_eq. split; [intros [-> | ->]; auto|intros [E|E]; injection E as ->; auto].
      - apply decides_refuse. apply decides_tuple2; [exact nonneg_i_answers|apply decides_ok]. }
    destruct batch as [v|sh t0]; cbn [arg_int arg_le0]; [|apply decides_err; intros [[v [E _]] _]; discriminate].
    destruct (is_int v) eqn:N.
    + assert (NN : is_number v = true) by (destruct v; try discriminate N; reflexivity).
      destruct (int_integer v N) as [z [IZ [_ _]]].
      destruct (le0_answers v NN) as [b [E I]]. rewrite E. cbn [bind].
      assert (PZ : positive_or_nan v <-> (0 < z)%Z).
      { split.
        - intros [-> |[x [X L]]]; [discriminate N|]. rewrite (number_fun _ _ _ X (integer_number _ _ IZ)) in L. apply lt_Z, L.
        - intro P. right. exists (Num (inject_Z z)). split; [apply integer_number, IZ|apply lt_Z, P]. }
      destruct b.
      * apply decides_err. intros [[v' [E' [z' [IZ' P]]]] _]. injection E' as <-. rewrite (integer_unique _ _ _ IZ' IZ) in P.
        apply PZ, I in P. discriminate.
      * eapply decides_iff; [exact REST|]. split; [intro R; split; [|exact R]|intros [_ R]; exact R].
        exists v. split; [reflexivity|]. exists z. split; [exact IZ|]. apply PZ, I. reflexivity.
    + apply decides_err. intros [[v' [E' [z' [IZ' P]]]] _]. injection E' as <-. rewrite (integer_is_int _ _ IZ') in N. discriminate.
  - split.
    + intros [-> H]. constructor; try tauto. exists n, h, w, t. reflexivity.
    + intros [[? [? [? [? E]]]] ? ? ? ? ? ? ? ? ? ? ? ?]. injection E as _ _ _ E. tauto.
Qed.

(** ** input_check_gen_img_from_flow *)
Lemma spec_parts : forall s, post_init s = Ok tt -> exists h w oy ox d0 dmax zh zw,
  i_image_shape s = PTuple [h; w] /\ i_img_offset s = PTuple [oy; ox] /\ i_seeding_density_range s = PTuple [d0; dmax] /\
  integer h zh /\ integer w zw /\ (0 < zh)%Z /\ (0 < zw)%Z /\ at_least_0 oy /\ at_least_0 ox /\ at_least_0 dmax.
Proof.
  intros s H. unfold post_init in H.
  apply require_ok in H; destruct H as [_ H]. apply require_ok in H; destruct H as [HS H].
  do 3 (apply require_ok in H; destruct H as [_ H]).
  apply require_ok in H; destruct H as [HO H]. apply require_ok in H; destruct H as [HD H]. clear H.
  unfold tuple2 in *.
  destruct (i_image_shape s) as [ | | | | | | l | ]; try discriminate HS. destruct l as [|h [|w [|]]]; try discriminate HS.
  destruct (i_img_offset s) as [ | | | | | | l | ]; try discriminate HO. destruct l as [|oy [|ox [|]]]; try discriminate HO.
  destruct (i_seeding_density_range s) as [ | | | | | | l | ]; try discriminate HD. destruct l as [|d0 [|dmax [|]]]; try discriminate HD.
  apply py_all_ok in HS. apply py_all_ok in HO. apply py_all_ok in HD.
  inversion HS as [|? ? S1 S2]; subst. inversion S2 as [|? ? S3 _]; subst.
  inversion HO as [|? ? O1 O2]; subst. inversion O2 as [|? ? O3 _]; subst.
  inversion HD as [|? ? D1 D2]; subst. inversion D2 as [|? ? D3 _]; subst.
  apply positive_int_ok in S1. apply positive_int_ok in S3. destruct S1 as [zh [I1 P1]], S3 as [zw [I2 P2]].
  apply non_negative_ok in O1. apply non_negative_ok in O3. apply non_negative_ok in D3.
  exists h, w, oy, ox, d0, dmax, zh, zw. auto 12.
Qed.

Section Gen.
Variable radd : Q -> Q -> Q.

Lemma too_small_spec : forall b s o zb zs, integer b zb -> integer s zs -> at_least_0 o ->
  exists t, too_small radd b s o = Ok t /\ (t = false <-> fits radd zb zs o).
Proof.
  intros b s o zb zs IB IS [x [X P]].
  assert (NB : num_of b = Some (Fin (inject_Z zb))) by (destruct IB; reflexivity).
  assert (NS : num_of s = Some (Fin (inject_Z zs))) by (destruct IS; reflexivity).
  assert (FS : is_float s = false) by (destruct IS; reflexivity).
  unfold too_small, py_add. rewrite NS, FS. cbn [orb].
  assert (INT : forall z, integer o z -> num_of o = Some (Fin (inject_Z z)) -> is_float o = false ->
    exists t, bind match num_of o with
              | Some NaN => Ok NaN
              | Some (Inf n) => Ok (Inf n)
              | Some (Fin q) => Ok (Fin (if is_float o then radd (inject_Z zs) q else (inject_Z zs + q)%Q))
              | None => Err TypeError
              end (fun x => match num_of b with Some y => Ok (num_ltb y x) | None => Err TypeError end) = Ok t /\
     (t = false <-> fits radd zb zs o)).
  { intros z I N F. rewrite N, F, NB. cbn [bind]. eexists. split; [reflexivity|]. cbn [num_ltb]. rewrite negb_false_iff, Qle_bool_iff.
    rewrite <- inject_Z_plus, <- Zle_Qle. split.
    - intro L. apply (fits_int radd zb zs o z I L).
    - intro L. inversion L as [v z' I' L'|q L']; subst; [rewrite <- (integer_unique _ _ _ I' I); exact L'|inversion I]. }
  destruct X as [z| | |q| | ].
  - apply (INT z); [constructor|reflexivity|reflexivity].
  - apply (INT 1%Z); [constructor|reflexivity|reflexivity].
  - apply (INT 0%Z); [constructor|reflexivity|reflexivity].
  - cbn [num_of is_float]. rewrite NB. cbn [bind]. eexists. split; [reflexivity|]. cbn [num_ltb]. rewrite negb_false_iff, Qle_bool_iff. split.
    + apply fits_float.
    + intro L. inversion L as [v z' I' L'|q' L']; subst; [inversion I'|exact L'].
  - cbn [num_of is_float]. rewrite NB. cbn [bind]. eexists. split; [reflexivity|]. cbn. split; [discriminate|].
    intro L. inversion L as [v z' I' L'|q' L']; subst. inversion I'.
  - destruct P.
Qed.

Lemma same_int_iff : forall n v z, integer v z -> (same_int n v = true <-> Z.of_nat n = z).
Proof. intros n v z []; cbn [same_int int_of_bool]; apply Z.eqb_eq. Qed.

Lemma integer_value : forall v z, integer v z -> int_value v = z.
Proof. intros v z []; reflexivity. Qed.

Lemma decides_sized : forall l, List.length l = 2%nat -> exists u v : pyval, l = [u; v].
Proof. intros [|u [|v [|]]] H; try discriminate H. eauto. Qed.

(** What follows the sequence of bounds. *)
Lemma generate_cases : forall flow s pb rx ry mask hist h w oy ox d0 dmax zh zw,
  i_image_shape s = PTuple [h; w] -> i_img_offset s = PTuple [oy; ox] -> i_seeding_density_range s = PTuple [d0; dmax] ->
  integer h zh -> integer w zw -> at_least_0 oy -> at_least_0 ox -> at_least_0 dmax ->
  (check_generate_args radd flow s pb rx ry mask hist = Ok tt <-> generate_args radd zh zw oy ox dmax flow pb rx ry mask hist) /\
  forall e, check_generate_args radd flow s pb rx ry mask hist = Err e ->
    e = ValueError \/
    (e = TypeError /\ (py_seq pb = Err TypeError \/ exists u v, py_seq pb = Ok [u; v] /\ (~ some_number u \/ ~ some_number v))) \/
    (e = OverflowError /\ number dmax PosInf).
Proof.
  intros flow s pb rx ry mask hist h w oy ox d0 dmax zh zw ES EO ED IH IW PY PX PD.
  unfold check_generate_args. rewrite ES, EO, ED.
  assert (BADV : forall P : Prop, ~ P -> (Err ValueError = Ok tt <-> P) /\ forall e, @Err unit ValueError = Err e -> e = ValueError \/
     (e = TypeError /\ (py_seq pb = Err TypeError \/ exists u v, py_seq pb = Ok [u; v] /\ (~ some_number u \/ ~ some_number v))) \/
     (e = OverflowError /\ number dmax PosInf)).
  { intros P NP. split; [split; [discriminate|tauto]|]. intros e E. injection E as <-. auto. }
  destruct flow as [v|[|n [|fh [|fw [|c [|]]]]] t]; try (apply BADV; intros [[? [? [? [? E]]]] _ _ _ _ _ _]; discriminate).
  destruct (Nat.eqb c 2) eqn:C; cbn [negb].
  2:{ apply BADV. intros [[? [? [? [? E]]]] _ _ _ _ _ _]. injection E as _ _ _ E _. apply Nat.eqb_neq in C. contradiction. }
  apply Nat.eqb_eq in C. subst c.
  (* the bounds *)
  assert (PB : generate_args radd zh zw oy ox dmax (Jax [n; fh; fw; 2%nat] t) pb rx ry mask hist -> exists u v b0 b1, py_seq pb = Ok [u; v] /\
     (pb = PTuple [u; v] \/ pb = PList [u; v]) /\ integer u b0 /\ integer v b1 /\ (0 < b0)%Z /\ (0 < b1)%Z /\ fits radd b0 zh oy /\ fits radd b1 zw ox).
  { intros [_ [u [v [b0 [b1 [E R]]]]] _ _ _ _ _]. exists u, v, b0, b1. split; [destruct E as [-> | ->]; reflexivity|]. auto. }
  destruct (py_seq pb) as [l|e] eqn:SEQ; cbn [bind].
  2:{ split.
      - split; [discriminate|]. intro G. destruct (PB G) as [? [? [? [? [E _]]]]]. discriminate.
      - intros e' E. injection E as <-. right. left. assert (e = TypeError) by (unfold py_seq in SEQ; destruct pb; congruence). subst e. auto. }
  destruct (Nat.eqb (List.length l) 2) eqn:LEN; cbn [negb].
  2:{ apply BADV. intro G. destruct (PB G) as [? [? [? [? [E _]]]]]. injection E as ->. discriminate. }
  apply Nat.eqb_eq, decides_sized in LEN. destruct LEN as [u [v ->]].
  unfold require at 1. cbn [py_all].
  (* comparisons with zero *)
  assert (CMP : forall x, (~ some_number x /\ py_lt zero x = Err TypeError) \/ (some_number x /\ exists b, py_lt zero x = Ok b /\ (b = true <-> positive x))).
  { intro x. destruct (is_number x) eqn:N.
    - right. split; [apply some_number_iff, N|]. destruct (proj1 (cmp0_bool x N)) as [b E]. exists b. split; [exact E|].
      destruct (positive_answers x) as [[A B]|[A B]]; unfold positive_number in A; rewrite N in A; cbn [py_and bind] in A; rewrite E in A; injection A as ->; split; intro K; try tauto; try reflexivity; discriminate.
    - left. split; [intro K; apply some_number_iff in K; congruence|]. destruct x; try discriminate N; reflexivity. }
  assert (PI : forall x z, integer x z -> (0 < z)%Z -> positive x).
  { intros x z I P. exists (Num (inject_Z z)). split; [apply integer_number, I|apply lt_Z, P]. }
  destruct (CMP u) as [[NU EU]|[_ [bu [EU IU]]]]; rewrite EU; cbn [py_and bind].
  { split; [split; [discriminate|]|].
    - intro G. exfalso. destruct (PB G) as [u' [v' [b0 [b1 [E [_ [I1 _]]]]]]]. injection E as <- <-. apply NU. right. exists (Num (inject_Z b0)). apply integer_number, I1.
    - intros e E. injection E as <-. right; left. split; [reflexivity|]. right. exists u, v. auto. }
  destruct bu.
  2:{ apply BADV. intro G. destruct (PB G) as [u' [v' [b0 [b1 [E [_ [I1 [_ [P1 _]]]]]]]]]. injection E as <- <-.
      pose proof (proj2 IU (PI _ _ I1 P1)). discriminate. }
  destruct (CMP v) as [[NV EV]|[_ [bv [EV IV]]]]; rewrite EV; cbn [py_and bind].
  { split; [split; [discriminate|]|].
    - intro G. exfalso. destruct (PB G) as [u' [v' [b0 [b1 [E [_ [_ [I1 _]]]]]]]]. injection E as <- <-. apply NV. right. exists (Num (inject_Z b1)). apply integer_number, I1.
    - intros e E. injection E as <-. right; left. split; [reflexivity|]. right. exists u, v. auto. }
  destruct bv.
  2:{ apply BADV. intro G. destruct (PB G) as [u' [v' [b0 [b1 [E [_ [_ [I1 [_ [P1 _]]]]]]]]]]. injection E as <- <-.
      pose proof (proj2 IV (PI _ _ I1 P1)). discriminate. }
  cbn [forallb]. destruct (is_int u && (is_int v && true))%bool eqn:INT; cbn [negb].
  2:{ apply BADV. intro G. destruct (PB G) as [u' [v' [b0 [b1 [E [_ [I1 [I2 _]]]]]]]]. injection E as <- <-.
      rewrite (integer_is_int _ _ I1), (integer_is_int _ _ I2) in INT. discriminate. }
  apply andb_prop in INT. destruct INT as [NU INT]. apply andb_prop in INT. destruct INT as [NV _].
  destruct (int_integer u NU) as [b0 [I0 _]], (int_integer v NV) as [b1 [I1 _]].
  assert (P0 : (0 < b0)%Z).
  { destruct (proj1 IU eq_refl) as [x [X L]]. rewrite (number_fun _ _ _ X (integer_number _ _ I0)) in L. apply lt_Z, L. }
  assert (P1 : (0 < b1)%Z).
  { destruct (proj1 IV eq_refl) as [x [X L]]. rewrite (number_fun _ _ _ X (integer_number _ _ I1)) in L. apply lt_Z, L. }
  assert (SHAPE : pb = PTuple [u; v] \/ pb = PList [u; v]).
  { clear - SEQ NU. unfold py_seq in SEQ. destruct pb as [ | | | | str | l | l | d ]; try discriminate SEQ; injection SEQ as SEQ.
    - exfalso. destruct str as [|c str]; [discriminate|]. cbn in SEQ. injection SEQ as SEQ _. subst u. discriminate.
    - subst l. auto.
    - subst l. auto.
    - exfalso. destruct d as [|[k x] d]; [discriminate|]. cbn in SEQ. injection SEQ as SEQ _. subst u. discriminate. }
  (* the resolutions *)
  assert (RES : forall a, exists b, (if arg_number a then arg_gt0 a else Ok false) = Ok b /\ (b = true <-> is positive a)).
  { intros [x|sh t0]; cbn [arg_number arg_gt0].
    - destruct (positive_answers x) as [[A B]|[A B]]; unfold positive_number in A; destruct (is_number x); cbn [py_and bind] in A; try discriminate A.
      + exists true. split; [exact A|]. split; [exists x; auto|reflexivity].
      + exists false. split; [exact A|]. split; [discriminate|]. intros [y [E K]]. injection E as <-. contradiction.
      + exists false. split; [reflexivity|]. split; [discriminate|]. intros [y [E K]]. injection E as <-. contradiction.
    - exists false. split; [reflexivity|]. split; [discriminate|]. intros [y [E _]]. discriminate. }
  destruct (RES rx) as [bx [EX IX]], (RES ry) as [by_ [EY IY]]. rewrite EX, EY. unfold require. cbn [bind].
  destruct bx; [|apply BADV; intros G; pose proof (proj2 IX (ga_rx _ _ _ _ _ _ _ _ _ _ _ _ G)); discriminate].
  destruct by_; [|apply BADV; intros G; pose proof (proj2 IY (ga_ry _ _ _ _ _ _ _ _ _ _ _ _ G)); discriminate].
  (* room *)
  destruct (too_small_spec u h oy b0 zh I0 IH PY) as [t0 [E0 F0]]. rewrite E0. cbn [bind].
  assert (UNIQ : forall G : generate_args radd zh zw oy ox dmax (Jax [n; fh; fw; 2%nat] t) pb rx ry mask hist, fits radd b0 zh oy /\ fits radd b1 zw ox).
  { intro G. destruct (PB G) as [u' [v' [c0 [c1 [E [_ [J0 [J1 [_ [_ K]]]]]]]]]]. injection E as <- <-.
    rewrite (integer_unique _ _ _ I0 J0), (integer_unique _ _ _ I1 J1). exact K. }
  destruct t0; [apply BADV; intros G; pose proof (proj2 F0 (proj1 (UNIQ G))); discriminate|].
  destruct (too_small_spec v w ox b1 zw I1 IW PX) as [t1 [E1 F1]]. rewrite E1. cbn [bind].
  destruct t1; [apply BADV; intros G; pose proof (proj2 F1 (proj2 (UNIQ G))); discriminate|].
  (* the mask *)
  assert (MASK : exists b, match mask with Val PNone => Ok true | Val _ => Ok false | Jax sh _ => Ok (same_shape sh (PTuple [h; w])) end = Ok b /\
     (b = true <-> (mask = Val PNone \/ exists mh mw t, mask = Jax [mh; mw] t /\ Z.of_nat mh = zh /\ Z.of_nat mw = zw))).
  { destruct mask as [x|sh t0].
    - destruct x; eexists; (split; [reflexivity|]); split; intro K; try discriminate; auto; destruct K as [K|[? [? [? [K _]]]]]; discriminate.
    - eexists. split; [reflexivity|]. destruct sh as [|mh [|mw [|]]]; cbn [same_shape List.length Nat.eqb combine forallb fst snd andb].
      + split; [discriminate|]. intros [K|[? [? [? [K _]]]]]; discriminate.
      + split; [discriminate|]. intros [K|[? [? [? [K _]]]]]; discriminate.
      + rewrite andb_true_r, andb_true_iff, (same_int_iff mh h zh IH), (same_int_iff mw w zw IW). split.
        * intros [A B]. right. exists mh, mw, t0. auto.
        * intros [K|[a [b [? [K [A B]]]]]]; [discriminate|]. injection K as -> -> _. auto.
      + split; [discriminate|]. intros [K|[? [? [? [K _]]]]]; discriminate. }
  destruct MASK as [bm [EM IM]]. rewrite EM. cbn [bind].
  destruct bm; [|apply BADV; intros G; pose proof (proj2 IM (ga_mask _ _ _ _ _ _ _ _ _ _ _ _ G)); discriminate].
  (* the histogram *)
  assert (HIST : exists b, match hist with
       | Val PNone => Ok true | Val _ => Ok false
       | Jax sh total => Ok match sh with [n] => ((n =? 256)%nat && isclose total (inject_Z (int_value h * int_value w)))%bool | _ => false end end = Ok b /\
     (b = true <-> (hist = Val PNone \/ exists t, hist = Jax [256%nat] t /\
              (Qabs (t - inject_Z (zh * zw)) <= (1 # 100000000) + (1 # 100000) * Qabs (inject_Z (zh * zw)))%Q))).
  { destruct hist as [x|sh t0].
    - destruct x; eexists; (split; [reflexivity|]); split; intro K; try discriminate; auto; destruct K as [K|[? [K _]]]; discriminate.
    - eexists. split; [reflexivity|]. destruct sh as [|k [|]].
      + split; [discriminate|]. intros [K|[? [K _]]]; discriminate.
      + rewrite andb_true_iff, Nat.eqb_eq, (integer_value h zh IH), (integer_value w zw IW). unfold isclose. rewrite Qle_bool_iff. split.
        * intros [-> B]. right. exists t0. auto.
        * intros [K|[? [K B]]]; [discriminate|]. injection K as -> ->. auto.
      + split; [discriminate|]. intros [K|[? [K _]]]; discriminate. }
  destruct HIST as [bh [EH IHI]]. rewrite EH. cbn [bind].
  destruct bh; [|apply BADV; intros G; pose proof (proj2 IHI (ga_hist _ _ _ _ _ _ _ _ _ _ _ _ G)); discriminate].
  assert (ALL : (exists q, number dmax (Num q)) <-> generate_args radd zh zw oy ox dmax (Jax [n; fh; fw; 2%nat] t) pb rx ry mask hist).
  { split; [|intro G; exact (ga_density _ _ _ _ _ _ _ _ _ _ _ _ G)].
    intro K. constructor.
    - exists n, fh, fw, t. reflexivity.
    - exists u, v, b0, b1. split; [exact SHAPE|]. split; [exact I0|]. split; [exact I1|]. split; [exact P0|]. split; [exact P1|].
      split; [apply F0; reflexivity|apply F1; reflexivity].
    - apply IX. reflexivity.
    - apply IY. reflexivity.
    - apply IM. reflexivity.
    - apply IHI. reflexivity.
    - exact K. }
  destruct PD as [x [X P]]. destruct X as [z| | |q| | ]; cbn [num_of].
  - split; [|discriminate]. rewrite <- ALL. split; [intros _; eexists; constructor|reflexivity].
  - split; [|discriminate]. rewrite <- ALL. split; [intros _; eexists; constructor|reflexivity].
  - split; [|discriminate]. rewrite <- ALL. split; [intros _; eexists; constructor|reflexivity].
  - split; [|discriminate]. rewrite <- ALL. split; [intros _; eexists; constructor|reflexivity].
  - split; [rewrite <- ALL; split; [discriminate|intros [q K]; inversion K]|].
    intros e E. injection E as <-. right; right. split; [reflexivity|constructor].
  - destruct P.
Qed.
End Gen.
