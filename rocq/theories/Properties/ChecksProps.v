(** C124: what the argument checks accept, for arguments of any type. *)
From Coq Require Import List Arith ZArith QArith Qabs String Bool Lia.
From Verif Require Import Prelude Model.PyVal Model.Types Model.Apply Model.Interp Model.Hist Model.DataGen Model.Geometry Model.Sampler Model.Synthetic Model.Debug Model.Checks.
From Verif Require Import Spec.TypesSpec Spec.ChecksSpec Proofs.TypesProofs Proofs.ChecksProofs.
From Verif Require Import Model.Interp.
Import ListNotations.
Local Open Scope string_scope.
Local Open Scope nat_scope.

(** input_check_apply_flow accepts what it documents, and NaN for the numbers
    besides; whatever else it is given, it raises ValueError. *)
Theorem C124_apply : forall pos flow dt rx ry rz,
  (check_apply pos flow dt rx ry rz = Ok tt <-> apply_args pos flow dt rx ry rz) /\
  forall e, check_apply pos flow dt rx ry rz = Err e -> e = ValueError.
Proof. intros. apply decides_spec, apply_decides. Qed.
Print Assumptions C124_apply.

Theorem C124_adapter : forall flow new image off res rx ry pb pbo batch units dt pad,
  (check_adapter_args flow new image off res rx ry pb pbo batch units dt pad = Ok tt <->
   adapter_inputs flow new image off res rx ry pb pbo batch units dt pad) /\
  forall e, check_adapter_args flow new image off res rx ry pb pbo batch units dt pad = Err e -> e = ValueError.
Proof. intros. apply decides_spec, adapter_decides. Qed.
Print Assumptions C124_adapter.

(** input_check_gen_img_from_flow with a specification that exists: for any
    rounding of the sum of an int and a float. *)
Theorem C124_generate : forall radd flow s pb rx ry mask hist, post_init s = Ok tt ->
  exists h w oy ox d0 dmax zh zw,
    i_image_shape s = PTuple [h; w] /\ i_img_offset s = PTuple [oy; ox] /\ i_seeding_density_range s = PTuple [d0; dmax] /\
    integer h zh /\ integer w zw /\
    (check_generate_args radd flow s pb rx ry mask hist = Ok tt <-> generate_args radd zh zw oy ox dmax flow pb rx ry mask hist).
Proof.
  intros radd flow s pb rx ry mask hist H.
  destruct (spec_parts s H) as [h [w [oy [ox [d0 [dmax [zh [zw [E1 [E2 [E3 [I1 [I2 [_ [_ [P1 [P2 P3]]]]]]]]]]]]]]]]].
  exists h, w, oy, ox, d0, dmax, zh, zw. do 5 (split; [assumption|]).
  exact (proj1 (generate_cases radd flow s pb rx ry mask hist h w oy ox d0 dmax zh zw E1 E2 E3 I1 I2 P1 P2 P3)).
Qed.
Print Assumptions C124_generate.

(** The bounds are no sequence, or two entries one of which is no number. *)
Definition no_bounds (pb : pyval) : Prop :=
  match pb with
  | PTuple l | PList l => exists u v, l = [u; v] /\ (~ some_number u \/ ~ some_number v)
  | PStr s => String.length s = 2
  | PDict d => List.length d = 2
  | _ => True
  end.

(** Other exceptions than ValueError: bounds that cannot be compared with zero,
    and a density without an upper bound, which no check refuses. *)
Theorem C124_generate_errors : forall radd flow s pb rx ry mask hist e, post_init s = Ok tt ->
  check_generate_args radd flow s pb rx ry mask hist = Err e ->
  e = ValueError \/ (e = TypeError /\ no_bounds pb) \/
  (e = OverflowError /\ exists d0, i_seeding_density_range s = PTuple [d0; PFloat (Inf false)]).
Proof.
  intros radd flow s pb rx ry mask hist e H E.
  destruct (spec_parts s H) as [h [w [oy [ox [d0 [dmax [zh [zw [E1 [E2 [E3 [I1 [I2 [_ [_ [P1 [P2 P3]]]]]]]]]]]]]]]]].
  destruct (proj2 (generate_cases radd flow s pb rx ry mask hist h w oy ox d0 dmax zh zw E1 E2 E3 I1 I2 P1 P2 P3) e E) as [K|[[K T]|[K T]]].
  - auto.
  - right; left. split; [exact K|]. unfold no_bounds, py_seq in *.
    destruct pb as [ | | | | str | l | l | d ]; auto.
    + destruct T as [T|[u [v [T _]]]]; [discriminate|]. injection T as T.
      destruct str as [|c1 [|c2 [|]]]; try discriminate T. reflexivity.
    + destruct T as [T|[u [v [T R]]]]; [discriminate|]. injection T as ->. eauto.
    + destruct T as [T|[u [v [T R]]]]; [discriminate|]. injection T as ->. eauto.
    + destruct T as [T|[u [v [T _]]]]; [discriminate|]. injection T as T.
      destruct d as [|? [|? [|]]]; try discriminate T. reflexivity.
  - right; right. split; [exact K|]. exists d0. rewrite E3. inversion T. reflexivity.
Qed.
Print Assumptions C124_generate_errors.

(** The converse: these are raised. *)
Theorem C124_generate_raises : forall radd n fh fw t s pb rx ry mask hist, post_init s = Ok tt ->
  (match pb with PNone | PBool _ | PInt _ | PFloat _ => True | PStr s => String.length s = 2 | PDict d => List.length d = 2
   | PTuple l | PList l => exists u v, l = [u; v] /\ ~ some_number u end) ->
  check_generate_args radd (Jax [n; fh; fw; 2] t) s pb rx ry mask hist = Err TypeError.
Proof.
  intros radd n fh fw t s pb rx ry mask hist H N.
  destruct (spec_parts s H) as [h [w [oy [ox [d0 [dmax [zh [zw [E1 [E2 [E3 _]]]]]]]]]]].
  unfold check_generate_args. rewrite E1, E2, E3.
  assert (LT : forall u, ~ some_number u -> py_lt zero u = Err TypeError).
  { intros u NU. destruct (is_number u) eqn:I; [apply some_number_iff in I; contradiction|]. destruct u; try discriminate I; reflexivity. }
  assert (STR : forall c, ~ some_number (PStr c)) by (intros c [K|[x K]]; [discriminate|inversion K]).
  destruct pb as [ | | | | str | l | l | d ]; try reflexivity; cbn [Nat.eqb negb py_seq bind].
  - destruct str as [|c1 [|c2 [|]]]; try discriminate N. reflexivity.
  - destruct N as [u [v [-> NU]]]. cbn [List.length Nat.eqb negb py_all]. rewrite (LT u NU). reflexivity.
  - destruct N as [u [v [-> NU]]]. cbn [List.length Nat.eqb negb py_all]. rewrite (LT u NU). reflexivity.
  - destruct d as [|[k x] [|[k' x'] [|]]]; try discriminate N. reflexivity.
Qed.
Print Assumptions C124_generate_raises.

(** ** The typed checks and the untyped ones *)

Definition ints (x : Z * Z) : pyval := PTuple [PInt (fst x); PInt (snd x)].
Definition float (q : Q) : arg := Val (PFloat (Fin q)).
Definition mask_arg (m : option image) : arg := match m with Some m => Jax [Z.to_nat (rows m); Z.to_nat (cols m)] 0 | None => Val PNone end.
Definition hist_arg (l : option (list Q)) : arg := match l with Some l => Jax [List.length l] (fold_left Qplus l 0%Q) | None => Val PNone end.
Definition units_arg (pixels : bool) : arg := Val (PStr (if pixels then "pixels" else "measure units per second")).

Lemma ltb0 : forall z, py_lt zero (PInt z) = Ok (0 <? z)%Z.
Proof. intro z. unfold py_lt, py_cmp, zero. cbn [num_of num_ltb]. f_equal. apply Bool.eq_true_iff_eq. rewrite negb_true_iff, <- not_true_iff_false, Qle_bool_iff, Z.ltb_lt. rewrite <- Zle_Qle. lia. Qed.
Lemma leb0 : forall z, py_le zero (PInt z) = Ok (0 <=? z)%Z.
Proof. intro z. unfold py_le, py_cmp, zero. cbn [num_of num_leb]. f_equal. apply Bool.eq_true_iff_eq. rewrite Qle_bool_iff, Z.leb_le. rewrite <- Zle_Qle. reflexivity. Qed.

(** On numbers, Model/Apply.v has the check of apply_flow_to_particles. *)
Theorem C124_apply_shapes : forall n k f t t' dt rx ry rz, arg_number dt = true -> is positive rx -> is positive ry -> is positive rz ->
  check_apply (Jax [n; k] t) (Jax f t') dt rx ry rz = check_shapes k f.
Proof.
  intros n k f t t' dt rx ry rz D X Y Z.
  assert (P : forall a, is positive a -> is positive_or_nan a) by (intros a [v [E K]]; exists v; split; [exact E|right; exact K]).
  assert (R : refuse_le0 rx (refuse_le0 ry (refuse_le0 rz (Ok tt))) = Ok tt).
  { assert (DD : decides (refuse_le0 rx (refuse_le0 ry (refuse_le0 rz (Ok tt)))) (is positive_or_nan rx /\ is positive_or_nan ry /\ is positive_or_nan rz /\ True))
      by (apply decides_refuse, decides_refuse, decides_refuse, decides_ok).
    apply (proj1 (decides_spec _ _ DD)). auto 6. }
  unfold check_apply, check_shapes. rewrite D, R. cbn [negb].
  destruct (negb ((k =? 2) || (k =? 3))); [reflexivity|].
  destruct f as [|f1 [|f2 [|c [|]]]]; reflexivity.
Qed.
Print Assumptions C124_apply_shapes.

(** Model/Debug.v has the other two. *)
Theorem C124_generate_untyped : forall radd fshape t sp s pb rx ry mask hist d0 q,
  i_image_shape s = ints (sp_image sp) -> i_img_offset s = ints (sp_offset sp) -> i_seeding_density_range s = PTuple [d0; PFloat (Fin q)] ->
  (forall m, mask = Some m -> 0 <= rows m /\ 0 <= cols m)%Z ->
  check_generate_args radd (Jax fshape t) s (ints pb) (float rx) (float ry) (mask_arg mask) (hist_arg hist) =
  check_generate fshape sp pb rx ry mask hist.
Proof.
  intros radd fshape t sp s pb rx ry mask hist d0 q E1 E2 E3 HM. unfold check_generate_args, check_generate. rewrite E1, E2, E3.
  destruct (sp_image sp) as [h w], (sp_offset sp) as [oy ox], pb as [b0 b1]. unfold ints. cbn [fst snd].
  destruct fshape as [|f1 [|f2 [|f3 [|c [|]]]]]; cbn [negb]; try reflexivity.
  destruct (negb (c =? 2)); [reflexivity|]. cbn [py_seq bind List.length Nat.eqb negb py_all]. rewrite !ltb0. unfold require.
  destruct (0 <? b0)%Z; cbn [py_and bind andb negb]; [|reflexivity]. destruct (0 <? b1)%Z; cbn [py_and bind andb negb]; [|reflexivity].
  cbn [forallb is_int andb negb float arg_number is_number arg_gt0]. unfold py_lt at 1 2, py_cmp, zero. cbn [num_of num_ltb bind].
  change (inject_Z 0) with 0%Q.
  destruct (Qle_bool rx 0); cbn [negb]; [reflexivity|]. destruct (Qle_bool ry 0); cbn [negb]; [reflexivity|].
  assert (SMALL : forall b i o, too_small radd (PInt b) (PInt i) (PInt o) = Ok (b <? i + o)%Z).
  { intros b i o. unfold too_small, py_add. cbn [num_of is_float orb bind num_ltb]. f_equal. apply Bool.eq_true_iff_eq.
    rewrite negb_true_iff, <- not_true_iff_false, Qle_bool_iff, Z.ltb_lt, <- inject_Z_plus, <- Zle_Qle. lia. }
  rewrite !SMALL. cbn [bind]. destruct (b0 <? h + oy)%Z; [reflexivity|]. destruct (b1 <? w + ox)%Z; [reflexivity|].
  assert (MK : match mask_arg mask with Val PNone => Ok true | Val _ => Ok false | Jax sh _ => Ok (same_shape sh (PTuple [PInt h; PInt w])) end =
     Ok match mask with Some m => ((rows m =? h)%Z && (cols m =? w)%Z)%bool | None => true end).
  { destruct mask as [m|]; [|reflexivity]. destruct (HM m eq_refl) as [A B]. cbn [mask_arg same_shape List.length Nat.eqb combine forallb fst snd same_int andb].
    rewrite !Z2Nat.id by assumption. rewrite andb_true_r. reflexivity. }
  rewrite MK. cbn [bind]. destruct (match mask with Some m => ((rows m =? h)%Z && (cols m =? w)%Z)%bool | None => true end); cbn [negb]; [|reflexivity].
  destruct hist as [l|]; cbn [hist_arg bind int_value negb]; [|reflexivity].
  destruct (_ && _)%bool; reflexivity.
Qed.
Print Assumptions C124_generate_untyped.

Theorem C124_adapter_untyped : forall fshape t a,
  check_adapter_args (Jax fshape t) (Val (ints (ad_new a))) (Val (ints (ad_image a))) (Val (ints (ad_off a))) (float (ad_res a)) (float (ad_rx a))
    (float (ad_ry a)) (Val (ints (ad_pb a))) (Val (PTuple [PFloat (Fin (fst (ad_pbo a))); PFloat (Fin (snd (ad_pbo a)))]))
    (Val (PInt (Z.of_nat (ad_batch a)))) (units_arg (ad_pixels a)) (float (ad_dt a)) (Val (ints (ad_pad a))) =
  check_adapter fshape a.
Proof.
  intros fshape t [[n0 n1] [i0 i1] [o0 o1] res rx ry [b0 b1] [p0 p1] batch px dt [z0 z1]]. unfold check_adapter_args, check_adapter.
  cbn [ad_new ad_image ad_off ad_res ad_rx ad_ry ad_pb ad_pbo ad_batch ad_pixels ad_dt ad_pad fst snd].
  destruct fshape as [|f1 [|f2 [|f3 [|c [|]]]]]; cbn [negb]; try reflexivity.
  destruct (negb (c =? 2)); [reflexivity|].
  assert (POS : forall x y k, require_tuple2 positive_int (Val (ints (x, y))) k = if negb ((0 <? x)%Z && (0 <? y)%Z) then Err ValueError else k).
  { intros x y k. unfold require_tuple2, require, tuple2, ints, positive_int. cbn [py_all is_int fst snd]. rewrite !ltb0. destruct (0 <? x)%Z, (0 <? y)%Z; reflexivity. }
  assert (POSN : forall x y k, require_tuple2 positive_number (Val (ints (x, y))) k = if negb ((0 <? x)%Z && (0 <? y)%Z) then Err ValueError else k).
  { intros x y k. unfold require_tuple2, require, tuple2, ints, positive_number. cbn [py_all is_number fst snd]. rewrite !ltb0. destruct (0 <? x)%Z, (0 <? y)%Z; reflexivity. }
  assert (NN : forall x y k, require_tuple2 non_negative_number (Val (ints (x, y))) k = if negb ((0 <=? x)%Z && (0 <=? y)%Z) then Err ValueError else k).
  { intros x y k. unfold require_tuple2, require, tuple2, ints, non_negative_number. cbn [py_all is_number fst snd]. rewrite !leb0. destruct (0 <=? x)%Z, (0 <=? y)%Z; reflexivity. }
  assert (NI : forall x y k, require_tuple2 non_negative_int (Val (ints (x, y))) k = if negb ((0 <=? x)%Z && (0 <=? y)%Z) then Err ValueError else k).
  { intros x y k. unfold require_tuple2, require, tuple2, ints, non_negative_int. cbn [py_all is_int fst snd]. rewrite !leb0. destruct (0 <=? x)%Z, (0 <=? y)%Z; reflexivity. }
  assert (RF : forall x k, refuse_le0 (float x) k = if Qle_bool x 0 then Err ValueError else k) by reflexivity.
  rewrite !POS, NN, !RF, POSN, NI.
  destruct (negb _); [reflexivity|]. destruct (negb _); [reflexivity|]. destruct (negb _); [reflexivity|].
  destruct (Qle_bool res 0); [reflexivity|]. destruct (Qle_bool rx 0); [reflexivity|]. destruct (Qle_bool ry 0); [reflexivity|].
  destruct (negb _); [reflexivity|].
  unfold require_tuple2, require, tuple2, non_negative_number. cbn [py_all is_number py_and bind]. unfold py_le at 1 2, py_cmp, zero. cbn [num_of num_leb bind].
  change (inject_Z 0) with 0%Q.
  destruct (Qle_bool 0 p0); cbn [bind andb negb]; [|reflexivity]. destruct (Qle_bool 0 p1); cbn [bind andb negb]; [|reflexivity].
  cbn [arg_int is_int arg_le0]. unfold py_le, py_cmp, zero. cbn [num_of num_leb bind].
  assert (B : Qle_bool (inject_Z (Z.of_nat batch)) (inject_Z 0) = (batch =? 0)).
  { apply Bool.eq_true_iff_eq. rewrite Qle_bool_iff, <- Zle_Qle, Nat.eqb_eq. lia. }
  rewrite B. destruct (batch =? 0); [reflexivity|]. destruct px; reflexivity.
Qed.
Print Assumptions C124_adapter_untyped.

(** ** NaN *)

(** The tests written [v <= 0] let NaN pass: resolutions and time steps that are
    no numbers are accepted by two of the checks.  The third asks [v > 0]. *)
Theorem C124_nan_refuted :
  (exists pos flow dt rx ry rz, check_apply pos flow dt rx ry rz = Ok tt /\ ~ is positive rx /\ ~ is positive ry /\ ~ is positive rz) /\
  (exists flow new image off res rx ry pb pbo batch units dt pad,
     check_adapter_args flow new image off res rx ry pb pbo batch units dt pad = Ok tt /\ ~ is positive res /\ ~ is positive dt) /\
  (forall radd flow s pb rx ry mask hist, post_init s = Ok tt -> rx = Val a_nan \/ ry = Val a_nan ->
     check_generate_args radd flow s pb rx ry mask hist <> Ok tt).
Proof.
  assert (N : ~ is positive (Val a_nan)) by (intros [v [E [x [X _]]]]; injection E as <-; inversion X).
  split; [|split].
  - exists (Jax [5; 2] 0), (Jax [8; 8; 2] 0), (Val (PInt 1)), (Val a_nan), (Val a_nan), (Val a_nan). auto.
  - exists (Jax [1; 8; 8; 2] 0), (Val (ints (8, 8)%Z)), (Val (ints (8, 8)%Z)), (Val (ints (0, 0)%Z)), (Val a_nan), (Val (PInt 1)), (Val (PInt 1)),
      (Val (ints (8, 8)%Z)), (Val (ints (0, 0)%Z)), (Val (PInt 1)), (Val (PStr "pixels")), (Val a_nan), (Val (ints (0, 0)%Z)). auto.
  - intros radd flow s pb rx ry mask hist H X K.
    destruct (C124_generate radd flow s pb rx ry mask hist H) as [h [w [oy [ox [d0 [dmax [zh [zw [_ [_ [_ [_ [_ I]]]]]]]]]]]]].
    apply I in K. destruct X as [-> | ->]; apply N; [exact (ga_rx _ _ _ _ _ _ _ _ _ _ _ _ K)|exact (ga_ry _ _ _ _ _ _ _ _ _ _ _ _ K)].
Qed.
Print Assumptions C124_nan_refuted.

(** ** Cases *)
Definition exC_spec : ispec := update_fields [("image_shape", ints (64, 32)%Z); ("img_offset", PTuple [PInt 16; PFloat (Fin (31 # 2))])] default_spec.

Example exC_apply : check_apply (Jax [7; 3] 0) (Jax [16; 12; 3] 0) (Val (PFloat (Fin (-1)))) (Val (PInt 1)) (float (1 # 2)) (Val (PBool true)) = Ok tt /\
  check_apply (Jax [7; 3] 0) (Jax [16; 12; 2] 0) (Val (PInt 1)) (Val (PInt 1)) (Val (PInt 1)) (Val (PInt 1)) = Err ValueError /\
  check_apply (Jax [7; 2] 0) (Jax [16; 12; 2] 0) (Val (PStr "1")) (Val (PInt 1)) (Val (PInt 1)) (Val (PInt 1)) = Err ValueError.
Proof. repeat split. Qed.

Example exC_generate : post_init exC_spec = Ok tt /\
  check_generate_args Qplus (Jax [4; 100; 90; 2] 0) exC_spec (PList [PInt 80; PInt 48]) (Val (PInt 1)) (float (1 # 2)) (Jax [64; 32] 7) (Jax [256] 2048) = Ok tt /\
  check_generate_args Qplus (Jax [4; 100; 90; 2] 0) exC_spec (PList [PInt 80; PInt 47]) (Val (PInt 1)) (float (1 # 2)) (Val PNone) (Val PNone) = Err ValueError /\
  check_generate_args Qplus (Jax [4; 100; 90; 2] 0) exC_spec (PStr "ab") (Val (PInt 1)) (Val (PInt 1)) (Val PNone) (Val PNone) = Err TypeError /\
  check_generate_args Qplus (Jax [4; 100; 90; 2] 0) (update_fields [("seeding_density_range", PTuple [PInt 0; PFloat (Inf false)])] exC_spec)
    (ints (80, 48)%Z) (Val (PInt 1)) (Val (PInt 1)) (Val PNone) (Val PNone) = Err OverflowError /\
  post_init (update_fields [("seeding_density_range", PTuple [PInt 0; PFloat (Inf false)])] exC_spec) = Ok tt.
Proof. repeat split. Qed.

Example exC_adapter :
  check_adapter_args (Jax [2; 8; 8; 2] 0) (Val (ints (16, 16)%Z)) (Val (ints (8, 8)%Z)) (Val (PTuple [PInt 0; PFloat (Fin (1 # 2))])) (float 2) (Val (PInt 1))
    (Val (PInt 1)) (Val (PTuple [PFloat (Fin (19 # 2)); PInt 10])) (Val (ints (0, 0)%Z)) (Val (PBool true)) (Val (PStr "measure units per second")) (float (1 # 10)) (Val (ints (0, 3)%Z)) = Ok tt /\
  check_adapter_args (Jax [2; 8; 8; 2] 0) (Val (PList [PInt 16; PInt 16])) (Val (ints (8, 8)%Z)) (Val (ints (0, 0)%Z)) (float 2) (Val (PInt 1))
    (Val (PInt 1)) (Val (ints (8, 8)%Z)) (Val (ints (0, 0)%Z)) (Val (PInt 1)) (Val (PStr "pixels")) (float (1 # 10)) (Val (ints (0, 3)%Z)) = Err ValueError.
Proof. repeat split. Qed.
