(** Slices by positions (C69) and the header of .flo files (C87). *)
From Coq Require Import List Arith ZArith Bool Lia.
From Verif Require Import Prelude Model.Base Model.Scripts Spec.ScriptsSpec Spec.SliceSpec Proofs.ScriptsSplit.
Import ListNotations.
Local Open Scope nat_scope.

Lemma filter_none : forall {A} (P : A -> bool) l, (forall x, In x l -> P x = false) -> filter P l = [].
Proof.
  intros A P. induction l as [|x l IH]; intros H; [reflexivity|]. cbn. rewrite H by (left; reflexivity).
  apply IH. intros y I. apply H. right. exact I.
Qed.

Lemma window_from : forall {A} (l : list A) s a b,
  map snd (filter (fun x => (a <=? fst x) && (fst x <? b)) (combine (seq s (List.length l)) l)) =
  firstn (b - Nat.max a s) (skipn (a - s) l).
Proof.
  intros A. induction l as [|x l IH]; intros s a b.
  - cbn [List.length seq combine filter map]. rewrite skipn_nil, firstn_nil. reflexivity.
  - cbn [List.length seq combine filter fst]. specialize (IH (S s) a b).
    destruct (Nat.leb_spec a s) as [L|L]; cbn [andb].
    + replace (a - s) with 0 by lia. replace (a - S s) with 0 in IH by lia. cbn [skipn] in IH |- *.
      destruct (Nat.ltb_spec s b).
      * cbn [map snd]. rewrite IH. replace (b - Nat.max a s) with (S (b - Nat.max a (S s))) by lia. reflexivity.
      * rewrite IH. replace (b - Nat.max a s) with 0 by lia. replace (b - Nat.max a (S s)) with 0 by lia. reflexivity.
    + rewrite IH. replace (a - s) with (S (a - S s)) by lia. cbn [skipn].
      replace (Nat.max a (S s)) with (Nat.max a s) by lia. reflexivity.
Qed.

Lemma filter_ext_in' : forall {A} (P Q : A -> bool) l, (forall x, In x l -> P x = Q x) -> filter P l = filter Q l.
Proof. intros. apply filter_ext_in. assumption. Qed.

Lemma slice_positions : forall {A} (l : list A) a b,
  pyslice l a b = positions l (fun i => not_before (List.length l) a i && before (List.length l) b i).
Proof.
  intros A l a b. unfold pyslice, positions. set (n := List.length l).
  transitivity (map snd (filter (fun x => (slice_bound n a <=? fst x) && (fst x <? slice_bound n b))
                           (combine (seq 0 n) l))).
  - unfold n. rewrite window_from. rewrite Nat.max_0_r, Nat.sub_0_r. reflexivity.
  - f_equal. apply filter_ext_in'. intros [p x] I. apply in_combine_l in I. apply in_seq in I. cbn [fst].
    unfold slice_bound, not_before, before. f_equal.
    + destruct (Z.ltb_spec a 0); apply eq_true_iff_eq; rewrite Nat.leb_le, Z.leb_le; lia.
    + destruct (Z.ltb_spec b 0); apply eq_true_iff_eq; rewrite Nat.ltb_lt, Z.ltb_lt; lia.
Qed.

Lemma positions_ext : forall {A} (l : list A) P Q,
  (forall i, (0 <= i < Z.of_nat (List.length l))%Z -> P i = Q i) -> positions l P = positions l Q.
Proof.
  intros A l P Q H. unfold positions. f_equal. apply filter_ext_in'. intros [p x] I.
  apply in_combine_l in I. apply in_seq in I. cbn [fst]. apply H. lia.
Qed.

(** ** .flo *)

Lemma u32_bytes : forall a b c d, is_byte a -> is_byte b -> is_byte c -> is_byte d ->
  le_bytes (u32 a b c d) = [a; b; c; d].
Proof.
  intros a b c d A B C D. unfold is_byte in *. unfold le_bytes, u32.
  set (x := (c + 256 * d)%Z). set (y := (b + 256 * x)%Z).
  assert (Y1 : ((a + 256 * y) / 256 = y)%Z) by (symmetry; apply (Z.div_unique _ 256 y a); lia).
  assert (Y2 : ((a + 256 * y) mod 256 = a)%Z) by (symmetry; apply (Z.mod_unique _ 256 y a); lia).
  assert (X1 : (y / 256 = x)%Z) by (symmetry; apply (Z.div_unique _ 256 x b); lia).
  assert (X2 : (y mod 256 = b)%Z) by (symmetry; apply (Z.mod_unique _ 256 x b); lia).
  assert (D1 : (x / 256 = d)%Z) by (symmetry; apply (Z.div_unique _ 256 d c); lia).
  assert (D2 : (x mod 256 = c)%Z) by (symmetry; apply (Z.mod_unique _ 256 d c); lia).
  replace (65536)%Z with (256 * 256)%Z by lia. replace (16777216)%Z with (256 * (256 * 256))%Z by lia.
  rewrite <- !Z.div_div by lia. rewrite Y1, Y2, X1, X2, D1, D2. reflexivity.
Qed.

Lemma floats_prefix : forall n b, List.length (floats n b) = n ->
  exists rest, b = (flat_map (fun v => let '(p, q, r, s) := v in [p; q; r; s]) (floats n b) ++ rest)%list.
Proof.
  induction n as [|n IH]; intros b H; [exists b; reflexivity|].
  destruct b as [|p [|q [|r [|s b]]]]; cbn [floats List.length] in H; try discriminate.
  injection H as H. destruct (IH b H) as [rest E]. exists rest. cbn [floats flat_map app]. rewrite <- E. reflexivity.
Qed.

Lemma floats_all : forall b n, List.length b <= n -> exists rest,
  b = (flat_map (fun v => let '(p, q, r, s) := v in [p; q; r; s]) (floats n b) ++ rest)%list /\ List.length rest < 4.
Proof.
  intros b n; revert b. induction n as [|n IH]; intros b H.
  - destruct b; [|cbn in H; lia]. exists []. cbn. split; [reflexivity|lia].
  - destruct b as [|p [|q [|r [|s b]]]]; cbn [floats List.length] in *; try (eexists; split; [reflexivity|cbn; lia]).
    destruct (IH b) as (rest & E & L); [lia|]. exists rest. cbn [flat_map app]. rewrite <- E. auto.
Qed.

Lemma floats_back_all : forall vs rest n, List.length vs <= n -> List.length rest < 4 ->
  floats n (flat_map (fun v => let '(a, b, c, d) := v in [a; b; c; d]) vs ++ rest)%list = vs.
Proof.
  induction vs as [|[[[a b] c] d] vs IH]; intros rest n H R.
  - destruct n; [reflexivity|]. destruct rest as [|x [|y [|z [|t rest]]]]; cbn in *; try reflexivity; lia.
  - destruct n as [|n]; [cbn in H; lia|]. cbn [flat_map app floats]. rewrite IH; [reflexivity | cbn in H; lia | exact R].
Qed.

Lemma i32_back : forall a b c d, is_byte a -> is_byte b -> is_byte c -> is_byte d ->
  (0 <= i32 a b c d /\ [a; b; c; d] = le_bytes (i32 a b c d) /\ i32 a b c d < 2147483648)%Z \/
  (i32 a b c d < 0 /\ 128 <= d)%Z.
Proof.
  intros a b c d A B C D. pose proof (u32_bytes a b c d A B C D) as U.
  unfold i32. cbv zeta. destruct (Z.ltb_spec (u32 a b c d) 2147483648).
  - left. split; [unfold u32, is_byte in *; lia|]. split; [symmetry; exact U | assumption].
  - right. unfold u32, is_byte in *. lia.
Qed.

Lemma i32_negative : forall a b c d, is_byte a -> is_byte b -> is_byte c -> is_byte d -> (128 <= d)%Z ->
  (i32 a b c d < 0)%Z.
Proof.
  intros a b c d A B C D N. unfold i32. cbv zeta. unfold is_byte in *.
  destruct (Z.ltb_spec (u32 a b c d) 2147483648); unfold u32 in *; lia.
Qed.

Lemma flat_length : forall vs : list f32,
  List.length (flat_map (fun v => let '(a, b, c, d) := v in [a; b; c; d]) vs) = 4 * List.length vs.
Proof. induction vs as [|[[[a b] c] d] vs IH]; [reflexivity|]. cbn [flat_map app List.length]. rewrite IH. lia. Qed.

Lemma flo_only : forall bytes h w vs, Forall is_byte bytes ->
  (read_flo bytes = Ok (h, w, vs) <->
   List.length vs = 2 * w * h /\
   ((exists rest, bytes = (flo_file h w vs ++ rest)%list /\ (Z.of_nat w < 2147483648)%Z /\ (Z.of_nat h < 2147483648)%Z) \/
    flo_open h w vs bytes)).
Proof.
  intros bytes h w vs F. split.
  - intros H. split; [apply (flo_accepted bytes h w vs H)|]. unfold read_flo in H.
    destruct (list_eq_dec Z.eq_dec (firstn 4 bytes) [80; 73; 69; 72]%Z) as [E|]; [|discriminate].
    pose proof (firstn_skipn 4 bytes) as FS. rewrite E in FS.
    destruct (skipn 4 bytes) as [|a0 [|a1 [|a2 [|a3 [|b0 [|b1 [|b2 [|b3 body]]]]]]]]; try discriminate.
    clear E. subst bytes. cbn [app] in F.
    repeat match goal with K : Forall is_byte (_ :: _) |- _ => inversion K; subst; clear K end.
    cbv zeta in H. set (d := fromfile (2 * i32 a0 a1 a2 a3 * i32 b0 b1 b2 b3) body) in *.
    destruct (flo_shape (i32 b0 b1 b2 b3) (i32 a0 a1 a2 a3) (List.length d)) as [[h' w']|] eqn:S; [|discriminate].
    injection H as <- <- <-. unfold flo_shape in S.
    destruct (i32_back a0 a1 a2 a3) as [(A1 & A2 & A3)|(A1 & A2)]; try assumption;
      destruct (i32_back b0 b1 b2 b3) as [(B1 & B2 & B3)|(B1 & B2)]; try assumption.
    + left. destruct (Z.ltb_spec (i32 b0 b1 b2 b3) 0); [lia|]. destruct (Z.ltb_spec (i32 a0 a1 a2 a3) 0); [lia|].
      destruct (Nat.eqb_spec (List.length d) (2 * Z.to_nat (i32 a0 a1 a2 a3) * Z.to_nat (i32 b0 b1 b2 b3))) as [M|]; [|discriminate].
      injection S as <- <-. rewrite !Z2Nat.id by assumption.
      unfold d, fromfile in M |- *. destruct (Z.ltb_spec (2 * i32 a0 a1 a2 a3 * i32 b0 b1 b2 b3) 0); [nia|].
      assert (X : 2 * Z.to_nat (i32 a0 a1 a2 a3) * Z.to_nat (i32 b0 b1 b2 b3) = Z.to_nat (2 * i32 a0 a1 a2 a3 * i32 b0 b1 b2 b3)).
      { rewrite !Z2Nat.inj_mul by lia. reflexivity. }
      rewrite X in M. destruct (floats_prefix _ _ M) as [rest R]. exists rest. split; [|split; assumption].
      unfold flo_file. rewrite !Z2Nat.id by assumption. rewrite <- A2, <- B2, <- !app_assoc. cbn [app].
      do 12 f_equal. exact R.
    + right. destruct (Z.ltb_spec (i32 b0 b1 b2 b3) 0); [|lia]. destruct (Z.ltb_spec (i32 a0 a1 a2 a3) 0); [lia|].
      destruct (Nat.eqb_spec (2 * Z.to_nat (i32 a0 a1 a2 a3)) 0) as [|Z0]; [discriminate|]. cbn [negb andb] in S.
      destruct (List.length d mod (2 * Z.to_nat (i32 a0 a1 a2 a3)) =? 0); [|discriminate]. injection S as <- <-.
      assert (D : d = floats (List.length body) body).
      { unfold d, fromfile. destruct (Z.ltb_spec (2 * i32 a0 a1 a2 a3 * i32 b0 b1 b2 b3) 0); [reflexivity|nia]. }
      destruct (floats_all body (List.length body) (le_n _)) as (rest & R & RL).
      exists [a0; a1; a2; a3], [b0; b1; b2; b3], rest. split; [|split; [exact RL|right]].
      * rewrite D. cbn [app]. do 12 f_equal. exact R.
      * rewrite Z2Nat.id by assumption. split; [exact A2|]. split; [lia|]. split; [assumption|]. exists b0, b1, b2, b3. auto.
    + right. destruct (Z.ltb_spec (i32 b0 b1 b2 b3) 0); [lia|]. destruct (Z.ltb_spec (i32 a0 a1 a2 a3) 0); [|lia].
      destruct (Nat.eqb_spec (2 * Z.to_nat (i32 b0 b1 b2 b3)) 0) as [|Z0]; [discriminate|]. cbn [negb andb] in S.
      destruct (List.length d mod (2 * Z.to_nat (i32 b0 b1 b2 b3)) =? 0); [|discriminate]. injection S as <- <-.
      assert (D : d = floats (List.length body) body).
      { unfold d, fromfile. destruct (Z.ltb_spec (2 * i32 a0 a1 a2 a3 * i32 b0 b1 b2 b3) 0); [reflexivity|nia]. }
      destruct (floats_all body (List.length body) (le_n _)) as (rest & R & RL).
      exists [a0; a1; a2; a3], [b0; b1; b2; b3], rest. split; [|split; [exact RL|left]].
      * rewrite D. cbn [app]. do 12 f_equal. exact R.
      * rewrite Z2Nat.id by assumption. split; [exists a0, a1, a2, a3; auto|]. split; [exact B2|]. split; [lia|assumption].
    + destruct (Z.ltb_spec (i32 b0 b1 b2 b3) 0); [|lia]. destruct (Z.ltb_spec (i32 a0 a1 a2 a3) 0); [discriminate|lia].
  - intros (L & [(rest & -> & W & H)|(wb & hb & rest & -> & RL & C)]).
    + apply flo_read; assumption.
    + assert (FB : forall b0 b1 b2 b3 (p q : list Z), Forall is_byte (p ++ [b0; b1; b2; b3] ++ q)%list ->
                   is_byte b0 /\ is_byte b1 /\ is_byte b2 /\ is_byte b3).
      { intros b0 b1 b2 b3 p q K. apply Forall_app in K as [_ K]. apply Forall_app in K as [K _].
        inversion K as [|? ? K0 K']; subst. inversion K' as [|? ? K1 K'']; subst.
        inversion K'' as [|? ? K2 K3']; subst. inversion K3'; subst. auto. }
      set (V := flat_map (fun v => let '(a, b, c, d) := v in [a; b; c; d]) vs) in *.
      assert (LV : List.length vs <= List.length (V ++ rest)%list).
      { rewrite app_length. unfold V. rewrite flat_length. lia. }
      destruct C as [((b0 & b1 & b2 & b3 & -> & N) & -> & P & M)|(-> & P & M & (b0 & b1 & b2 & b3 & -> & N))].
      * destruct (FB b0 b1 b2 b3 _ _ F) as (G0 & G1 & G2 & G3).
        pose proof (i32_negative _ _ _ _ G0 G1 G2 G3 N) as NG.
        unfold le_bytes. cbn [app]. unfold read_flo. cbn [firstn skipn].
        destruct (list_eq_dec Z.eq_dec [80; 73; 69; 72]%Z [80; 73; 69; 72]%Z) as [_|X]; [|congruence].
        rewrite i32_le by lia. unfold fromfile.
        destruct (Z.ltb_spec (2 * i32 b0 b1 b2 b3 * Z.of_nat h) 0); [|nia].
        unfold V. rewrite floats_back_all by (try exact LV; exact RL). unfold flo_shape.
        destruct (Z.ltb_spec (Z.of_nat h) 0); [lia|]. destruct (Z.ltb_spec (i32 b0 b1 b2 b3) 0); [|lia].
        rewrite Nat2Z.id, L. replace (2 * w * h) with (w * (2 * h)) by lia.
        rewrite Nat.mod_mul, Nat.div_mul by lia. destruct (Nat.eqb_spec (2 * h) 0); [lia|]. reflexivity.
      * rewrite app_assoc in F. destruct (FB b0 b1 b2 b3 _ _ F) as (G0 & G1 & G2 & G3).
        pose proof (i32_negative _ _ _ _ G0 G1 G2 G3 N) as NG.
        unfold le_bytes. cbn [app]. unfold read_flo. cbn [firstn skipn].
        destruct (list_eq_dec Z.eq_dec [80; 73; 69; 72]%Z [80; 73; 69; 72]%Z) as [_|X]; [|congruence].
        rewrite i32_le by lia. unfold fromfile.
        destruct (Z.ltb_spec (2 * Z.of_nat w * i32 b0 b1 b2 b3) 0); [|nia].
        unfold V. rewrite floats_back_all by (try exact LV; exact RL). unfold flo_shape.
        destruct (Z.ltb_spec (i32 b0 b1 b2 b3) 0); [|lia]. destruct (Z.ltb_spec (Z.of_nat w) 0); [lia|].
        rewrite Nat2Z.id, L. replace (2 * w * h) with (h * (2 * w)) by lia.
        rewrite Nat.mod_mul, Nat.div_mul by lia. destruct (Nat.eqb_spec (2 * w) 0); [lia|]. reflexivity.
Qed.
