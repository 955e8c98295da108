(** The float geometry on dyadic configurations. *)
From Coq Require Import List Arith ZArith QArith Qround Qreals Bool Reals Lia Lra.
From Flocq Require Import Core IEEE754.BinarySingleNaN.
From Verif Require Import Prelude Model.Interp Model.Geometry Spec.GeometrySpec Proofs.FloatProofs.
Import ListNotations.
Local Open Scope Z_scope.

Lemma float_int_dy : forall x z, float_int x z -> dy 0 x z /\ Z.abs z < 2 ^ 16.
Proof.
  intros x z [(q & V & E) B]. split; [|exact B].
  assert (F : is_finite (x : f64) = true) by (destruct x; try discriminate; reflexivity).
  destruct (f_val_R x F) as (q' & V' & R). change (f_val x = Some q') in V'. rewrite V in V'. injection V' as <-.
  split; [exact F|]. rewrite <- R. rewrite (Qeq_eqR _ _ E). unfold Q2R, inject_Z, F2R. cbn. lra.
Qed.

Section FAxis.
Variables (k N a b e : Z).
Variables (off lim_a lim_b res size ext : f64) (o : Z).
Hypothesis K : 0 <= k <= 8.

(** One axis: [lim_a] = max speed * dt, [lim_b] = min speed * dt. *)
Lemma faxis : dy 0 off o -> dy 0 lim_a a -> dy 0 lim_b b -> dy 0 res (2 ^ k) -> dy k ext e ->
  Z.abs o < 2 ^ 16 -> 0 <= a <= 2 ^ 32 -> - 2 ^ 32 <= b <= 0 -> 0 <= N < 2 ^ 16 -> 0 <= e <= 2 ^ 33 ->
  forall more offp pbp,
  let pbo := n_sub float64 off lim_a in
  let pb := n_sub float64 (n_add float64 (n_div float64 (f64_ofZ N) res) lim_a) lim_b in
  let pbo' := if more : bool then n_sub float64 pbo ext else pbo in
  let pb' := if more then n_add float64 pb ext else pb in
  int float64 (n_mul float64 (n_sub float64 off pbo') res) = Ok offp ->
  int float64 (n_mul float64 pb' res) = Ok pbp ->
  offp = a * 2 ^ k + (if more then e else 0) /\ pbp = N + offp - b * 2 ^ k.
Proof.
  intros Do Da Db Dr De Bo Ba Bb BN Be more offp pbp pbo pb pbo' pb' Ho Hp.
  assert (KB : 1 <= 2 ^ k <= 256).
  { split; [apply Z.pow_le_mono_r with (a := 2) (b := 0); lia|]. change 256 with (2 ^ 8). apply Z.pow_le_mono_r; lia. }
  assert (P16 : 2 ^ 16 = 65536) by reflexivity. assert (P32 : 2 ^ 32 = 4294967296) by reflexivity.
  assert (P33 : 2 ^ 33 = 8589934592) by reflexivity. assert (P53 : 2 ^ 53 = 9007199254740992) by reflexivity.
  rewrite P16, P32, P33 in *.
  pose proof (dy_lift 0 k _ _ (proj1 K) Do) as Do'. pose proof (dy_lift 0 k _ _ (proj1 K) Da) as Da'.
  pose proof (dy_lift 0 k _ _ (proj1 K) Db) as Db'. cbn [Z.add] in Do', Da', Db'.
  set (w := 2 ^ k) in *.
  assert (OW : Z.abs (o * w) <= 65536 * 256) by (rewrite Z.abs_mul; apply Z.mul_le_mono_nonneg; lia).
  assert (AW : 0 <= a * w <= 4294967296 * 256) by (split; [apply Z.mul_nonneg_nonneg; lia | apply Z.mul_le_mono_nonneg; lia]).
  assert (BW : - (4294967296 * 256) <= b * w <= 0) by nia.
  assert (DN : dy k (@Bdiv 53 1024 p64 l64 mode_NE (f64_ofZ N) res) N).
  { apply (dy_div 0 k); [apply dy_ofZ; lia | lia | exact Dr | unfold small; lia]. }
  assert (D1 : dy k pbo (o * w - a * w)) by (apply dy_minus; [exact Do' | exact Da' | unfold small; lia]).
  assert (D2 : dy k pb (N + a * w - b * w)).
  { apply dy_minus; [apply dy_plus; [exact DN | exact Da' | unfold small; lia] | exact Db' | unfold small; lia]. }
  assert (D3 : dy k pbo' (o * w - a * w - (if more then e else 0))).
  { unfold pbo'. destruct more; [apply dy_minus; [exact D1 | exact De | unfold small; lia]|].
    rewrite Z.sub_0_r. exact D1. }
  assert (D4 : dy k pb' (N + a * w - b * w + (if more then e else 0))).
  { unfold pb'. destruct more; [apply dy_plus; [exact D2 | exact De | unfold small; lia]|].
    rewrite Z.add_0_r. exact D2. }
  set (ee := if more then e else 0) in *. assert (EE : 0 <= ee <= 8589934592) by (unfold ee; destruct more; lia).
  assert (D5 : dy (k + 0) (n_mul float64 (n_sub float64 off pbo') res) ((o * w - (o * w - a * w - ee)) * w)).
  { apply dy_mult; [apply dy_minus; [exact Do' | exact D3 | unfold small; lia] | exact Dr |].
    unfold small. split; [lia|]. rewrite Z.abs_eq; nia. }
  assert (D6 : dy (k + 0) (n_mul float64 pb' res) ((N + a * w - b * w + ee) * w)).
  { apply dy_mult; [exact D4 | exact Dr |]. unfold small. split; [lia|]. rewrite Z.abs_eq; nia. }
  unfold int in Ho, Hp.
  rewrite (dy_trunc (k + 0) _ _ ltac:(lia) D5) in Ho by nia. rewrite (dy_trunc (k + 0) _ _ ltac:(lia) D6) in Hp by nia.
  rewrite Z.add_0_r in Ho, Hp. fold w in Ho, Hp. injection Ho as <-. injection Hp as <-.
  rewrite !Z.div_mul by lia. lia.
Qed.
End FAxis.

Lemma bind_ok : forall (A B : Type) (r : result A) (f : A -> result B) z, bind r f = Ok z -> exists a, r = Ok a /\ f a = Ok z.
Proof. intros A B [a|x] f z H; [exists a; auto | discriminate]. Qed.

Lemma float_crop : forall c g, dyadic_config c -> construct float64 c = Ok g -> forall y, crop_fits y c g.
Proof.
  intros c g (Hoff & Hmax & Hmin & Him & (zdt & Hdt & Pdt) & (zd & Hd & Pd) & (k & Hk & Hres)) H.
  apply float_int_dy in Hdt, Hd, Hres. destruct Hdt as [Ddt Bdt]. destruct Hd as [Dd Bd]. destruct Hres as [Dr _].
  unfold construct in H.
  destruct (negb _) in H; [discriminate|]. destruct (negb _) in H; [discriminate|].
  destruct (negb _) in H; [discriminate|]. destruct (negb _) in H; [discriminate|].
  apply bind_ok in H. destruct H as (out_y & _ & H). apply bind_ok in H. destruct H as (out_x & _ & H).
  destruct (n_ltb float64 (snd (g_max c)) (snd (g_min c))) in H; [discriminate|].
  destruct (n_ltb float64 (fst (g_max c)) (fst (g_min c))) in H; [discriminate|].
  cbv zeta in H.
  destruct (orb _ _) in H; [discriminate|]. destruct (orb _ _) in H; [discriminate|].
  apply bind_ok in H. destruct H as (radius & Hr & H).
  (* the radius *)
  assert (R : radius = 3 * zd / 2).
  { unfold int in Hr.
    assert (D : dy (0 + 1) (n_div float64 (n_mul float64 (n_ofZ float64 3) (g_maxd c)) (n_ofZ float64 2)) (3 * zd)).
    { apply (dy_div 0 1); [apply (dy_mult 0 0); [apply dy_ofZ; cbn; lia | exact Dd |] | lia | apply dy_ofZ; cbn; lia |];
        unfold small; split; try lia; change (2 ^ 53) with 9007199254740992; change (2 ^ 16) with 65536 in Bd; lia. }
    rewrite (dy_trunc (0 + 1) _ _ ltac:(lia) D) in Hr by lia. injection Hr as <-. reflexivity. }
  assert (RB : 0 <= radius <= 3 * 2 ^ 16).
  { subst radius. change (2 ^ 16) with 65536 in *. split; [apply Z.div_pos; lia|]. apply Z.div_le_upper_bound; lia. }
  set (psize := n_div float64 (n_ofZ float64 (2 * radius + 1)) (g_res c)) in H.
  assert (DP : dy k psize (2 * radius + 1)).
  { apply (dy_div 0 k); [apply dy_ofZ | lia | exact Dr | unfold small; split; [lia|]];
      change (2 ^ 53) with 9007199254740992; change (2 ^ 16) with 65536 in RB; lia. }
  set (more := (g_hide c && _)%bool) in H.
  apply bind_ok in H. destruct H as (pad_y & _ & H). apply bind_ok in H. destruct H as (pad_x & _ & H).
  apply bind_ok in H. destruct H as (off_y & Hoy & H). apply bind_ok in H. destruct H as (off_x & Hox & H).
  apply bind_ok in H. destruct H as (pb_y & Hpy & H). apply bind_ok in H. destruct H as (pb_x & Hpx & H).
  injection H as <-. clearbody more.
  assert (P16 : 2 ^ 16 = 65536) by reflexivity. assert (P53 : 2 ^ 53 = 9007199254740992) by reflexivity.
  assert (KB : 1 <= 2 ^ k <= 256).
  { split; [apply Z.pow_le_mono_r with (a := 2) (b := 0); lia|]. change 256 with (2 ^ 8). apply Z.pow_le_mono_r; lia. }
  assert (MAXD : forall y, exists a, 0 <= a <= 2 ^ 32 /\ dy 0 (n_mul float64 (max0 float64 (sel y (g_max c))) (g_dt c)) a).
  { intros y. destruct (Hmax y) as (z & Hz). apply float_int_dy in Hz. destruct Hz as [Dz Bz].
    exists (Z.max 0 z * zdt). rewrite P16 in *. change (2 ^ 32) with (65536 * 65536). split; [nia|].
    apply (dy_mult 0 0); [apply dy_max0; [lia | exact Dz] | exact Ddt |]. unfold small. split; [lia|]. rewrite P53. nia. }
  assert (MIND : forall y, exists b, - 2 ^ 32 <= b <= 0 /\ dy 0 (n_mul float64 (min0 float64 (sel y (g_min c))) (g_dt c)) b).
  { intros y. destruct (Hmin y) as (z & Hz). apply float_int_dy in Hz. destruct Hz as [Dz Bz].
    exists (Z.min 0 z * zdt). rewrite P16 in *. change (2 ^ 32) with (65536 * 65536). split; [nia|].
    apply (dy_mult 0 0); [apply dy_min0; [lia | exact Dz] | exact Ddt |]. unfold small. split; [lia|]. rewrite P53. nia. }
  assert (EXT : forall y, exists e, 0 <= e <= 2 ^ 33 /\
     dy k (max0 float64 (n_sub float64 psize (n_mul float64 (max0 float64 (sel y (g_max c))) (g_dt c)))) e).
  { intros y. destruct (MAXD y) as (a & Ba & Da). pose proof (dy_lift 0 k _ _ (proj1 Hk) Da) as Da'. cbn [Z.add] in Da'.
    change (2 ^ 32) with 4294967296 in Ba.
    assert (0 <= a * 2 ^ k <= 4294967296 * 256) by (split; [apply Z.mul_nonneg_nonneg; lia | apply Z.mul_le_mono_nonneg; lia]).
    exists (Z.max 0 (2 * radius + 1 - a * 2 ^ k)). rewrite P16 in RB. change (2 ^ 33) with 8589934592. split; [lia|].
    apply dy_max0; [lia|]. apply dy_minus; [exact DP | exact Da' |]. unfold small. split; [lia|]. rewrite P53. lia. }
  assert (GO : forall y offp pbp,
    int float64 (n_mul float64 (n_sub float64 (sel y (g_off c))
      (if more then n_sub float64 (n_sub float64 (sel y (g_off c)) (n_mul float64 (max0 float64 (sel y (g_max c))) (g_dt c)))
                      (max0 float64 (n_sub float64 psize (n_mul float64 (max0 float64 (sel y (g_max c))) (g_dt c))))
       else n_sub float64 (sel y (g_off c)) (n_mul float64 (max0 float64 (sel y (g_max c))) (g_dt c)))) (g_res c)) = Ok offp ->
    int float64 (n_mul float64
      (if more then n_add float64 (n_sub float64 (n_add float64 (n_div float64 (f64_ofZ (sel y (g_image c))) (g_res c))
                        (n_mul float64 (max0 float64 (sel y (g_max c))) (g_dt c)))
                        (n_mul float64 (min0 float64 (sel y (g_min c))) (g_dt c)))
                      (max0 float64 (n_sub float64 psize (n_mul float64 (max0 float64 (sel y (g_max c))) (g_dt c))))
       else n_sub float64 (n_add float64 (n_div float64 (f64_ofZ (sel y (g_image c))) (g_res c))
                        (n_mul float64 (max0 float64 (sel y (g_max c))) (g_dt c)))
                        (n_mul float64 (min0 float64 (sel y (g_min c))) (g_dt c))) (g_res c)) = Ok pbp ->
    0 <= offp /\ offp + sel y (g_image c) <= pbp).
  { intros y offp pbp E1 E2. destruct (MAXD y) as (a & Ba & Da). destruct (MIND y) as (b & Bb & Db).
    destruct (EXT y) as (e & Be & De). destruct (Hoff y) as (z & Hz). apply float_int_dy in Hz. destruct Hz as [Dz Bz].
    destruct (faxis k (sel y (g_image c)) a b e (sel y (g_off c)) _ _ (g_res c) _ z Hk Dz Da Db Dr De Bz Ba Bb (Him y) Be
                more offp pbp E1 E2) as [R1 R2].
    split; [rewrite R1; destruct more; nia | rewrite R2; nia]. }
  intros [|]; unfold crop_fits; cbn [sel fst snd o_off o_pb].
  - exact (GO true off_y pb_y Hoy Hpy).
  - exact (GO false off_x pb_x Hox Hpx).
Qed.
