(** The flow field adapter. *)
From Coq Require Import List Arith ZArith QArith Qround Qabs Qminmax Bool Lia Lqa.
From Verif Require Import Prelude Model.Interp Model.Apply Spec.InterpSpec Spec.WarpSpec Proofs.InterpProofs.
Import ListNotations.
Local Open Scope Q_scope.

(** * Tiling *)
Lemma nth_error_concat_repeat : forall (A : Type) (l : list A) k j, l <> [] -> (j < k * List.length l)%nat ->
  nth_error (List.concat (repeat l k)) j = nth_error l (j mod List.length l)%nat.
Proof.
  intros A l k. induction k as [|k IH]; intros j NE H; [lia|]. cbn [repeat List.concat].
  assert (L : (List.length l <> 0)%nat) by (destruct l; [contradiction | discriminate]).
  destruct (Nat.lt_ge_cases j (List.length l)) as [B|B].
  - rewrite nth_error_app1 by assumption. rewrite Nat.mod_small by assumption. reflexivity.
  - rewrite nth_error_app2 by assumption. rewrite IH by (try assumption; lia).
    f_equal. replace j with ((j - List.length l) + 1 * List.length l)%nat at 2 by lia.
    rewrite Nat.mod_add by assumption. reflexivity.
Qed.

Lemma concat_repeat_length : forall (A : Type) (l : list A) k, List.length (List.concat (repeat l k)) = (k * List.length l)%nat.
Proof. induction k as [|k IH]; cbn [repeat List.concat]; [reflexivity|]. rewrite app_length, IH. lia. Qed.

Lemma nth_error_firstn_lt : forall (A : Type) (l : list A) n j, (j < n)%nat -> nth_error (firstn n l) j = nth_error l j.
Proof.
  induction l as [|a l IH]; intros [|n] [|j] H; try lia; try reflexivity. cbn. apply IH. lia.
Qed.

Lemma repeats_enough : forall b n, (n <> 0)%nat -> (b <= (b + n - 1) / n * n)%nat.
Proof.
  intros b n H. pose proof (Nat.div_mod (b + n - 1) n H). pose proof (Nat.mod_upper_bound (b + n - 1) n H). nia.
Qed.

Lemma adapter_length : forall a fs, fs <> [] ->
  List.length (fst (flow_field_adapter a fs)) = ad_batch a /\ List.length (snd (flow_field_adapter a fs)) = List.length fs.
Proof.
  intros a fs NE. unfold flow_field_adapter. cbn [fst snd]. rewrite map_length. split; [|apply map_length].
  rewrite firstn_length, concat_repeat_length, map_length.
  assert (L : (List.length fs <> 0)%nat) by (destruct fs; [contradiction | discriminate]).
  pose proof (repeats_enough (ad_batch a) (List.length fs) L). lia.
Qed.

Lemma adapter_nth : forall a fs j, fs <> [] -> (j < ad_batch a)%nat ->
  nth_error (fst (flow_field_adapter a fs)) j =
  option_map (fun f => fst (process_single a f)) (nth_error fs (j mod List.length fs)%nat).
Proof.
  intros a fs j NE H. unfold flow_field_adapter. cbn [fst]. rewrite map_length.
  assert (L : (List.length fs <> 0)%nat) by (destruct fs; [contradiction | discriminate]).
  pose proof (repeats_enough (ad_batch a) (List.length fs) L).
  rewrite nth_error_firstn_lt by assumption.
  rewrite nth_error_concat_repeat; rewrite ?map_length; [apply nth_error_map | destruct fs; [contradiction | discriminate] | lia].
Qed.

Lemma adapter_nth_par : forall a fs j,
  nth_error (snd (flow_field_adapter a fs)) j = option_map (fun f => snd (process_single a f)) (nth_error fs j).
Proof. intros. unfold flow_field_adapter. cbn [snd]. apply nth_error_map. Qed.

(** * Padding *)
Lemma pad_bounded : forall py px f lo0 hi0 lo1 hi1, (0 <= py)%Z -> (0 <= px)%Z -> (1 <= fH f)%Z -> (1 <= fW f)%Z ->
  flow_bounded lo0 hi0 lo1 hi1 f -> flow_bounded lo0 hi0 lo1 hi1 (pad_edge py px f).
Proof. intros py px f lo0 hi0 lo1 hi1 Hy Hx HH HW B r c Hr Hc. cbn [pad_edge fH fW fu fv] in *. apply B; lia. Qed.

Lemma pad_nonempty : forall py px f, (0 <= py)%Z -> (0 <= px)%Z -> (1 <= fH f)%Z -> (1 <= fW f)%Z ->
  nonempty (chan0 (pad_edge py px f)) /\ nonempty (chan1 (pad_edge py px f)).
Proof. intros. unfold nonempty. cbn [chan0 chan1 pad_edge fH fW rows cols]. lia. Qed.

Definition well (a : adapter_args) (f : flow) : Prop :=
  (0 <= fst (ad_pad a))%Z /\ (0 <= snd (ad_pad a))%Z /\ (1 <= fH f)%Z /\ (1 <= fW f)%Z.

Definition physical (a : adapter_args) : adapter_args :=
  mkAdapter (ad_new a) (ad_image a) (ad_off a) (ad_res a) (ad_rx a) (ad_ry a) (ad_pb a) (ad_pbo a) (ad_batch a)
            false (ad_dt a) (ad_pad a).

Lemma chan_bounds : forall a f lo0 hi0 lo1 hi1 x y, well a f -> flow_bounded lo0 hi0 lo1 hi1 f ->
  let g := pad_edge (fst (ad_pad a)) (snd (ad_pad a)) f in
  lo0 <= bilinear (chan0 g) x y <= hi0 /\ lo1 <= bilinear (chan1 g) x y <= hi1.
Proof.
  intros a f lo0 hi0 lo1 hi1 x y (P1 & P2 & P3 & P4) B g.
  destruct (pad_nonempty _ _ f P1 P2 P3 P4) as [N0 N1].
  pose proof (pad_bounded _ _ f _ _ _ _ P1 P2 P3 P4 B) as PB.
  split; [apply (bilinear_between (chan0 g) x y lo0 hi0 N0) | apply (bilinear_between (chan1 g) x y lo1 hi1 N1)];
    intros r c [Q1 Q2]; apply (PB r c Q1 Q2).
Qed.

Lemma process_range : forall a f lo0 hi0 lo1 hi1, well a f -> flow_bounded lo0 hi0 lo1 hi1 f ->
  flow_bounded lo0 hi0 lo1 hi1 (snd (process_single a f)) /\
  (ad_pixels a = false -> flow_bounded lo0 hi0 lo1 hi1 (fst (process_single a f))).
Proof.
  intros a f lo0 hi0 lo1 hi1 Wl B. split.
  - intros r c _ _. exact (chan_bounds a f lo0 hi0 lo1 hi1 _ _ Wl B).
  - intros E r c _ _. unfold process_single. cbn [fst fu fv]. rewrite E.
    exact (chan_bounds a f lo0 hi0 lo1 hi1 _ _ Wl B).
Qed.

Lemma process_pixels : forall a f, ad_pixels a = true ->
  scaled_flow (ad_res a * ad_dt a) (fst (process_single a f)) (fst (process_single (physical a) f)).
Proof.
  intros a f E. unfold process_single, physical, scaled_flow. cbn [fst fH fW fu fv ad_pixels ad_new ad_pad]. rewrite E.
  split; [reflexivity|]. split; [reflexivity|]. intros r c _ _. split; apply Qmult_comm.
Qed.

Lemma process_shape : forall a f, fH (fst (process_single a f)) = fst (ad_new a) /\ fW (fst (process_single a f)) = snd (ad_new a).
Proof. intros; split; reflexivity. Qed.

(** * Where the grid nodes are *)
Lemma linspace_spaced : forall a b n i, (1 <= n)%Z -> spaced a b n i (linspace a b n i).
Proof.
  intros a b n i H. unfold linspace, spaced. destruct (Z.eqb_spec n 1) as [->|N].
  - split; [reflexivity | lia].
  - split; [lia|]. intros _. rewrite inj_sub1.
    assert (1 < inject_Z n) by (change 1 with (inject_Z 1); apply inj_lt; lia). field. lra.
Qed.

Lemma spaced_unique : forall a b n i x y, (1 <= n)%Z -> spaced a b n i x -> spaced a b n i y -> x == y.
Proof.
  intros a b n i x y H [X1 X2] [Y1 Y2]. destruct (Z.eq_dec n 1) as [->|N].
  - rewrite X1, Y1 by reflexivity. reflexivity.
  - assert (1 < inject_Z n) by (change 1 with (inject_Z 1); apply inj_lt; lia).
    assert (E : (x - a) * (inject_Z n - 1) == (y - a) * (inject_Z n - 1)) by (rewrite X2, Y2 by lia; reflexivity).
    apply Qmult_inj_r in E; lra.
Qed.

Lemma spaced_between : forall a b n i x, (0 <= i < n)%Z -> a <= b -> spaced a b n i x -> a <= x <= b.
Proof.
  intros a b n i x Hi Hab [X1 X2]. destruct (Z.eq_dec n 1) as [->|N].
  - rewrite X1 by reflexivity. lra.
  - specialize (X2 ltac:(lia)).
    assert (1 < inject_Z n) by (change 1 with (inject_Z 1); apply inj_lt; lia).
    assert (0 <= inject_Z i) by (change 0 with (inject_Z 0); apply inj_le; lia).
    assert (inject_Z i <= inject_Z n - 1) by (rewrite <- inj_sub1; apply inj_le; lia).
    split.
    + assert (0 <= (x - a) * (inject_Z n - 1)) by (rewrite X2; apply Qmult_le_0_compat; lra).
      destruct (Qlt_le_dec x a); [|assumption]. exfalso. nra.
    + assert ((x - a) * (inject_Z n - 1) <= (b - a) * (inject_Z n - 1)) by (rewrite X2; nra).
      destruct (Qlt_le_dec b x); [|assumption]. exfalso. nra.
Qed.

(** An affine channel is reported at the affine value of the node position. *)
Lemma process_affine : forall a f u0 ux uy v0 vx vy i j X Y,
  ad_pixels a = false -> ad_pad a = (0, 0)%Z -> (1 <= fH f)%Z -> (1 <= fW f)%Z ->
  (1 <= fst (ad_new a))%Z -> (1 <= snd (ad_new a))%Z ->
  (forall r c, (0 <= r < fH f)%Z -> (0 <= c < fW f)%Z ->
     fu f r c == u0 + ux * inject_Z c + uy * inject_Z r /\ fv f r c == v0 + vx * inject_Z c + vy * inject_Z r) ->
  spaced (rep_start_x a) (rep_start_x a + inject_Z (snd (ad_image a)) / ad_res a * ad_rx a - 1) (snd (ad_new a)) j X ->
  spaced (rep_start_y a) (rep_start_y a + inject_Z (fst (ad_image a)) / ad_res a * ad_ry a - 1) (fst (ad_new a)) i Y ->
  on_axis (fW f) X -> on_axis (fH f) Y ->
  let g := fst (process_single a f) in
  fu g i j == u0 + ux * X + uy * Y /\ fv g i j == v0 + vx * X + vy * Y.
Proof.
  intros a f u0 ux uy v0 vx vy i j X Y EP EZ HH HW NH NW AFF SX SY OX OY g.
  subst g. unfold process_single. cbn [fst fu fv]. rewrite EP, EZ. cbn [fst snd].
  assert (EX : rep_x a j == X) by (eapply spaced_unique; [exact NW | apply linspace_spaced; exact NW | exact SX]).
  assert (EY : rep_y a i == Y) by (eapply spaced_unique; [exact NH | apply linspace_spaced; exact NH | exact SY]).
  destruct (pad_nonempty 0 0 f) as [N0 N1]; try lia.
  assert (RW : cols (chan0 (pad_edge 0 0 f)) = fW f) by (cbn; lia).
  assert (RH : rows (chan0 (pad_edge 0 0 f)) = fH f) by (cbn; lia).
  assert (CX : clipQ 0 (inject_Z (fW f) - 1) (rep_x a j) == X).
  { rewrite (clipQ_compat _ _ _ _ EX). apply on_axis_clip; assumption. }
  assert (CY : clipQ 0 (inject_Z (fH f) - 1) (rep_y a i) == Y).
  { rewrite (clipQ_compat _ _ _ _ EY). apply on_axis_clip; assumption. }
  split.
  - rewrite (bilinear_affine (chan0 (pad_edge 0 0 f)) (rep_x a j) (rep_y a i) u0 ux uy N0).
    + rewrite RW, RH, CX, CY. reflexivity.
    + intros r k [P1 P2]. rewrite RW in P2. rewrite RH in P1. cbn [chan0 pad_edge at_ fu].
      rewrite !Z.sub_0_r, !Z.max_r by lia. apply AFF; assumption.
  - rewrite (bilinear_affine (chan1 (pad_edge 0 0 f)) (rep_x a j) (rep_y a i) v0 vx vy N1).
    + change (cols (chan1 (pad_edge 0 0 f))) with (cols (chan0 (pad_edge 0 0 f))).
      change (rows (chan1 (pad_edge 0 0 f))) with (rows (chan0 (pad_edge 0 0 f))).
      rewrite RW, RH, CX, CY. reflexivity.
    + intros r k [P1 P2]. change (cols (chan1 (pad_edge 0 0 f))) with (cols (chan0 (pad_edge 0 0 f))) in P2.
      change (rows (chan1 (pad_edge 0 0 f))) with (rows (chan0 (pad_edge 0 0 f))) in P1.
      rewrite RW in P2. rewrite RH in P1. cbn [chan1 pad_edge at_ fv].
      rewrite !Z.sub_0_r, !Z.max_r by lia. apply AFF; assumption.
Qed.

(** * Matching grids *)
Lemma process_identity : forall a f,
  ad_pixels a = false -> ad_pad a = (0, 0)%Z -> (1 <= fH f)%Z -> (1 <= fW f)%Z ->
  ad_new a = (fH f, fW f) -> rep_start_y a == 0 -> rep_start_x a == 0 ->
  inject_Z (fst (ad_image a)) / ad_res a * ad_ry a == inject_Z (fH f) ->
  inject_Z (snd (ad_image a)) / ad_res a * ad_rx a == inject_Z (fW f) ->
  same_flow (fst (process_single a f)) f.
Proof.
  intros a f EP EZ HH HW EN SY SX EH EW.
  assert (NY : forall i, (0 <= i < fH f)%Z -> rep_y a i == inject_Z i).
  { intros i Hi. unfold rep_y. rewrite EN. cbn [fst].
    eapply spaced_unique; [exact HH | apply linspace_spaced; exact HH |]. split.
    - intros E1. rewrite SY. replace i with 0%Z by lia. reflexivity.
    - intros _. rewrite SY, EH. ring. }
  assert (NX : forall i, (0 <= i < fW f)%Z -> rep_x a i == inject_Z i).
  { intros i Hi. unfold rep_x. rewrite EN. cbn [snd].
    eapply spaced_unique; [exact HW | apply linspace_spaced; exact HW |]. split.
    - intros E1. rewrite SX. replace i with 0%Z by lia. reflexivity.
    - intros _. rewrite SX, EW. ring. }
  destruct (pad_nonempty 0 0 f) as [N0 N1]; try lia.
  unfold process_single, same_flow. cbn [fst fH fW fu fv]. rewrite EP, EZ, EN. cbn [fst snd].
  split; [reflexivity|]. split; [reflexivity|]. intros r c Hr Hc. split.
  - rewrite (bilinear_proper _ _ (inject_Z c) _ (inject_Z r) N0 (NX c Hc) (NY r Hr)).
    rewrite (bilinear_grid _ r c N0) by (split; cbn; lia).
    cbn [chan0 pad_edge at_ fu]. rewrite !Z.sub_0_r, !Z.max_r by lia. reflexivity.
  - rewrite (bilinear_proper _ _ (inject_Z c) _ (inject_Z r) N1 (NX c Hc) (NY r Hr)).
    rewrite (bilinear_grid _ r c N1) by (split; cbn; lia).
    cbn [chan1 pad_edge at_ fv]. rewrite !Z.sub_0_r, !Z.max_r by lia. reflexivity.
Qed.

(** * Linearity in the flow *)
Lemma pad_combines : forall py px k l f f1 f2, (0 <= py)%Z -> (0 <= px)%Z -> (1 <= fH f)%Z -> (1 <= fW f)%Z ->
  combines k l f f1 f2 -> combines k l (pad_edge py px f) (pad_edge py px f1) (pad_edge py px f2).
Proof.
  intros py px k l f f1 f2 Hy Hx HH HW (A & B & C & D & E). unfold combines. cbn [pad_edge fH fW fu fv].
  rewrite A, B, C, D. repeat (split; [reflexivity|]). intros r c Hr Hc. apply E; lia.
Qed.

Lemma process_linear : forall a k l f f1 f2, well a f -> combines k l f f1 f2 ->
  combines k l (fst (process_single a f)) (fst (process_single a f1)) (fst (process_single a f2)) /\
  combines k l (snd (process_single a f)) (snd (process_single a f1)) (snd (process_single a f2)).
Proof.
  intros a k l f f1 f2 (P1 & P2 & P3 & P4) C.
  pose proof (pad_combines _ _ k l f f1 f2 P1 P2 P3 P4 C) as (A & B & D & E & F).
  destruct (pad_nonempty _ _ f P1 P2 P3 P4) as [N0 N1].
  set (g := pad_edge (fst (ad_pad a)) (snd (ad_pad a)) f) in *.
  set (g1 := pad_edge (fst (ad_pad a)) (snd (ad_pad a)) f1) in *.
  set (g2 := pad_edge (fst (ad_pad a)) (snd (ad_pad a)) f2) in *.
  assert (L0 : forall x y, bilinear (chan0 g) x y == k * bilinear (chan0 g1) x y + l * bilinear (chan0 g2) x y).
  { intros x y. apply (bilinear_linear (chan0 g1) (chan0 g2) (chan0 g) k l x y N0); try assumption.
    intros r c [Q1 Q2]. apply (F r c Q1 Q2). }
  assert (L1 : forall x y, bilinear (chan1 g) x y == k * bilinear (chan1 g1) x y + l * bilinear (chan1 g2) x y).
  { intros x y. apply (bilinear_linear (chan1 g1) (chan1 g2) (chan1 g) k l x y N1); try assumption.
    intros r c [Q1 Q2]. apply (F r c Q1 Q2). }
  unfold combines, process_single. cbn [fst snd fH fW fu fv]. fold g g1 g2.
  split; repeat (split; [reflexivity|]); intros r c _ _.
  - destruct (ad_pixels a); rewrite L0, L1; split; ring.
  - split; [apply L0 | apply L1].
Qed.
