(** A uniform displacement by whole pixels shifts the interior of the image. *)
From Coq Require Import List Arith ZArith QArith Qround Qminmax Bool Lia Lqa.
From Verif Require Import Prelude Model.Interp Model.Apply Model.Render Model.Hist Model.DataGen.
From Verif Require Import Spec.InterpSpec Spec.WarpSpec Spec.RenderSpec Spec.HistSpec.
From Verif Require Import Proofs.InterpProofs Proofs.RenderProofs Proofs.DataGenProofs.
Import ListNotations.
Local Open Scope Q_scope.

Lemma center_free : forall n r p, first_center r < center n r p -> center n r p < last_center n r -> center n r p == p.
Proof.
  intros n r p A B. unfold center in *. pose proof (Q.max_spec (first_center r) p) as M.
  pose proof (Q.min_spec (last_center n r) (Qmax (first_center r) p)) as N. lra.
Qed.
Lemma center_in : forall n r p, first_center r <= p <= last_center n r -> center n r p == p.
Proof.
  intros n r p [A B]. unfold center. pose proof (Q.max_spec (first_center r) p) as M.
  pose proof (Q.min_spec (last_center n r) (Qmax (first_center r) p)) as N. lra.
Qed.

Lemma in_patch_proper : forall r c c' k, c == c' -> in_patch r c k -> in_patch r c' k.
Proof. intros r c c' k E [A B]. split; rewrite <- E; assumption. Qed.

Lemma deep_patch : forall n r p k, (0 <= r)%Z -> deep n r k -> in_patch r (center n r p) k -> center n r p == p.
Proof.
  intros n r p k R [D1 D2] [A B]. apply center_free; unfold first_center, last_center.
  - assert (inject_Z (r + 1) <= inject_Z (k - r)) by (apply inj_le; lia). rewrite inj_add1 in H. lra.
  - assert (inject_Z (k + r) <= inject_Z (n - r - 2)) by (apply inj_le; lia).
    assert (E : inject_Z (n - r - 2) == inject_Z n - inject_Z r - 2).
    { unfold Zminus. rewrite !inject_Z_plus, !inject_Z_opp. change (inject_Z 2) with 2. lra. }
    lra.
Qed.

Lemma shift_axis : forall n r p q d k, (0 <= r)%Z -> deep n r k -> deep n r (k + d) -> q == p + inject_Z d ->
  in_patch r (center n r p) k ->
  in_patch r (center n r q) (k + d) /\ inject_Z (k + d) - center n r q == inject_Z k - center n r p.
Proof.
  intros n r p q d k R D1 D2 E I. assert (P := deep_patch n r p k R D1 I).
  assert (Q : in_patch r q (k + d)).
  { destruct I as [A B]. unfold in_patch. replace (k + d - r)%Z with (k - r + d)%Z by lia. replace (k + d + r)%Z with (k + r + d)%Z by lia.
    rewrite !(inject_Z_plus _ d). split; lra. }
  assert (C : center n r q == q).
  { apply center_in. destruct Q as [A B]. destruct D2 as [D2 D3]. unfold first_center, last_center.
    assert (inject_Z (r + 1) <= inject_Z (k + d - r)) by (apply inj_le; lia). rewrite inj_add1 in H.
    assert (inject_Z (k + d + r) <= inject_Z (n - r - 2)) by (apply inj_le; lia).
    assert (EE : inject_Z (n - r - 2) == inject_Z n - inject_Z r - 2).
    { unfold Zminus. rewrite !inject_Z_plus, !inject_Z_opp. change (inject_Z 2) with 2. lra. }
    lra. }
  split; [apply (in_patch_proper r q); [symmetry; exact C | exact Q]|]. rewrite C, P, E, inject_Z_plus. lra.
Qed.

Lemma shift_axis_iff : forall n r p q d k, (0 <= r)%Z -> deep n r k -> deep n r (k + d) -> q == p + inject_Z d ->
  (in_patch r (center n r p) k <-> in_patch r (center n r q) (k + d)).
Proof.
  intros n r p q d k R D1 D2 E. split; intros I.
  - apply (shift_axis n r p q d k R D1 D2 E I).
  - replace k with (k + d + - d)%Z by lia.
    apply (shift_axis n r q p (- d) (k + d) R D2); [replace (k + d + - d)%Z with k by lia; exact D1 | rewrite E, inject_Z_opp; lra | exact I].
Qed.

(** [q] is [p] moved by ([dy], [dx]) pixels. *)
Definition moved (dy dx : Z) (p q : particle) : Prop :=
  p_y q == p_y p + inject_Z dy /\ p_x q == p_x p + inject_Z dx /\
  p_dx q == p_dx p /\ p_dy q == p_dy p /\ p_rho q == p_rho p /\ p_amp q == p_amp p.

Lemma bump_proper : forall ex p q dy dx dy' dx', respects ex -> p_dx q == p_dx p -> p_dy q == p_dy p -> p_rho q == p_rho p -> p_amp q == p_amp p ->
  dy == dy' -> dx == dx' -> bump ex p dy dx == bump ex q dy' dx'.
Proof.
  intros ex p q dy dx dy' dx' RE A B C D E F. unfold bump. rewrite D. apply Qmult_comp; [reflexivity|]. apply RE. unfold mahalanobis.
  rewrite A, B, C, E, F. reflexivity.
Qed.

Lemma in_patch_dec : forall r c k, in_patch r c k \/ ~ in_patch r c k.
Proof. intros r c k. rewrite in_patch_iff. lia. Qed.

Lemma contributes_shift : forall ex H W r p q dy dx row col v v', respects ex -> (0 <= r)%Z -> moved dy dx p q ->
  deep H r row -> deep H r (row + dy) -> deep W r col -> deep W r (col + dx) ->
  contributes ex H W r p row col v -> contributes ex H W r q (row + dy) (col + dx) v' -> v == v'.
Proof.
  intros ex H W r p q dy dx row col v v' RE R (M1 & M2 & M3 & M4 & M5 & M6) A B C D [V1 V2] [W1 W2].
  pose proof (shift_axis_iff H r _ _ dy row R A B M1) as IY. pose proof (shift_axis_iff W r _ _ dx col R C D M2) as IX.
  destruct (in_patch_dec r (center H r (p_y p)) row) as [PY|NY]; [destruct (in_patch_dec r (center W r (p_x p)) col) as [PX|NX]|].
  - rewrite (V1 PY PX), (W1 (proj1 IY PY) (proj1 IX PX)). apply bump_proper; try assumption.
    + symmetry. apply (shift_axis H r _ _ dy row R A B M1 PY).
    + symmetry. apply (shift_axis W r _ _ dx col R C D M2 PX).
  - rewrite V2 by tauto. rewrite W2 by tauto. reflexivity.
  - rewrite V2 by tauto. rewrite W2 by tauto. reflexivity.
Qed.

Lemma img_gen_shift : forall ex ps qs H W maxd r dy dx row col, respects ex -> Forall proper_particle ps ->
  Forall2 (moved dy dx) ps qs -> 0 <= maxd -> radius_of maxd r -> (2 * r + 1 <= H)%Z -> (2 * r + 1 <= W)%Z ->
  deep H r row -> deep H r (row + dy) -> deep W r col -> deep W r (col + dx) ->
  at_ (img_gen ex ps H W maxd false) row col == at_ (img_gen ex qs H W maxd false) (row + dy) (col + dx).
Proof.
  intros ex ps qs H W maxd r dy dx row col RE FP FM M RO A B D1 D2 D3 D4. pose proof (radius_pos _ _ M RO) as R.
  assert (FQ : Forall proper_particle qs).
  { clear -FP FM. induction FM; [constructor|]. inversion FP; subst. constructor; [|apply IHFM; assumption].
    destruct H as (_ & _ & E3 & E4 & E5 & _). destruct H2 as (P1 & P2 & P3). unfold proper_particle. rewrite E3, E4, E5. tauto. }
  destruct (img_gen_sum ex ps H W maxd r row col RE FP M RO A B) as (vs & V1 & V2).
  destruct (img_gen_sum ex qs H W maxd r (row + dy) (col + dx) RE FQ M RO A B) as (ws & W1 & W2).
  rewrite V2, W2. clear V2 W2 FP FQ. revert vs ws V1 W1. induction FM as [|p q ps qs MV FM IH]; intros vs ws V1 W1.
  - inversion V1; subst. inversion W1; subst. reflexivity.
  - inversion V1 as [|? v ? vs' C1 C2]; subst. inversion W1 as [|? w ? ws' C3 C4]; subst. rewrite !sum_cons.
    rewrite (IH vs' ws' C2 C4). rewrite (contributes_shift ex H W r p q dy dx row col v w RE R MV D1 D2 D3 D4 C1 C3). reflexivity.
Qed.

(** * The two particle sets of a pair *)
Section Pair.
Variable ex sq : Q -> Q.
Variable g : generator.
Variable sp : gspec.
Variable pb : Z * Z.
Variables rx ry : Q.
Hypothesis LAW : lawful g.
Hypothesis VAL : valid_ranges sp.
Hypothesis SQ : sqrt_like sq.

Lemma clip_still : forall lo hi x n v, lo <= x <= hi -> v == 0 -> clipQ lo hi (x + n * sq v) == x.
Proof.
  intros lo hi x n v X V. rewrite (clipQ_compat lo hi _ x); [rewrite clipQ_id by assumption; reflexivity|]. rewrite (SQ v V). lra.
Qed.

Lemma second_moved : forall key_i d f u v dy dx i, noiseless sp -> uniform u v f ->
  (1 <= fH f)%Z -> (1 <= fW f)%Z -> (1 <= fst pb)%Z -> (1 <= snd pb)%Z ->
  v * ry * sp_dt sp * inject_Z (fst pb) / inject_Z (fH f) == inject_Z dy ->
  u * rx * sp_dt sp * inject_Z (snd pb) / inject_Z (fW f) == inject_Z dx ->
  moved dy dx (first_particle sq g sp pb key_i d i) (second_particle sq g sp pb rx ry key_i d f i).
Proof.
  intros key_i d f u v dy dx i (N1 & N2 & N3 & N4 & N5 & _) U A B C D E1 E2.
  unfold first_particle, second_particle. destruct (position g sp pb key_i i) as [y x].
  pose proof (second_uniform pb f (sp_dt sp) rx ry u v y x U A B C D) as S.
  destruct (second_position pb f (sp_dt sp) rx ry (y, x)) as [y' x']. destruct S as [S1 S2].
  pose proof (params_within sq g sp pb LAW VAL key_i i) as PW. unfold particle_params in *. cbn [fst snd] in *.
  destruct PW as [(W1 & W2 & W3 & W4) _]. unfold within in *.
  rewrite (bernoulli_always g _ _ i _ LAW N1), (bernoulli_always g _ _ i _ LAW N2).
  unfold moved. cbn [p_y p_x p_dx p_dy p_rho p_amp].
  split; [rewrite S1, E1; reflexivity|]. split; [rewrite S2, E2; reflexivity|].
  split; [apply clip_still; assumption|]. split; [apply clip_still; assumption|]. split; [apply clip_still; assumption|].
  rewrite (clip_still _ _ _ _ _ W4 N4). reflexivity.
Qed.

Lemma first_proper : forall key_i d i, proper_particle (first_particle sq g sp pb key_i d i).
Proof.
  intros key_i d i. pose proof (params_within sq g sp pb LAW VAL key_i i) as PW. cbv zeta in PW. destruct PW as [PW _].
  unfold first_particle. destruct (position g sp pb key_i i) as [y x].
  destruct (fst (particle_params sq g sp pb key_i i)) as [[[dx dy] rho] amp]. destruct PW as (W1 & W2 & W3 & _).
  destruct VAL as (_ & (D0 & D1) & _ & (R0 & R1)).
  pose proof (D1 _ (pick_in _ (g_randint g (Child key_i 6) (List.length (sp_diameters sp))) D0)).
  pose proof (R1 _ (pick_in _ (g_randint g (Child key_i 8) (List.length (sp_rhos sp))) R0)).
  unfold within in *. unfold proper_particle. cbn [p_dx p_dy p_rho]. lra.
Qed.
End Pair.

Lemma still_noise : forall g sp k im r c, lawful g -> noiseless sp ->
  at_ (noisy g sp k im) r c == clipQ 0 255 (at_ im (r + fst (sp_offset sp)) (c + snd (sp_offset sp))).
Proof.
  intros g sp k im r c LAW (_ & _ & _ & _ & _ & N1 & N2 & N3). unfold noisy, add_noise. cbn [at_ crop]. apply clipQ_compat.
  assert (U : forall n i, uniform_in g (Child k 0) n 0 (sp_noise_uniform sp) i == 0).
  { intros n i. pose proof (uniform_range g (Child k 0) n 0 (sp_noise_uniform sp) i LAW ltac:(lra)). lra. }
  rewrite U, N2, N3. ring.
Qed.
