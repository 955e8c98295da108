(** Proofs about whole image pairs. *)
From Coq Require Import List Arith ZArith QArith Qround Qminmax Qabs Bool Lia Lqa.
From Verif Require Import Prelude Model.Interp Model.Apply Model.Render Model.Hist Model.DataGen Spec.InterpSpec Spec.RenderSpec Spec.PairSpec.
From Verif Require Import Proofs.InterpProofs Proofs.RenderProofs Proofs.DataGenProofs Proofs.ShiftProofs.
Import ListNotations.
Local Open Scope Q_scope.

(** * Keys *)
Definition schedule (k : key) (i : nat) : pair_keys :=
  let c := Child (Child (Child k 0) i) in
  let s := Child (c 3%nat) in
  mkPairKeys (c 2%nat) (s 0%nat) (s 1%nat) (s 2%nat) (s 3%nat) (s 4%nat) (s 5%nat) (s 6%nat) (s 7%nat)
    (c 0%nat) (c 1%nat) (Child (c 4%nat) 0) (Child (c 4%nat) 1) (Child (c 5%nat) 0) (Child (c 5%nat) 1) (c 6%nat) (c 7%nat) (c 8%nat).

Lemma NoDup_flat_map : forall {A B} (f : A -> list B) l, NoDup l -> (forall a, NoDup (f a)) ->
  (forall a b x, In x (f a) -> In x (f b) -> a = b) -> NoDup (flat_map f l).
Proof.
  intros A B f l N F D. induction N as [|a l NI N IH]; cbn [flat_map]; [constructor|].
  assert (X : forall l1 l2 : list B, NoDup l1 -> NoDup l2 -> (forall x, In x l1 -> ~ In x l2) -> NoDup (l1 ++ l2)).
  { intros l1 l2 N1 N2 H. induction N1 as [|x l1 NX N1 IH1]; [exact N2|]. cbn [app]. constructor.
    - rewrite in_app_iff. intros [I|I]; [exact (NX I) | exact (H x (or_introl eq_refl) I)].
    - apply IH1. intros y I. apply H. right. exact I. }
  apply X; [apply F | exact IH|]. intros x I J. apply in_flat_map in J. destruct J as (b & J & Jx).
  rewrite (D a b x I Jx) in NI. exact (NI J).
Qed.

Lemma schedule_keys : forall k i x, In x (all_keys (schedule k i)) ->
  exists m, x = Child (Child (Child k 0) i) m \/ exists m', x = Child (Child (Child (Child k 0) i) m) m'.
Proof.
  intros k i x I. cbn [all_keys schedule k_where k_dx k_dy k_rho k_int k_dx2 k_dy2 k_rho2 k_int2 k_seen1 k_seen2 k_flat1 k_bell1 k_flat2
    k_bell2 k_diameters k_intensities k_rhos In] in I.
  repeat (destruct I as [<-|I]; [eexists; first [left; reflexivity | right; eexists; reflexivity]|]). destruct I.
Qed.

Fixpoint key_size (k : key) : nat := match k with Seed _ => 0 | Child k _ => S (key_size k) end.

Lemma schedule_nodup : forall k n, NoDup (Child k 1 :: flat_map (fun i => all_keys (schedule k i)) (seq 0 n)).
Proof.
  intros k n. constructor.
  - intros I. apply in_flat_map in I. destruct I as (i & _ & I). apply schedule_keys in I.
    destruct I as (m & [I|(m' & I)]); apply (f_equal key_size) in I; cbn [key_size] in I; lia.
  - apply NoDup_flat_map; [apply seq_NoDup| |].
    + intros i. cbv [all_keys schedule k_where k_dx k_dy k_rho k_int k_dx2 k_dy2 k_rho2 k_int2 k_seen1 k_seen2 k_flat1 k_bell1 k_flat2
        k_bell2 k_diameters k_intensities k_rhos].
      set (c := Child (Child k 0) i). clearbody c.
      do 18 (constructor; [cbn [In]; intros I;
        repeat match type of I with
               | _ \/ _ => destruct I as [I|I]
               end; try exact I; first [congruence | apply (f_equal key_size) in I; cbn [key_size] in I; lia]|]).
      constructor.
    + intros i j x I J. apply schedule_keys in I, J. destruct I as (m & [->|(m' & ->)]); destruct J as (q & [J|(q' & J)]).
      * injection J; intros; congruence.
      * apply (f_equal key_size) in J; cbn [key_size] in J; lia.
      * apply (f_equal key_size) in J; cbn [key_size] in J; lia.
      * injection J; intros; congruence.
Qed.

(** * Ranges *)
Lemma clipQ_into : forall lo hi x, lo <= hi -> clipQ lo hi x == into (lo, hi) x.
Proof.
  intros lo hi x H. unfold clipQ, into. cbn [fst snd].
  destruct (Qle_bool lo x) eqn:A; [apply Qle_bool_iff in A | apply Qle_bool_false in A].
  - destruct (Qle_bool x hi) eqn:B; [apply Qle_bool_iff in B | apply Qle_bool_false in B].
    + rewrite (Q.min_r hi x) by lra. rewrite Q.max_r by lra. reflexivity.
    + rewrite (Q.min_l hi x) by lra. rewrite Q.max_r by lra. reflexivity.
  - rewrite (proj2 (Qle_bool_iff lo hi) H). rewrite (Q.min_r hi x) by lra. rewrite Q.max_l by lra. reflexivity.
Qed.

Lemma into_proper : forall d x y, x == y -> into d x == into d y.
Proof. intros d x y E. unfold into. rewrite E. reflexivity. Qed.

Lemma uniform_along : forall g k n lo hi i, lawful g -> lo <= hi -> uniform_in g k n lo hi i == along (lo, hi) (g_unit g k n i).
Proof.
  intros g k n lo hi i [U _] H. unfold uniform_in, along. cbn [fst snd]. destruct (U k n i) as [A B]. set (u := g_unit g k n i) in *. clearbody u.
  destruct (Qle_bool lo (u * (hi - lo) + lo)) eqn:E; [ring|]. apply Qle_bool_false in E. nra.
Qed.

Lemma pick_drawn : forall g l k, lawful g -> l <> [] -> pick l (g_randint g k (List.length l)) = drawn_range g l k.
Proof.
  intros g l k [_ R] N. unfold pick, drawn_range. specialize (R k (List.length l)). destruct l; [congruence|]. cbn [List.length] in *.
  rewrite Nat.min_l by lia. reflexivity.
Qed.

Lemma max_snd_largest : forall l, l <> [] -> largest l (max_snd l).
Proof.
  intros l N. destruct l as [|d l]; [congruence|]. clear N. unfold max_snd.
  assert (G : forall (l : list (Q * Q)) m, (forall e, In e l -> snd e <= fold_left (fun m e => if Qle_bool (snd e) m then m else snd e) l m) /\
      m <= fold_left (fun m e => if Qle_bool (snd e) m then m else snd e) l m /\
      (fold_left (fun m e => if Qle_bool (snd e) m then m else snd e) l m = m \/
       exists e, In e l /\ snd e = fold_left (fun m e => if Qle_bool (snd e) m then m else snd e) l m)).
  { clear. induction l as [|e l IH]; intros m; cbn [fold_left].
    - split; [intros ? []|]. split; [lra | left; reflexivity].
    - destruct (Qle_bool (snd e) m) eqn:E; [apply Qle_bool_iff in E | apply Qle_bool_false in E].
      + destruct (IH m) as (A & B & C). split; [|split; [exact B|]].
        * intros x [<-|I]; [lra | apply A, I].
        * destruct C as [C|(x & I & C)]; [left; exact C | right; exists x; split; [right; exact I | exact C]].
      + destruct (IH (snd e)) as (A & B & C). split; [|split; [lra|]].
        * intros x [<-|I]; [lra | apply A, I].
        * right. destruct C as [C|(x & I & C)]; [exists e; split; [left; reflexivity | symmetry; exact C] | exists x; split; [right; exact I | exact C]]. }
  destruct (G l (snd d)) as (A & B & C). split.
  - destruct C as [C|(e & I & C)]; [exists d; split; [left; reflexivity | rewrite C; reflexivity] | exists e; split; [right; exact I | rewrite C; reflexivity]].
  - intros e [<-|I]; [exact B | apply A, I].
Qed.

Lemma largest_unique : forall l m m', largest l m -> largest l m' -> m == m'.
Proof.
  intros l m m' [(d & I & E) A] [(d' & I' & E') A']. pose proof (A d' I'). pose proof (A' d I). lra.
Qed.

(** * Lit particles *)
Section Lit.
Variables (ex : Q -> Q) (pb : Z * Z).

Lemma dark_value : forall H W r p row col v, p_amp p == 0 -> contributes ex H W r p row col v -> v == 0.
Proof.
  intros H W r p row col v A [C1 C2].
  destruct (in_patch_dec r (center H r (p_y p)) row) as [P|P]; [|apply C2; tauto].
  destruct (in_patch_dec r (center W r (p_x p)) col) as [Q|Q]; [|apply C2; tauto].
  rewrite (C1 P Q). unfold bump. rewrite A. ring.
Qed.

(** Only the first [m] particles are lit. *)
Lemma lit_sum : forall (p : nat -> particle) m n r maxd row col, respects ex -> (forall j, proper_particle (p j)) ->
  0 <= maxd -> radius_of maxd r -> (2 * r + 1 <= fst pb)%Z -> (2 * r + 1 <= snd pb)%Z -> (m <= n)%nat ->
  (forall j, (m <= j)%nat -> p_amp (p j) == 0) ->
  exists vs, Forall2 (fun p v => contributes ex (fst pb) (snd pb) r p row col v) (map p (seq 0 m)) vs /\
    at_ (img_gen ex (map p (seq 0 n)) (fst pb) (snd pb) maxd false) row col == sum vs.
Proof.
  intros p m n r maxd row col RE PP M0 RO A B L DK.
  destruct (img_gen_sum ex (map p (seq 0 n)) (fst pb) (snd pb) maxd r row col RE) as (vs & F & E); try assumption.
  { apply Forall_forall. intros q I. apply in_map_iff in I. destruct I as (j & <- & _). apply PP. }
  replace n with (m + (n - m))%nat in F by lia. rewrite seq_app, map_app in F. apply Forall2_app_inv_l in F.
  destruct F as (v1 & v2 & F1 & F2 & ->). exists v1. split; [exact F1|]. rewrite E, sum_app.
  assert (Z : sum v2 == 0).
  { apply sum_zero. intros x I. cbn [plus] in F2. apply (in_split x v2) in I. destruct I as (w1 & w2 & ->).
    apply Forall2_app_inv_r in F2. destruct F2 as (q1 & q2 & _ & F2 & EQ). inversion F2 as [|a b q2' w2' C F3 E1 E2]. subst.
    assert (I : In a (map p (seq m (n - m)))) by (rewrite EQ, in_app_iff; right; left; reflexivity).
    apply in_map_iff in I. destruct I as (j & <- & I). apply in_seq in I. apply (dark_value _ _ _ _ _ _ _ (DK j ltac:(lia)) C). }
  rewrite Z. ring.
Qed.

End Lit.

(** * Particles *)
Section Scene.
Variables (ex sq : Q -> Q) (g : generator) (sp : gspec) (pb : Z * Z) (rx ry : Q).
Hypothesis LAW : lawful g.
Hypothesis VAL : valid_ranges sp.
Hypothesis PB : (0 < fst pb /\ 0 < snd pb)%Z.

Lemma area_prod : area pb == inject_Z (fst pb * snd pb).
Proof. unfold area. rewrite inject_Z_mult. reflexivity. Qed.

Lemma num_at : num_particles sp pb = particles_at pb (snd (sp_density sp)).
Proof.
  unfold num_particles, particles_at, max_density. destruct VAL as ((A & B) & _).
  pose proof (area_nonneg pb ltac:(lia) ltac:(lia)) as P. unfold Qtrunc.
  rewrite (proj2 (Qle_bool_iff 0 _)) by (apply Qmult_le_0_compat; lra).
  apply f_equal. apply Qfloor_comp. rewrite area_prod. reflexivity.
Qed.

Lemma particles_mono : forall d e, d <= e -> (particles_at pb d <= particles_at pb e)%nat.
Proof.
  intros d e H. unfold particles_at.
  assert (X : (Qfloor (inject_Z (fst pb * snd pb) * d) <= Qfloor (inject_Z (fst pb * snd pb) * e))%Z).
  { apply Qfloor_resp_le. rewrite !(Qmult_comm (inject_Z _)). apply Qmult_le_compat_r; [exact H|].
    change 0 with (inject_Z 0). rewrite <- Zle_Qle. nia. }
  lia.
Qed.

Lemma mixed_lt : forall d j, 0 <= d -> mixed pb d j = (j <? particles_at pb d)%nat.
Proof.
  intros d j H. unfold mixed, current_num, particles_at.
  assert (E : Qfloor (area pb * d) = Qfloor (inject_Z (fst pb * snd pb) * d)) by (apply Qfloor_comp; rewrite area_prod; reflexivity).
  rewrite E. assert (P : (0 <= Qfloor (inject_Z (fst pb * snd pb) * d))%Z).
  { rewrite <- E. apply floor_le_mono. apply Qmult_le_0_compat; [apply area_nonneg; lia | exact H]. }
  destruct (Nat.ltb_spec j (Z.to_nat (Qfloor (inject_Z (fst pb * snd pb) * d)))) as [L|L];
    [apply Z.ltb_lt | apply Z.ltb_ge]; lia.
Qed.

Lemma second_proper : forall key_i d f i, proper_particle (second_particle sq g sp pb rx ry key_i d f i).
Proof.
  intros key_i d f i. pose proof (params_within sq g sp pb LAW VAL key_i i) as PW. cbv zeta in PW. destruct PW as [_ PW].
  unfold second_particle. destruct (second_position pb f (sp_dt sp) rx ry (position g sp pb key_i i)) as [y x].
  destruct (snd (particle_params sq g sp pb key_i i)) as [[[dx dy] rho] amp]. destruct PW as (W1 & W2 & W3 & _).
  destruct VAL as (_ & (D0 & D1) & _ & (R0 & R1)).
  pose proof (D1 _ (pick_in _ (g_randint g (Child key_i 6) (List.length (sp_diameters sp))) D0)).
  pose proof (R1 _ (pick_in _ (g_randint g (Child key_i 8) (List.length (sp_rhos sp))) R0)).
  unfold within in *. unfold proper_particle. cbn [p_dx p_dy p_rho]. lra.
Qed.

Lemma lit_bernoulli : forall k n hide j i, (forall p, p_amp p == i * bool_Q (bernoulli g k n (1 - hide) j) * 1 -> shines hide (g_unit g k n j) i p).
Proof.
  intros k n hide j i p E. unfold shines. unfold bernoulli in E.
  destruct (Qle_bool (1 - hide) (g_unit g k n j)) eqn:B; [apply Qle_bool_iff in B | apply Qle_bool_false in B]; cbn [negb bool_Q] in E;
    split; intros H; try lra; rewrite E; ring.
Qed.

Lemma scene_twins : forall k i f d j, 0 <= d -> (0 < fH f)%Z -> (0 < fW f)%Z -> (j < particles_at pb d)%nat ->
  twins sq g sp pb rx ry f (schedule k i)
    (drawn_range g (sp_diameters sp) (k_diameters (schedule k i))) (drawn_range g (sp_intensities sp) (k_intensities (schedule k i)))
    (drawn_range g (sp_rhos sp) (k_rhos (schedule k i))) j
    (first_particle sq g sp pb (Child (Child k 0) i) d j) (second_particle sq g sp pb rx ry (Child (Child k 0) i) d f j).
Proof.
  intros k i f d j D0 FH FW J.
  assert (M : mixed pb d j = true) by (rewrite mixed_lt by exact D0; apply Nat.ltb_lt; exact J).
  destruct VAL as (VD & (DN & DV) & (IN & IV) & (RN & RV)).
  set (c := Child (Child k 0) i).
  pose proof (pick_drawn g (sp_diameters sp) (Child c 6) LAW DN) as PD.
  pose proof (pick_drawn g (sp_intensities sp) (Child c 7) LAW IN) as PI.
  pose proof (pick_drawn g (sp_rhos sp) (Child c 8) LAW RN) as PR.
  assert (HD := DV _ (pick_in _ (g_randint g (Child c 6) (List.length (sp_diameters sp))) DN)). rewrite PD in HD.
  assert (HI := IV _ (pick_in _ (g_randint g (Child c 7) (List.length (sp_intensities sp))) IN)). rewrite PI in HI.
  assert (HR := RV _ (pick_in _ (g_randint g (Child c 8) (List.length (sp_rhos sp))) RN)). rewrite PR in HR.
  unfold first_particle, second_particle, second_position, position, particle_params, update_2d.
  fold c. rewrite PD, PI, PR, M, num_at. cbn [fst snd bool_Q].
  unfold twins. cbv [schedule k_where k_dx k_dy k_rho k_int k_dx2 k_dy2 k_rho2 k_int2 k_seen1 k_seen2 k_flat1 k_bell1 k_flat2
    k_bell2 k_diameters k_intensities k_rhos p_y p_x p_dx p_dy p_rho]. fold c.
  set (n := particles_at pb (snd (sp_density sp))).
  destruct (drawn_range g (sp_diameters sp) (Child c 6)) as [Dl Dh].
  destruct (drawn_range g (sp_intensities sp) (Child c 7)) as [Il Ih].
  destruct (drawn_range g (sp_rhos sp) (Child c 8)) as [Rl Rh]. cbn [fst snd] in *.
  assert (PHq : 0 < inject_Z (fst pb)) by (change 0 with (inject_Z 0); rewrite <- Zlt_Qlt; lia).
  assert (PWq : 0 < inject_Z (snd pb)) by (change 0 with (inject_Z 0); rewrite <- Zlt_Qlt; lia).
  assert (FHq : 0 < inject_Z (fH f)) by (change 0 with (inject_Z 0); rewrite <- Zlt_Qlt; lia).
  assert (FWq : 0 < inject_Z (fW f)) by (change 0 with (inject_Z 0); rewrite <- Zlt_Qlt; lia).
  replace (2 * j + 0)%nat with (2 * j)%nat by lia.
  split; [reflexivity|]. split; [reflexivity|].
  split; [apply uniform_along; [exact LAW | lra]|].
  split.
  { rewrite clipQ_into by lra. apply into_proper. apply Qplus_comp; [reflexivity|].
    rewrite uniform_along by (try exact LAW; lra). unfold along. cbn [fst snd]. ring. }
  split; [apply uniform_along; [exact LAW | lra]|].
  split.
  { apply lit_bernoulli. cbn [p_amp]. rewrite uniform_along by (try exact LAW; lra). reflexivity. }
  split; [field; split; lra|]. split; [field; split; lra|].
  split; [rewrite clipQ_into by lra; apply into_proper; ring|].
  split; [rewrite clipQ_into by lra; apply into_proper; ring|].
  split; [rewrite clipQ_into by lra; apply into_proper; ring|].
  apply lit_bernoulli. cbn [p_amp]. apply Qmult_comp; [|reflexivity]. apply Qmult_comp; [|reflexivity].
  rewrite clipQ_into by lra. apply into_proper. rewrite uniform_along by (try exact LAW; lra). ring.
Qed.

Lemma noise_at : forall k im row col, (rows im = fst pb) -> (cols im = snd pb) -> window sp pb -> 0 <= sp_noise_uniform sp ->
  let n := Z.to_nat (fst (sp_image sp) * snd (sp_image sp)) in
  let px := Z.to_nat (row * snd (sp_image sp) + col) in
  rows (noisy g sp k im) = fst (sp_image sp) /\ cols (noisy g sp k im) = snd (sp_image sp) /\
  at_ (noisy g sp k im) row col ==
    Qmax 0 (Qmin 255 (at_ im (row + fst (sp_offset sp)) (col + snd (sp_offset sp)) +
       sp_noise_uniform sp * g_unit g (Child k 0) n px + (sp_noise_mean sp + sp_noise_std sp * g_normal g (Child k 1) n px))).
Proof.
  intros k im row col RI CI ((W1 & W2 & W3) & (W4 & W5 & W6)) NU n px.
  assert (SR : slice_len (rows im) (fst (sp_offset sp)) (fst (sp_image sp)) = fst (sp_image sp)) by (unfold slice_len; lia).
  assert (SC : slice_len (cols im) (snd (sp_offset sp)) (snd (sp_image sp)) = snd (sp_image sp)) by (unfold slice_len; lia).
  unfold noisy, add_noise. cbn [crop rows cols at_]. rewrite SR, SC. split; [reflexivity|]. split; [reflexivity|].
  fold n px. rewrite clipQ_into by lra. unfold into. cbn [fst snd]. rewrite uniform_along by assumption. unfold along. cbn [fst snd].
  apply Q.max_compat; [reflexivity|]. apply Q.min_compat; [reflexivity|]. ring.
Qed.
End Scene.

Lemma finish_at : forall g sp mask k im row col,
  rows (finish g sp mask None k im) = rows (noisy g sp k im) /\ cols (finish g sp mask None k im) = cols (noisy g sp k im) /\
  at_ (finish g sp mask None k im) row col == at_ (noisy g sp k im) row col * match mask with Some m => at_ m row col | None => 1 end.
Proof.
  intros g sp mask k im row col. unfold finish, equalized, masked. destruct mask; cbn [rows cols at_].
  - repeat split.
  - repeat split. ring.
Qed.

Lemma scene_explains : forall ex sq g sp pb rx ry mask r maxd k flows i o f,
  respects ex -> lawful g -> valid_ranges sp -> window sp pb -> 0 <= sp_noise_uniform sp ->
  (0 < fst pb /\ 0 < snd pb)%Z -> largest (sp_diameters sp) maxd -> radius_of maxd r -> (2 * r + 1 <= fst pb)%Z -> (2 * r + 1 <= snd pb)%Z ->
  nth_error (generate ex sq g sp pb rx ry mask None k flows) i = Some o ->
  nth_error flows (i mod List.length flows) = Some f -> (0 < fH f)%Z -> (0 < fW f)%Z ->
  one_scene ex sq g sp pb rx ry r mask f (Child k 1) (schedule k i) i o.
Proof.
  intros ex sq g sp pb rx ry mask r maxd k flows i o f RE LAW VAL WIN NU PB MX RO A B NE NF FH FW.
  unfold generate in NE. cbn [split2] in NE.
  rewrite nth_error_map in NE.
  destruct (nth_error (seq 0 (sp_batch sp)) i) as [i'|] eqn:NI; [|discriminate NE]. cbn [option_map] in NE. injection NE as NE.
  assert (i' = i). { apply nth_error_nth with (d := 0%nat) in NI as N2. rewrite seq_nth in N2; [cbn [plus] in N2; congruence|].
    assert (L : nth_error (seq 0 (sp_batch sp)) i <> None) by congruence.
    apply nth_error_Some in L. rewrite seq_length in L. exact L. }
  subst i'. subst o.
  pose proof (density_within g sp LAW VAL (Child k 1) i) as DW.
  assert (VAL' := VAL). destruct VAL' as (VD & (DN & DV) & (IN & IV) & (RN & RV)).
  assert (M0 : 0 <= maxd). { destruct MX as [_ ML]. destruct (sp_diameters sp) as [|d0 l] eqn:E0; [congruence|].
    pose proof (DV d0 (or_introl eq_refl)). pose proof (ML d0 (or_introl eq_refl)). lra. }
  assert (ME : max_snd (sp_diameters sp) == maxd) by (apply (largest_unique (sp_diameters sp)); [apply max_snd_largest, DN | exact MX]).
  assert (RO' : radius_of (max_snd (sp_diameters sp)) r) by (unfold radius_of in *; rewrite !ME; exact RO).
  set (d := density g sp (Child k 1) i) in *.
  assert (D0 : 0 <= d) by (unfold within in DW; lra).
  set (c := Child (Child k 0) i).
  unfold scan_body. fold c d. rewrite (nth_error_nth _ _ _ NF).
  unfold one_scene. cbn [out_density out_diameters out_intensities out_rhos out1 out2].
  set (N := num_particles sp pb).
  assert (LN : (particles_at pb d <= N)%nat). { unfold N. rewrite (num_at sp pb VAL PB). apply particles_mono; [exact PB | unfold within in DW; lra]. }
  set (im1 := img_gen ex (map (first_particle sq g sp pb c d) (seq 0 N)) (fst pb) (snd pb) (max_snd (sp_diameters sp)) false).
  set (im2 := img_gen ex (map (second_particle sq g sp pb rx ry c d f) (seq 0 N)) (fst pb) (snd pb) (max_snd (sp_diameters sp)) false).
  destruct (img_gen_size ex (map (first_particle sq g sp pb c d) (seq 0 N)) (fst pb) (snd pb) (max_snd (sp_diameters sp)) false) as [R1 C1]. fold im1 in R1, C1.
  destruct (img_gen_size ex (map (second_particle sq g sp pb rx ry c d f) (seq 0 N)) (fst pb) (snd pb) (max_snd (sp_diameters sp)) false) as [R2 C2]. fold im2 in R2, C2.
  assert (DK1 : forall j, (particles_at pb d <= j)%nat -> p_amp (first_particle sq g sp pb c d j) == 0).
  { intros j J. unfold first_particle. destruct (position g sp pb c j). destruct (fst (particle_params sq g sp pb c j)) as [[[dx dy] rho] amp].
    cbn [p_amp]. rewrite mixed_lt by assumption. rewrite (proj2 (Nat.ltb_ge _ _) J). cbn [bool_Q]. ring. }
  assert (DK2 : forall j, (particles_at pb d <= j)%nat -> p_amp (second_particle sq g sp pb rx ry c d f j) == 0).
  { intros j J. unfold second_particle. destruct (second_position pb f (sp_dt sp) rx ry (position g sp pb c j)).
    destruct (snd (particle_params sq g sp pb c j)) as [[[dx dy] rho] amp].
    cbn [p_amp]. rewrite mixed_lt by assumption. rewrite (proj2 (Nat.ltb_ge _ _) J). cbn [bool_Q]. ring. }
  split.
  { unfold d, density, max_density. destruct VD as [V0 V1]. pose proof (uniform_range g (Child k 1) (sp_batch sp) _ _ i LAW V1) as U.
    rewrite clipQ_id by lra. rewrite uniform_along by assumption. unfold along. reflexivity. }
  split; [exact (pick_drawn g _ _ LAW DN)|]. split; [exact (pick_drawn g _ _ LAW IN)|]. split; [exact (pick_drawn g _ _ LAW RN)|].
  destruct (finish_at g sp mask (Child c 4) im1 0 0) as (F1 & F2 & _). destruct (finish_at g sp mask (Child c 5) im2 0 0) as (F3 & F4 & _).
  destruct (noise_at g sp pb LAW (Child c 4) im1 0 0 R1 C1 WIN NU) as (N1 & N2 & _).
  destruct (noise_at g sp pb LAW (Child c 5) im2 0 0 R2 C2 WIN NU) as (N3 & N4 & _).
  split; [congruence|]. split; [congruence|]. split; [congruence|]. split; [congruence|].
  exists (map (fun j => (first_particle sq g sp pb c d j, second_particle sq g sp pb rx ry c d f j)) (seq 0 (particles_at pb d))).
  split; [rewrite map_length, seq_length; reflexivity|]. split.
  - intros j a b E. rewrite nth_error_map in E. destruct (nth_error (seq 0 (particles_at pb d)) j) as [j'|] eqn:NJ; [|discriminate E].
    assert (L : (j < particles_at pb d)%nat). { rewrite <- (seq_length (particles_at pb d) 0). apply nth_error_Some. congruence. }
    apply nth_error_nth with (d := 0%nat) in NJ. rewrite seq_nth in NJ by exact L. cbn [plus] in NJ. subst j'.
    cbn [option_map] in E. injection E as <- <-. apply scene_twins; assumption.
  - intros row col _ _. rewrite !map_map. cbn [fst snd]. unfold pictures. split.
    + destruct (lit_sum ex pb (first_particle sq g sp pb c d) (particles_at pb d) N r (max_snd (sp_diameters sp)) (row + fst (sp_offset sp)) (col + snd (sp_offset sp)) RE) as (vs & F & E);
        try assumption; [intros j; apply first_proper; assumption | rewrite ME; exact M0|]. fold im1 in E.
      exists vs. split; [exact F|]. destruct (finish_at g sp mask (Child c 4) im1 row col) as (_ & _ & ->).
      destruct (noise_at g sp pb LAW (Child c 4) im1 row col R1 C1 WIN NU) as (_ & _ & ->). rewrite E. reflexivity.
    + destruct (lit_sum ex pb (second_particle sq g sp pb rx ry c d f) (particles_at pb d) N r (max_snd (sp_diameters sp)) (row + fst (sp_offset sp)) (col + snd (sp_offset sp)) RE) as (vs & F & E);
        try assumption; [intros j; apply second_proper; assumption | rewrite ME; exact M0|]. fold im2 in E.
      exists vs. split; [exact F|]. destruct (finish_at g sp mask (Child c 5) im2 row col) as (_ & _ & ->).
      destruct (noise_at g sp pb LAW (Child c 5) im2 row col R2 C2 WIN NU) as (_ & _ & ->). rewrite E. reflexivity.
Qed.
