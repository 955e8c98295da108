(** Converting and loading a uniform displacement field. *)
From Coq Require Import List Arith ZArith QArith String Bool Lia.
From Verif Require Import Prelude Model.Base Model.Files Model.Loaders Model.Scripts
  Spec.BaseSpec Spec.LoaderSpec Spec.ScriptsSpec Proofs.LoaderProofs.
Import ListNotations.
Local Open Scope nat_scope.

Lemma qratio_self : forall n, 0 < n -> (qratio n n == 1)%Q.
Proof.
  intros n H. unfold qratio. apply Qmult_inv_r. unfold Qeq. cbn. lia.
Qed.

Lemma qratio_trans : forall a b c, 0 < b -> (qratio b a * qratio c b == qratio c a)%Q.
Proof.
  intros a b c Hb. unfold qratio, Qdiv.
  assert (N : ~ (inject_Z (Z.of_nat b) == 0)%Q) by (unfold Qeq; cbn; lia).
  rewrite (Qmult_comm (inject_Z (Z.of_nat c))), <- !Qmult_assoc, (Qmult_assoc (/ inject_Z (Z.of_nat a))).
  rewrite (Qmult_comm (/ inject_Z (Z.of_nat a))), !Qmult_assoc, Qmult_inv_r by exact N.
  rewrite Qmult_1_l, Qmult_comm. reflexivity.
Qed.

(** The values of a two-axis array. *)
Lemma data_elt : forall a h w x, wf_arr a -> shape a = [h; w] -> In x (data a) ->
  exists i j, i < h /\ j < w /\ elt a [i; j] = x.
Proof.
  intros a h w x W S I. apply (In_nth _ _ 0%Q) in I. destruct I as (n & N & E). unfold wf_arr in W. rewrite W, S in N.
  cbn in N. assert (w <> 0) by nia. exists (n / w), (n mod w).
  assert (D := Nat.div_mod n w H). split; [apply Nat.div_lt_upper_bound; lia|]. split; [apply Nat.mod_upper_bound; exact H|].
  rewrite <- E. unfold elt. rewrite S. cbn. f_equal. lia.
Qed.

Lemma elt_data : forall a h w i j, wf_arr a -> shape a = [h; w] -> i < h -> j < w -> In (elt a [i; j]) (data a).
Proof.
  intros a h w i j W S I J. unfold elt. apply nth_In. unfold wf_arr in W. rewrite W, S. cbn. nia.
Qed.

Lemma resize_uniform : forall r a h w u v th tw, pil_constant r -> uniform h w u v a ->
  0 < h -> 0 < w -> 0 < th -> 0 < tw ->
  exists b, resize_flow r a th tw = Ok b /\ uniform th tw (u * qratio tw w) (v * qratio th h) b.
Proof.
  intros r a h w u v th tw PC (W & S & E) Hh Hw Hth Htw. unfold resize_flow. rewrite S. cbn [head2_is nth].
  destruct ((h =? th) && (w =? tw)) eqn:B.
  - apply andb_true_iff in B. rewrite !Nat.eqb_eq in B. destruct B as [-> ->]. exists a. split; [reflexivity|].
    split; [exact W|]. split; [exact S|]. intros i j I J. destruct (E i j I J) as [E1 E2].
    rewrite !qratio_self by assumption. rewrite E1, E2. split; ring.
  - destruct (last_index_shape a h w 0 S ltac:(lia)) as (u0 & U1 & U2 & U3 & U4).
    destruct (last_index_shape a h w 1 S ltac:(lia)) as (v0 & V1 & V2 & V3 & V4).
    destruct (PC u0 h w th tw u U3 U2 Hh Hw Hth Htw) as (ub & RU & WU & SU & CU).
    { intros x I. destruct (data_elt u0 h w x U3 U2 I) as (i & j & I' & J' & <-). rewrite U4 by assumption. apply E; assumption. }
    destruct (PC v0 h w th tw v V3 V2 Hh Hw Hth Htw) as (vb & RV & WV & SV & CV).
    { intros x I. destruct (data_elt v0 h w x V3 V2 I) as (i & j & I' & J' & <-). rewrite V4 by assumption. apply E; assumption. }
    rewrite U1. cbn [bind]. rewrite RU. cbn [bind]. rewrite V1. cbn [bind]. rewrite RV. cbn [bind].
    destruct (Nat.eqb_spec h 0); [lia|]. destruct (Nat.eqb_spec w 0); [lia|]. cbn [orb].
    destruct (stack_last_ok (scale (qratio tw w) ub) (scale (qratio th h) vb) th tw SU SV) as (b & B1 & B2 & B3 & B4).
    exists b. split; [exact B1|]. split; [exact B3|]. split; [exact B2|]. intros i j I J. destruct (B4 i j I J) as [C1 C2].
    rewrite C1, C2, !elt_scale. rewrite (CU (elt ub [i; j])) by (eapply elt_data; eauto).
    rewrite (CV (elt vb [i; j])) by (eapply elt_data; eauto). split; reflexivity.
Qed.

Lemma mat_flow_resize : forall r a h w oh ow, shape a = [h; w; 2] -> 0 < h -> 0 < w ->
  mat_flow r oh ow (MArr a) = resize_flow r a oh ow.
Proof.
  intros r a h w oh ow S Hh Hw. unfold mat_flow, resize_flow. rewrite S. cbn [nth_error nth Nat.eqb orb negb bind]. rewrite S. cbn [nth].
  destruct (head2_is [h; w; 2] oh ow); [reflexivity|].
  destruct (Nat.eqb_spec h 0); [lia|]. destruct (Nat.eqb_spec w 0); [lia|]. reflexivity.
Qed.

Lemma uniform_eq : forall h w u v u' v' a, (u == u')%Q -> (v == v')%Q -> uniform h w u v a -> uniform h w u' v' a.
Proof.
  intros h w u v u' v' a Eu Ev (W & S & E). split; [exact W|]. split; [exact S|]. intros i j I J.
  destruct (E i j I J) as [E1 E2]. rewrite E1, E2. auto.
Qed.

(** Converted to any size, then loaded at any size. *)
Lemma converted_loaded : forall r a i0 i1 h w u v th tw oh ow m p inc,
  pil_constant r -> uniform h w u v a -> 0 < h -> 0 < w -> 0 < th -> 0 < tw -> 0 < oh -> 0 < ow ->
  (forall d, pack r a i0 i1 th tw = Ok d -> stored m p d) ->
  (inc = true -> exists b0 b1, mat_image r oh ow (MArr i0) = Ok b0 /\ mat_image r oh ow (MArr i1) = Ok b1) ->
  exists sd, mat_load r m inc oh ow p = Ok sd /\ uniform oh ow (u * qratio ow w) (v * qratio oh h) (sd_flow sd).
Proof.
  intros r a i0 i1 h w u v th tw oh ow m p inc PC U Hh Hw Hth Htw Hoh How ST IM.
  destruct (resize_uniform r a h w u v th tw PC U Hh Hw Hth Htw) as (b & B & UB).
  unfold pack in ST. rewrite B in ST. cbn [bind] in ST. specialize (ST _ eq_refl).
  destruct (resize_uniform r b th tw _ _ oh ow PC UB Hth Htw Hoh How) as (c & C & UC).
  assert (MF : mat_flow r oh ow (MArr b) = Ok c).
  { rewrite (mat_flow_resize r b th tw); [exact C|apply UB|exact Hth|exact Htw]. }
  assert (UC' : uniform oh ow (u * qratio ow w) (v * qratio oh h) c).
  { eapply uniform_eq; [| |exact UC].
    - rewrite <- Qmult_assoc, qratio_trans by assumption. reflexivity.
    - rewrite <- Qmult_assoc, qratio_trans by assumption. reflexivity. }
  unfold mat_load.
  assert (D : match m_scipy m p with
              | Ok d => Ok d
              | Err NotImplementedError | Err ValueError => if m_is_h5 m p then m_h5 m p else Err ValueError
              | Err e => Err e
              end = Ok [("V"%string, MArr b); ("I0"%string, MArr i0); ("I1"%string, MArr i1)]).
  { destruct ST as [->|[[->| ->] [-> ->]]]; reflexivity. }
  rewrite D. cbn [bind lookup String.eqb Ascii.eqb Bool.eqb]. destruct inc.
  - destruct (IM eq_refl) as (b0 & b1 & -> & ->). cbn [bind]. rewrite MF. cbn [bind]. eexists. split; [reflexivity|]. exact UC'.
  - cbn [bind]. rewrite MF. cbn [bind]. eexists. split; [reflexivity|]. exact UC'.
Qed.

(** Either layout of a .mat flow gives the same array. *)
Lemma read_flow_shape : forall d a, read_flow_mat d = Ok a -> List.length (shape a) = 3 /\ nth 2 (shape a) 0 = 2.
Proof.
  intros d a. unfold read_flow_mat. generalize ["V"; "flow"; "u"; "uv"; "F"]%string as ks.
  induction ks as [|k ks IH]; cbn [read_flow_keys]; [discriminate|].
  destruct (lookup k d) as [[b|]|]; [|discriminate|exact IH].
  destruct (shape b) as [|x [|y [|z [|t s]]]] eqn:S; try exact IH.
  destruct (Nat.eqb_spec z 2) as [->|]; [intros E; inversion E; subst; rewrite S; auto|].
  destruct (Nat.eqb_spec x 2) as [->|]; [|exact IH]. unfold transpose_120. rewrite S. intros E. inversion E. auto.
Qed.
