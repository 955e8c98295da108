(** Facts about debug mode. *)
From Coq Require Import List Arith ZArith QArith Qround Bool Lia Lqa.
From Verif Require Import Prelude Model.Interp Model.Hist Model.DataGen Model.Geometry Model.Sampler Model.Synthetic Model.Debug.
From Verif Require Import Spec.GeometrySpec Spec.SamplerSpec Spec.DebugSpec.
From Verif Require Import Proofs.GeometryProofs Proofs.SamplerProofs Proofs.SyntheticProofs.
Import ListNotations.
Local Open Scope nat_scope.

Lemma trunc_one : forall q, (1 <= Qtrunc q)%Z <-> (1 <= q)%Q.
Proof.
  intros q. unfold Qtrunc. destruct (Qle_bool 0 q) eqn:E.
  - split; intros H.
    + apply Qle_trans with (inject_Z (Qfloor q)); [|apply Qfloor_le]. change 1%Q with (inject_Z 1). rewrite <- Zle_Qle. exact H.
    + change 1%Z with (Qfloor 1). apply Qfloor_resp_le. exact H.
  - assert (N : (q < 0)%Q) by (apply Qnot_le_lt; intros L; apply Qle_bool_iff in L; congruence).
    split; intros H; [|lra]. exfalso.
    assert (C : (Qceiling q <= 0)%Z) by (change 0%Z with (Qceiling 0); apply Qceiling_resp_le; lra). lia.
Qed.

Lemma pos_test : forall q, (0 < q)%Q -> Qle_bool q 0 = false.
Proof. intros q H. destruct (Qle_bool q 0) eqn:E; [|reflexivity]. apply Qle_bool_iff in E. lra. Qed.

(** What the generator's check adds once the rest is in order. *)
Lemma check_generate_ok : forall fshape sp pb rx ry mask hist,
  (0 < fst pb)%Z -> (0 < snd pb)%Z -> (0 < rx)%Q -> (0 < ry)%Q ->
  match mask with Some m => (rows m =? fst (sp_image sp))%Z && (cols m =? snd (sp_image sp))%Z | None => true end = true ->
  match hist with
  | Some l => (List.length l =? 256)%nat && isclose (fold_left Qplus l 0%Q) (inject_Z (fst (sp_image sp) * snd (sp_image sp)))
  | None => true end = true ->
  check_generate fshape sp pb rx ry mask hist =
    if match fshape with [_; _; _; ch] => (ch =? 2)%nat | _ => false end
       && negb (fst pb <? fst (sp_image sp) + fst (sp_offset sp))%Z && negb (snd pb <? snd (sp_image sp) + snd (sp_offset sp))%Z
    then Ok tt else Err ValueError.
Proof.
  intros fshape sp pb rx ry mask hist P1 P2 RX RY M H. unfold check_generate.
  destruct (sp_image sp) as [h w]. cbn [fst snd] in *. rewrite M, H, (pos_test _ RX), (pos_test _ RY).
  apply Z.ltb_lt in P1, P2. rewrite P1, P2.
  destruct (match fshape with [_; _; _; ch] => (ch =? 2)%nat | _ => false end); [|reflexivity].
  destruct (fst pb <? h + fst (sp_offset sp))%Z; [reflexivity|].
  destruct (snd pb <? w + snd (sp_offset sp))%Z; reflexivity.
Qed.

Lemma extras_inv : forall a, extras_ok a = true ->
  match a_mask a with Some m => (rows m =? fst (sp_image (a_spec a)))%Z && (cols m =? snd (sp_image (a_spec a)))%Z | None => true end = true /\
  match a_hist a with
  | Some l => (List.length l =? 256)%nat && isclose (fold_left Qplus l 0%Q) (inject_Z (fst (sp_image (a_spec a)) * snd (sp_image (a_spec a))))
  | None => true end = true.
Proof.
  intros a H. unfold extras_ok in H. destruct (sp_image (a_spec a)) as [h w]. cbn [fst snd].
  apply andb_true_iff in H. destruct H as [H _]. apply andb_true_iff in H. exact H.
Qed.

Lemma synthetic_extras : forall ex sq g a si dec c, synthetic ex sq g a si dec = Ok c -> extras_ok a = true.
Proof. intros ex sq g a si dec c H. unfold synthetic in H. destruct (extras_ok a); [reflexivity | discriminate]. Qed.

Section Constructor.
Variables (ex sq : Q -> Q) (g : generator) (a : syn_args).
Variables (si : sif) (dec : si_flow si -> flow) (dim : si_flow si -> list nat).
Hypothesis IY : (0 < fst (sp_image (a_spec a)))%Z.
Hypothesis IX : (0 < snd (sp_image (a_spec a)))%Z.
Hypothesis DT : (0 < sp_dt (a_spec a))%Q.

Lemma debug_constructor : forall c geo, synthetic ex sq g a si dec = Ok c -> construct exact (geometry_args a) = Ok geo -> forall u,
  debug_synthetic ex sq g a si dec dim u =
    match si_get si (a_F a) u with
    | (Err e, _) => Err e
    | (Ok d, u') =>
        if match batch_shape dim (fd_flows d) with [_; _; _; ch] => (ch =? 2)%nat | _ => false end
           && (1 <=? fst (o_out geo))%Z && (1 <=? snd (o_out geo))%Z
        then Ok (c, u') else Err ValueError
    end.
Proof.
  intros c geo H G u. unfold debug_synthetic. rewrite H, G. cbn [bind].
  destruct (si_get si (a_F a) u) as [[d|e] u']; [|reflexivity]. cbv zeta.
  destruct (extras_inv _ (synthetic_extras _ _ _ _ _ _ _ H)) as [M HI].
  destruct (synthetic_inv _ _ _ _ _ _ _ H) as (geo' & G' & (_ & B1 & _) & Nd & HB & _ & _ & _ & Pd & _).
  rewrite G in G'. injection G' as <-.
  set (cg := geometry_args a) in *.
  destruct (accepted_axis cg geo G true) as [ey AY]. destruct (accepted_axis cg geo G false) as [exx AX].
  assert (DT' : (0 <= g_dt cg)%Q) by (unfold cg; cbn [g_dt geometry_args]; lra).
  assert (IY' : (0 <= sel true (g_image cg))%Z) by (cbn [sel]; unfold cg; cbn [g_image geometry_args]; lia).
  assert (IX' : (0 <= sel false (g_image cg))%Z) by (cbn [sel]; unfold cg; cbn [g_image geometry_args]; lia).
  destruct (axis_crop true cg geo ey AY DT' IY') as [OY CY]. destruct (axis_crop false cg geo exx AX DT' IX') as [OX CX].
  pose proof (ores_pos true cg geo ey AY) as RY. pose proof (ores_pos false cg geo exx AX) as RX.
  destruct (pad_spec true cg geo ey AY) as (_ & _ & PY). destruct (pad_spec false cg geo exx AX) as (_ & _ & PX).
  pose proof (af_res _ _ _ _ AY) as RR. pose proof (af_opbo _ _ _ _ AY) as QY. pose proof (af_opbo _ _ _ _ AX) as QX.
  cbn [sel] in *. change (g_image cg) with (sp_image (a_spec a)) in *. change (g_res cg) with (a_res a) in *.
  assert (NN : forall x, Qle_bool 0 (max0 exact x) = true).
  { intros x. apply Qle_bool_iff. destruct (max0_cases x) as [[? E]|[? E]]; rewrite E; lra. }
  rewrite check_generate_ok; [| lia | lia | exact RX | exact RY | exact M | exact HI].
  change (sp_image (device_spec a geo)) with (sp_image (a_spec a)). change (sp_offset (device_spec a geo)) with (o_off geo).
  rewrite (proj2 (Z.ltb_ge (fst (o_pb geo)) _)) by lia. rewrite (proj2 (Z.ltb_ge (snd (o_pb geo)) _)) by lia.
  unfold check_adapter.
  change (ad_new (device_adapter a geo)) with (o_out geo). change (ad_image (device_adapter a geo)) with (sp_image (a_spec a)).
  change (ad_off (device_adapter a geo)) with (o_off geo). change (ad_res (device_adapter a geo)) with (a_res a).
  change (ad_rx (device_adapter a geo)) with (snd (o_res geo)). change (ad_ry (device_adapter a geo)) with (fst (o_res geo)).
  change (ad_pb (device_adapter a geo)) with (o_pb geo).
  change (ad_batch (device_adapter a geo)) with (per_device a). change (ad_dt (device_adapter a geo)) with (sp_dt (a_spec a)).
  change (ad_pad (device_adapter a geo)) with (o_pad geo).
  destruct (match batch_shape dim (fd_flows d) with [_; _; _; ch] => (ch =? 2)%nat | _ => false end); [|reflexivity].
  cbn [andb negb bind]. cbv zeta.
  replace (0 <? fst (o_out geo))%Z with (1 <=? fst (o_out geo))%Z by (destruct (Z.leb_spec 1 (fst (o_out geo))), (Z.ltb_spec 0 (fst (o_out geo))); lia).
  replace (0 <? snd (o_out geo))%Z with (1 <=? snd (o_out geo))%Z by (destruct (Z.leb_spec 1 (snd (o_out geo))), (Z.ltb_spec 0 (snd (o_out geo))); lia).
  destruct (1 <=? fst (o_out geo))%Z; [|reflexivity]. destruct (1 <=? snd (o_out geo))%Z; [|reflexivity]. cbn [andb negb].
  apply Z.ltb_lt in IY, IX. rewrite IY, IX. cbn [andb negb].
  rewrite (proj2 (Z.leb_le _ _) OY), (proj2 (Z.leb_le _ _) OX). cbn [andb negb].
  rewrite (pos_test _ RR), (pos_test _ RX), (pos_test _ RY).
  apply Z.ltb_lt in IY, IX.
  rewrite (proj2 (Z.ltb_lt 0 (fst (o_pb geo)))) by lia. rewrite (proj2 (Z.ltb_lt 0 (snd (o_pb geo)))) by lia. cbn [andb negb].
  assert (QY' : Qle_bool 0 (fst (ad_pbo (device_adapter a geo))) = true).
  { unfold device_adapter, adapter_of. cbn [ad_pbo]. etransitivity; [|apply (NN (fst (l_pbo geo)))]. f_equal. exact QY. }
  assert (QX' : Qle_bool 0 (snd (ad_pbo (device_adapter a geo))) = true).
  { unfold device_adapter, adapter_of. cbn [ad_pbo]. etransitivity; [|apply (NN (snd (l_pbo geo)))]. f_equal. exact QX. }
  rewrite QY', QX'. cbn [andb negb].
  assert (PD : (per_device a =? 0)%nat = false).
  { apply Nat.eqb_neq. rewrite <- Pd. destruct (synthetic_inv _ _ _ _ _ _ _ H) as (_ & _ & OK & _).
    destruct OK as (N1 & _ & _ & _ & BP & BM). intros Z0. apply Nat.div_small_iff in Z0; [|lia]. rewrite Nat.mod_small in BM by exact Z0. lia. }
  rewrite PD, (pos_test _ DT), (proj2 (Z.leb_le _ _) PY), (proj2 (Z.leb_le _ _) PX). reflexivity.
Qed.
End Constructor.

Section Run.
Variables (ex sq : Q -> Q) (g : generator) (a : syn_args).
Variables (si : sif) (dec : si_flow si -> flow).
Variables (c : scfg si flow flow pair_out) (geo : geom exact).
Hypothesis H : synthetic ex sq g a si dec = Ok c.
Hypothesis G : construct exact (geometry_args a) = Ok geo.
Notation st := (sst si flow flow).

(** The generator's own check. *)
Definition inner (bounds : list flow) : result unit :=
  check_generate (cropped_shape bounds) (device_spec a geo) (512, 512)%Z 1 1 (a_mask a) (a_hist a).

Lemma inner_check : forall bounds,
  (bounds <> [] /\ within_512 (sp_image (a_spec a)) (o_off geo) -> inner bounds = Ok tt) /\
  (~ within_512 (sp_image (a_spec a)) (o_off geo) -> inner bounds = Err ValueError).
Proof.
  intros bounds. unfold inner. destruct (extras_inv _ (synthetic_extras _ _ _ _ _ _ _ H)) as [M HI].
  rewrite check_generate_ok; [| reflexivity | reflexivity | reflexivity | reflexivity | exact M | exact HI].
  change (sp_image (device_spec a geo)) with (sp_image (a_spec a)). change (sp_offset (device_spec a geo)) with (o_off geo).
  cbn [fst snd]. unfold within_512. split.
  - intros [N [W1 W2]]. destruct bounds as [|b l]; [congruence|]. unfold cropped_shape, batch_shape. cbn [Nat.eqb andb].
    rewrite (proj2 (Z.ltb_ge 512 _)) by lia. rewrite (proj2 (Z.ltb_ge 512 _)) by lia. reflexivity.
  - intros N. destruct (match cropped_shape bounds with [_; _; _; ch] => (ch =? 2)%nat | _ => false end); [|reflexivity]. cbn [andb].
    destruct (Z.ltb_spec 512 (fst (sp_image (a_spec a)) + fst (o_off geo)))%Z; [reflexivity|]. cbn [andb negb].
    destruct (Z.ltb_spec 512 (snd (sp_image (a_spec a)) + snd (o_off geo)))%Z; [reflexivity|]. exfalso. apply N. split; assumption.
Qed.

Lemma shard_one : forall A (l : list A), shard 1 l = Ok [l].
Proof.
  intros A l. unfold shard. rewrite Nat.mod_1_r, Nat.div_1_r. cbn [Nat.eqb seq map Nat.mul skipn]. rewrite firstn_all. reflexivity.
Qed.

Lemma debug_generate_one : within_512 (sp_image (a_spec a)) (o_off geo) -> forall s : st,
  debug_generate a si geo c s = syn_generate (on_one c) s.
Proof.
  intros W s. unfold debug_generate, syn_generate. destruct (y_cur s) as [| |outs bounds]; try reflexivity.
  fold (inner bounds). destruct bounds as [|b l]; [destruct (inner []); reflexivity|].
  change (sc_nd (on_one c)) with 1. rewrite shard_one.
  destruct (inner_check (b :: l)) as [-> _]; [|split; [discriminate | exact W]].
  change (sc_B (on_one c) / 1) with (sc_B c / sc_nd c / 1). rewrite Nat.div_1_r. cbn [seq combine flat_map fst snd].
  rewrite app_nil_r. reflexivity.
Qed.

Lemma debug_fetch_one : (forall u d u', si_get si (a_F a) u = (Ok d, u') -> Nat.divide (a_devices a) (List.length (fd_flows d))) ->
  forall s : st, debug_fetch si c s = syn_fetch (on_one c) s.
Proof.
  intros DV s. destruct (synthetic_inv _ _ _ _ _ _ _ H) as (_ & _ & (N1 & _) & Nd & _ & Fe & _).
  unfold debug_fetch, syn_fetch. change (sc_bpf (on_one c)) with (sc_bpf c). change (sc_F (on_one c)) with (sc_F c).
  destruct (match y_cur s with CurNone => true | _ => sc_bpf c <=? y_gen s end); [|reflexivity].
  destruct (si_get si (sc_F c) (y_sched s)) as [[d|e] u] eqn:E; [|reflexivity].
  rewrite Fe in E. apply DV in E. rewrite <- Nd in E.
  change (sc_nd (on_one c)) with 1. rewrite shard_one. unfold shard.
  rewrite (proj2 (Nat.mod_divide (List.length (fd_flows d)) (sc_nd c) ltac:(lia)) E). cbn [Nat.eqb].
  change (sc_B (on_one c) / 1) with (sc_B c / sc_nd c / 1). rewrite Nat.div_1_r. cbn [flat_map]. rewrite app_nil_r. reflexivity.
Qed.

Lemma debug_next_one : within_512 (sp_image (a_spec a)) (o_off geo) ->
  (forall u d u', si_get si (a_F a) u = (Ok d, u') -> Nat.divide (a_devices a) (List.length (fd_flows d))) ->
  forall s : st, debug_op a si geo c SNext s = (done_for (sc_B c) (fst (do_sop (on_one c) SNext s)), snd (do_sop (on_one c) SNext s)).
Proof.
  intros W DV s. unfold debug_op, do_sop, debug_next, syn_next, sampler_next.
  destruct (synthetic_inv _ _ _ _ _ _ _ H) as (_ & _ & (N1 & _ & _ & _ & B1 & BM) & _).
  destruct (si_protocol si && (si_steps si (y_sched s) =? 0)%Z) eqn:P; [reflexivity|].
  unfold debug_get_next, syn_get_next. rewrite debug_fetch_one by exact DV.
  destruct (syn_fetch (on_one c) s) as [[[]|e] s1]; [|reflexivity].
  rewrite debug_generate_one by exact W.
  destruct (syn_generate (on_one c) s1) as [[b|e] s2] eqn:E; [|reflexivity]. cbn [fst snd].
  destruct (si_protocol si).
  - unfold set_done. cbn [done_for ba_images ba_flows ba_done ba_mask ba_files].
    assert (BB : 1 <= sc_B c / sc_nd c).
    { destruct (sc_B c / sc_nd c) eqn:Q0; [|lia]. apply Nat.div_small_iff in Q0; [|lia]. rewrite Nat.mod_small in BM by exact Q0. lia. }
    change (sc_B (on_one c)) with (sc_B c / sc_nd c). destruct (sc_B c / sc_nd c) as [|n]; [lia|]. cbn [repeat]. reflexivity.
  - unfold syn_generate in E. destruct (y_cur s1) as [| |outs bounds]; try discriminate.
    destruct bounds; [discriminate|]. destruct (shard _ _); [|discriminate]. injection E as <- <-. reflexivity.
Qed.

Lemma debug_run_one : within_512 (sp_image (a_spec a)) (o_off geo) ->
  (forall u d u', si_get si (a_F a) u = (Ok d, u') -> Nat.divide (a_devices a) (List.length (fd_flows d))) ->
  forall ops (s : st), debug_run a si geo c ops s =
    (map (done_for (sc_B c)) (fst (srun (on_one c) ops s)), snd (srun (on_one c) ops s)).
Proof.
  intros W DV. induction ops as [|o ops IH]; intros s; [reflexivity|]. cbn [debug_run srun].
  assert (E : debug_op a si geo c o s = (done_for (sc_B c) (fst (do_sop (on_one c) o s)), snd (do_sop (on_one c) o s))).
  { destruct o as [|r|]; [apply debug_next_one; assumption | reflexivity |].
    cbn [debug_op do_sop]. destruct (syn_next_episode s) as [[|] ?]; reflexivity. }
  rewrite E. destruct (do_sop (on_one c) o s) as [r s1]. cbn [fst snd]. rewrite IH.
  destruct (srun (on_one c) ops s1) as [rs s2]. reflexivity.
Qed.

Lemma debug_never : ~ within_512 (sp_image (a_spec a)) (o_off geo) ->
  forall ops (s : st) b, ~ In (SBatch b) (fst (debug_run a si geo c ops s)).
Proof.
  intros W. induction ops as [|o ops IH]; intros s b; [intros []|]. cbn [debug_run].
  destruct (debug_op a si geo c o s) as [r s1] eqn:E. specialize (IH s1 b).
  destruct (debug_run a si geo c ops s1) as [rs s2]. cbn [fst] in *. intros [-> | IN]; [|exact (IH IN)]. clear IH.
  destruct o as [|rr|]; cbn [debug_op] in E.
  - unfold debug_next, sampler_next in E. destruct (_ && _); [discriminate|].
    unfold debug_get_next in E. destruct (debug_fetch si c s) as [[[]|e] s3]; [|discriminate].
    unfold debug_generate in E. destruct (y_cur s3) as [| |outs bounds]; try discriminate.
    fold (inner bounds) in E. destruct (inner_check bounds) as [_ K]. rewrite K in E by exact W. discriminate.
  - discriminate.
  - destruct (syn_next_episode s) as [[|] ?]; discriminate.
Qed.
End Run.
