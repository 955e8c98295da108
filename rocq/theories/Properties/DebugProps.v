(** Property C100: debug mode. *)
From Coq Require Import List Arith ZArith QArith Qround Bool Lia Lqa String.
From Verif Require Import Prelude Model.Interp Model.Hist Model.DataGen Model.Geometry Model.Sampler Model.Synthetic Model.Debug.
From Verif Require Import Spec.GeometrySpec Spec.SamplerSpec Spec.DebugSpec.
From Verif Require Import Proofs.GeometryProofs Proofs.SamplerProofs Proofs.SyntheticProofs Proofs.DebugProofs.
From Verif Require Import Properties.GeometryProps Properties.SamplerProps Properties.RenderProps Properties.SyntheticProps.
Import ListNotations.
Local Open Scope nat_scope.

(** The constructor takes one batch from the scheduler; beyond what it refuses
    anyway it refuses flow fields that do not have two components and a report
    with no velocity in one direction. *)
Theorem C100_constructor : forall ex sq g a si dec dim u,
  (0 < fst (sp_image (a_spec a)))%Z -> (0 < snd (sp_image (a_spec a)))%Z -> (0 < sp_dt (a_spec a))%Q ->
  (forall c u', debug_synthetic ex sq g a si dec dim u = Ok (c, u') <->
     synthetic ex sq g a si dec = Ok c /\
     exists d f l, si_get si (a_F a) u = (Ok d, u') /\ fd_flows d = f :: l /\ two_components (dim f) /\ reports_something a) /\
  (forall e, debug_synthetic ex sq g a si dec dim u = Err e ->
     synthetic ex sq g a si dec = Err e \/ fst (si_get si (a_F a) u) = Err e \/ e = ValueError).
Proof.
  intros ex sq g a si dec dim u IY IX DT.
  destruct (synthetic ex sq g a si dec) as [c0|e0] eqn:H.
  2:{ unfold debug_synthetic. rewrite H. cbn [bind]. split.
      - intros c u'. split; [discriminate | intros [X _]; discriminate].
      - intros e X. injection X as <-. auto. }
  destruct (synthetic_inv _ _ _ _ _ _ _ H) as (geo & G & _).
  rewrite (debug_constructor ex sq g a si dec dim IY IX DT c0 geo H G).
  destruct (accepted_axis _ geo G true) as [ey AY]. destruct (accepted_axis _ geo G false) as [exx AX].
  pose proof (af_out _ _ _ _ AY) as OY. pose proof (af_out _ _ _ _ AX) as OX. cbn [sel] in OY, OX.
  assert (RS : reports_something a <-> (1 <= fst (o_out geo))%Z /\ (1 <= snd (o_out geo))%Z).
  { rewrite OY, OX, !trunc_one. reflexivity. }
  destruct (si_get si (a_F a) u) as [[d|e1] u1].
  - assert (SH : match batch_shape dim (fd_flows d) with [_; _; _; ch] => (ch =? 2)%nat | _ => false end = true <->
                 exists f l, fd_flows d = f :: l /\ two_components (dim f)).
    { destruct (fd_flows d) as [|f l]; cbn [batch_shape].
      - split; [discriminate | intros (? & ? & X & _); discriminate].
      - split.
        + intros X. exists f, l. split; [reflexivity|]. unfold two_components.
          destruct (dim f) as [|x [|y [|z [|? ?]]]]; try discriminate. apply Nat.eqb_eq in X. subst z. eauto.
        + intros (f' & l' & X & (x & y & E)). injection X as <- <-. rewrite E. reflexivity. }
    destruct (match batch_shape dim (fd_flows d) with [_; _; _; ch] => (ch =? 2)%nat | _ => false end && (1 <=? fst (o_out geo))%Z &&
              (1 <=? snd (o_out geo))%Z) eqn:B.
    + apply andb_true_iff in B. destruct B as [B B3]. apply andb_true_iff in B. destruct B as [B1 B2].
      apply Z.leb_le in B2, B3. apply SH in B1. destruct B1 as (f & l & E1 & E2).
      split; [|discriminate]. intros c u'. split.
      * intros X. injection X as <- <-. split; [reflexivity|]. exists d, f, l. rewrite RS. auto.
      * intros [X (d' & f' & l' & E & _)]. injection X as <-. injection E as <- <-. reflexivity.
    + split; [|intros e X; injection X as <-; auto]. intros c u'. split; [discriminate|].
      intros [_ (d' & f' & l' & E & E1 & E2 & E3)]. injection E as <- <-. exfalso.
      apply RS in E3. destruct E3 as [B2 B3]. apply Z.leb_le in B2, B3. rewrite B2, B3, !andb_true_r in B.
      rewrite (proj2 SH) in B; [discriminate | eauto].
  - split.
    + intros c u'. split; [discriminate|]. intros [_ (d & ? & ? & E & _)]. discriminate.
    + intros e X. injection X as <-. auto.
Qed.
Print Assumptions C100_constructor.

(** While image and offset stay within 512 x 512 pixels, every sequence of calls
    gets the answers of the same sampler on one device with the batch size of
    one device, except that [done] keeps the full length. *)
Theorem C100_run : forall ex sq g a si dec c geo,
  synthetic ex sq g a si dec = Ok c -> construct exact (geometry_args a) = Ok geo ->
  within_512 (sp_image (a_spec a)) (o_off geo) ->
  (forall u d u', si_get si (a_F a) u = (Ok d, u') -> Nat.divide (a_devices a) (List.length (fd_flows d))) ->
  forall ops s, debug_run a si geo c ops s = (map (done_for (sc_B c)) (fst (srun (on_one c) ops s)), snd (srun (on_one c) ops s)).
Proof. intros ex sq g a si dec c geo H _. exact (debug_run_one ex sq g a si dec c geo H). Qed.
Print Assumptions C100_run.

(** On one device, a new sampler shows what it shows without debug mode, but
    starting with the second batch of flow fields. *)
Theorem C100_skips : forall ex sq g a si dec dim c geo u u' D S_,
  (0 < fst (sp_image (a_spec a)))%Z -> (0 < snd (sp_image (a_spec a)))%Z -> (0 < sp_dt (a_spec a))%Q ->
  a_devices a = 1 -> construct exact (geometry_args a) = Ok geo -> within_512 (sp_image (a_spec a)) (o_off geo) ->
  debug_synthetic ex sq g a si dec dim u = Ok (c, u') ->
  delivers si (a_F a) u D S_ -> (forall j, List.length (fd_flows (D j)) = a_F a) ->
  (forall j, si_protocol si = true -> si_steps si (S_ j) <> 0%Z) ->
  forall m, exists b b',
    nth_error (fst (srun c (repeat SNext (S m)) (syn_init c u))) m = Some (SBatch b) /\ made_from c m (D (m / sc_bpf c)) b /\
    nth_error (fst (debug_run a si geo c (repeat SNext (S m)) (syn_init c u'))) m = Some (SBatch b') /\
    made_from c m (D (m / sc_bpf c + 1)) b'.
Proof.
  intros ex sq g a si dec dim c geo u u' D S_ IY IX DT ND G W HD DL LN ST m.
  destruct (C100_constructor ex sq g a si dec dim u IY IX DT) as [K _]. apply K in HD. clear K.
  destruct HD as (H & d & f & l & E & _).
  destruct (synthetic_inv _ _ _ _ _ _ _ H) as (geo' & G' & OK & Nd & _ & Fe & _ ). rewrite ND in Nd.
  destruct DL as [D0 DS].
  assert (SH : forall j, shardable c (D j)) by (intros j; split; [rewrite Fe; apply LN | rewrite Nd; apply Nat.mod_1_r]).
  assert (DL : delivers si (sc_F c) u D S_) by (rewrite Fe; split; assumption).
  assert (DL' : delivers si (sc_F c) u' (fun j => D (j + 1)) (fun j => S_ (j + 1))).
  { rewrite Fe. split; [|intros j; apply DS]. specialize (DS 0). rewrite D0, E in DS. injection DS as _ ->. reflexivity. }
  destruct (C32_reuse _ _ _ _ c u D S_ OK DL SH ST (syn_init c u) m (SamplerProofs.init_fresh c u) eq_refl) as ((b & E1 & M1) & _).
  destruct (C32_reuse _ _ _ _ c u' (fun j => D (j + 1)) (fun j => S_ (j + 1)) OK DL' (fun j => SH (j + 1)) (fun j => ST (j + 1))
              (syn_init c u') m (SamplerProofs.init_fresh c u') eq_refl) as ((b' & E2 & M2) & _).
  assert (DV : forall v x v', si_get si (a_F a) v = (Ok x, v') -> Nat.divide (a_devices a) (List.length (fd_flows x))).
  { intros v x v' _. rewrite ND. exists (List.length (fd_flows x)). lia. }
  rewrite (C100_run ex sq g a si dec c geo H G W DV). cbn [fst].
  assert (O1 : on_one c = c).
  { unfold on_one. rewrite Nd, Nat.div_1_r. clear - Nd. destruct c as [nd B F bpf seed ad bo re]. change (nd = 1) in Nd. subst nd. reflexivity. }
  rewrite O1. exists b, (match done_for (sc_B c) (SBatch b') with SBatch x => x | _ => b' end).
  split; [exact E1|]. split; [exact M1|].
  split; [rewrite nth_error_map, E2; reflexivity|].
  destruct M2 as (A1 & A2 & A3 & A4 & A5). cbn [done_for]. repeat split; assumption.
Qed.
Print Assumptions C100_skips.

(** On several devices a batch has the pairs of one device only, while [done]
    has an entry for each pair of the full batch. *)
Theorem C100_first_device : forall ex sq g a si dec c geo,
  synthetic ex sq g a si dec = Ok c -> construct exact (geometry_args a) = Ok geo ->
  within_512 (sp_image (a_spec a)) (o_off geo) ->
  (forall u d u', si_get si (a_F a) u = (Ok d, u') -> Nat.divide (a_devices a) (List.length (fd_flows d))) ->
  forall ops s b, In (SBatch b) (fst (debug_run a si geo c ops s)) ->
  List.length (ba_images b) * a_devices a = sc_B c /\
  (si_protocol si = true -> exists x, ba_done b = Some (repeat x (sc_B c))).
Proof.
  intros ex sq g a si dec c geo H G W DV ops s b IN.
  rewrite (C100_run ex sq g a si dec c geo H G W DV) in IN. cbn [fst] in IN.
  destruct (synthetic_inv _ _ _ _ _ _ _ H) as (_ & _ & OK & Nd & _).
  pose proof OK as (N1 & _ & _ & _ & B1 & BM).
  apply in_map_iff in IN. destruct IN as (r & ER & IN).
  assert (X : forall ops s r, In r (fst (srun (on_one c) ops s)) -> forall b, r = SBatch b ->
    List.length (ba_images b) = sc_B c / sc_nd c /\
    (si_protocol si = true -> exists x n, ba_done b = Some (x :: n))).
  { clear IN ER r ops s b. induction ops as [|o ops IH]; intros s r; [intros []|]. cbn [srun].
    destruct (do_sop (on_one c) o s) as [r1 s1] eqn:E. specialize (IH s1 r).
    destruct (srun (on_one c) ops s1) as [rs s2]. cbn [fst] in *. intros [-> | IN] b ->; [|exact (IH IN b eq_refl)]. clear IH.
    destruct o as [|rr|]; cbn [do_sop] in E.
    - destruct (syn_next (on_one c) s) as [[b0|e] s3] eqn:N; [|discriminate]. injection E as -> <-.
      unfold syn_next, sampler_next in N. destruct (_ && _); [discriminate|].
      destruct (syn_get_next (on_one c) s) as [[b1|e] s4] eqn:GN; [|discriminate]. injection N as <- <-.
      assert (LI : List.length (ba_images b1) = sc_B c / sc_nd c).
      { unfold syn_get_next in GN. destruct (syn_fetch (on_one c) s) as [[[]|e] s5]; [|discriminate].
        unfold syn_generate in GN. destruct (y_cur s5) as [| |outs bounds]; try discriminate.
        destruct bounds as [|b2 l]; [discriminate|]. change (sc_nd (on_one c)) with 1 in GN. rewrite shard_one in GN.
        injection GN as <- _. cbn [ba_images seq combine flat_map fst snd]. rewrite app_nil_r. unfold gen_images.
        rewrite map_length, seq_length. change (sc_B (on_one c) / 1) with (sc_B c / sc_nd c / 1). apply Nat.div_1_r. }
      destruct (si_protocol si); [|split; [exact LI | discriminate]]. split; [exact LI|]. intros _. unfold set_done. cbn [ba_done].
      change (sc_B (on_one c)) with (sc_B c / sc_nd c).
      destruct (sc_B c / sc_nd c) eqn:Q0; [|cbn [repeat]; eauto].
      apply Nat.div_small_iff in Q0; [|lia]. rewrite Nat.mod_small in BM by exact Q0. lia.
    - discriminate.
    - destruct (syn_next_episode s) as [[|] ?]; discriminate. }
  destruct r as [b0| |e]; cbn [done_for] in ER; [|discriminate|discriminate]. injection ER as <-.
  destruct (X _ _ _ IN b0 eq_refl) as [L D]. cbn [ba_images ba_done]. split.
  - rewrite L, <- Nd. pose proof (Nat.div_mod (sc_B c) (sc_nd c) ltac:(lia)). lia.
  - intros P. destruct (D P) as (x & n & ->). eauto.
Qed.
Print Assumptions C100_first_device.

(** Beyond 512 pixels no call ever returns a batch. *)
Theorem C100_beyond : forall ex sq g a si dec c geo,
  synthetic ex sq g a si dec = Ok c -> construct exact (geometry_args a) = Ok geo ->
  ~ within_512 (sp_image (a_spec a)) (o_off geo) ->
  forall ops s b, ~ In (SBatch b) (fst (debug_run a si geo c ops s)).
Proof. intros ex sq g a si dec c geo H _. exact (debug_never ex sq g a si dec c geo H). Qed.
Print Assumptions C100_beyond.

(** The toy sampler of C93 with taller images, and with two components as
    announced shape of its flow fields. *)
Definition tall_args (h : Z) (n : nat) (vpp : Q) : syn_args :=
  mkSynArgs (mkGspec 4 (h, 24)%Z (0, 0)%Z ((4 # 1600), (4 # 1600))%Q 0 0 [(1 # 2, 1); (3 # 4, 2)]%Q 0 [(50, 200)]%Q 0
               [(-(9 # 10), 9 # 10)]%Q 0 1 0 0 0)%Q
    (6, 6)%Q n 2 2 (320, 30)%Q (640, 60)%Z 2 vpp (4, 4)%Q (-(4), -(4))%Q true 7 None None.
Definition tall_cfg (h : Z) (n : nat) (vpp : Q) : result (scfg still_sif flow flow pair_out) :=
  synthetic toy_ex (fun a => a) toy_gen (tall_args h n vpp) still_sif (fun f => f).
Definition tall_debug (h : Z) (n : nat) (vpp : Q) (ch : nat) :=
  debug_synthetic toy_ex (fun a => a) toy_gen (tall_args h n vpp) still_sif (fun f => f) (fun _ => [640; 60; ch]) tt.
Definition ok {A} (r : result A) : bool := match r with Ok _ => true | Err _ => false end.

Example C100_case_constructor :
  ok (tall_cfg 48 1 1) = true /\ ok (tall_debug 48 1 1 2) = true /\ tall_debug 48 1 1 3 = Err ValueError /\
  ok (tall_cfg 48 1 (1 # 40)) = true /\ tall_debug 48 1 (1 # 40) 2 = Err ValueError.
Proof. repeat split; vm_compute; reflexivity. Qed.

Definition tall_geom (h : Z) (n : nat) : geom exact :=
  match construct exact (geometry_args (tall_args h n 1)) with Ok x => x | Err _ => toy_geom end.

Lemma tall_ok : forall h n, ok (tall_cfg h n 1) = true -> exists c,
  synthetic toy_ex (fun a => a) toy_gen (tall_args h n 1) still_sif (fun f => f) = Ok c /\
  construct exact (geometry_args (tall_args h n 1)) = Ok (tall_geom h n).
Proof.
  intros h n H. unfold tall_cfg in H. destruct (synthetic _ _ _ _ _ _) as [c|e] eqn:E; [|discriminate].
  exists c. split; [reflexivity|]. destruct (synthetic_inv _ _ _ _ _ _ _ E) as (geo & G & _). unfold tall_geom. rewrite G. reflexivity.
Qed.

(** Two devices, four pairs per batch: two pairs in debug mode. *)
Example C100_case_run : exists c,
  synthetic toy_ex (fun a => a) toy_gen (tall_args 48 2 1) still_sif (fun f => f) = Ok c /\
  construct exact (geometry_args (tall_args 48 2 1)) = Ok (tall_geom 48 2) /\
  within_512 (48, 24)%Z (o_off (tall_geom 48 2)) /\
  map (fun o => match o with SBatch b => List.length (ba_images b) | _ => 0 end)
    (fst (debug_run (tall_args 48 2 1) still_sif (tall_geom 48 2) c [SNext; SNext; SReset true; SNext] (syn_init c tt))) = [2; 2; 0; 2].
Proof.
  destruct (tall_ok 48 2) as (c & E & G); [vm_compute; reflexivity|]. exists c. split; [exact E|]. split; [exact G|].
  assert (W : within_512 (48, 24)%Z (o_off (tall_geom 48 2))) by (vm_compute; split; discriminate).
  split; [exact W|].
  assert (DV : forall (u : si_state still_sif) d u', si_get still_sif (a_F (tall_args 48 2 1)) u = (Ok d, u') ->
             Nat.divide (a_devices (tall_args 48 2 1)) (List.length (fd_flows d))).
  { intros u d u' X. cbn in X. injection X as <- <-. exists 1. reflexivity. }
  rewrite (C100_run _ _ _ _ _ _ _ _ E G W DV). cbn [fst].
  revert E. unfold synthetic. change (negb (extras_ok (tall_args 48 2 1))) with false. cbv iota.
  rewrite G. cbn [bind]. unfold make_scfg. cbn. intros X. injection X as <-. lazy. reflexivity.
Qed.

(** A sampler for images of 600 rows that shows a batch at every call, and none
    in debug mode although its constructor agrees. *)
Theorem C100_every_image_size_refuted : exists a si dec dim c geo u u',
  debug_synthetic toy_ex (fun a => a) toy_gen a si dec dim u = Ok (c, u') /\ construct exact (geometry_args a) = Ok geo /\
  a_devices a = 1 /\
  (forall m, exists b, nth_error (fst (srun c (repeat SNext (S m)) (syn_init c u))) m = Some (SBatch b)) /\
  (forall ops s b, ~ In (SBatch b) (fst (debug_run a si geo c ops s))).
Proof.
  destruct (tall_ok 600 1) as (c & E & G); [vm_compute; reflexivity|].
  exists (tall_args 600 1 1), still_sif, (fun f => f), (fun _ => [640; 60; 2]), c, (tall_geom 600 1), tt, tt.
  split; [|split; [exact G|]; split; [reflexivity|]; split].
  - apply C100_constructor; [reflexivity | reflexivity | reflexivity |]. split; [exact E|].
    exists still_data, still_flow, [still_flow]. split; [reflexivity|]. split; [reflexivity|]. split; [exists 640, 60; reflexivity|].
    split; vm_compute; discriminate.
  - intros m. destruct (synthetic_inv _ _ _ _ _ _ _ E) as (geo & _ & OK & Nd & _ & Fe & _).
    assert (SH : shardable c still_data) by (split; [rewrite Fe; reflexivity | rewrite Fe, Nd; reflexivity]).
    destruct (C32_reuse _ _ _ _ c tt (fun _ => still_data) (fun _ => tt) OK
                (conj eq_refl (fun _ => eq_refl)) (fun _ => SH) (fun _ X => ltac:(discriminate X))
                (syn_init c tt) m (SamplerProofs.init_fresh _ _) eq_refl) as ((b & X & _) & _).
    exists b. exact X.
  - intros ops s b. apply (C100_beyond _ _ _ _ _ _ _ _ E G).
    intros [W _]. revert W. vm_compute. intros W. apply W. reflexivity.
Qed.
Print Assumptions C100_every_image_size_refuted.
