(** From files to samplers. *)
From Coq Require Import List Arith ZArith Lia String Bool QArith Permutation.
From Verif Require Import Prelude Model.Base Model.Episodic Model.Prefetch Model.Sampler Model.Stack
  Spec.BaseSpec Spec.SamplerSpec Spec.StackSpec Spec.PipelineSpec
  Proofs.BaseProofs Proofs.BaseBatch Proofs.BaseRun Proofs.BaseLoop Proofs.BaseFinal Proofs.SamplerProofs Proofs.SamplerRuns Proofs.SamplerMore Proofs.StackProofs.
Import ListNotations.
Local Open Scope nat_scope.

Lemma run_snoc : forall c fuel ops o s, run c fuel (ops ++ [o]) s =
  let (rs, s1) := run c fuel ops s in let (r, s2) := do_op c fuel o s1 in (rs ++ [r], s2).
Proof.
  intros c fuel ops; induction ops as [|o' ops IH]; intros o s; cbn [app run].
  - destruct (do_op c fuel o s). reflexivity.
  - destruct (do_op c fuel o' s) as [r s1]. rewrite IH. destruct (run c fuel ops s1) as [rs s2].
    destruct (do_op c fuel o s2). reflexivity.
Qed.

(** The state before call number [j]. *)
Definition before (c : cfg) (fuel n : nat) (s : st) (j : nat) : st := snd (run c fuel (gets (repeat n j)) s).

Lemma repeat_snoc : forall A (a : A) j, repeat a (S j) = repeat a j ++ [a].
Proof. intros A a j. induction j as [|j IH]; [reflexivity|]. cbn [repeat app] in *. now rewrite <- IH. Qed.

Lemma before_S : forall c fuel n s j, before c fuel n s (S j) = snd (get_batch c fuel n (before c fuel n s j)).
Proof.
  intros c fuel n s j. unfold before, gets. rewrite repeat_snoc, map_app. cbn [map]. rewrite run_snoc.
  destruct (run c fuel (map OGet (repeat n j)) s) as [rs s1]. cbn [snd do_op]. destruct (get_batch c fuel n s1). reflexivity.
Qed.

Lemma nth_call : forall c fuel n s j,
  nth_error (fst (run c fuel (gets (repeat n (S j))) s)) j = Some (ORes (fst (get_batch c fuel n (before c fuel n s j)))).
Proof.
  intros c fuel n s j. unfold before, gets. pose proof (run_length c fuel (map OGet (repeat n j)) s) as L.
  rewrite map_length, repeat_length in L. rewrite repeat_snoc, map_app. cbn [map]. rewrite run_snoc.
  destruct (run c fuel (map OGet (repeat n j)) s) as [rs s1]. cbn [fst snd do_op] in *.
  destruct (get_batch c fuel n s1) as [r s2]. cbn [fst]. rewrite nth_error_app2 by lia. rewrite L, Nat.sub_diag. reflexivity.
Qed.

Lemma sum_repeat : forall n j, sum (repeat n j) = j * n.
Proof. intros n j. unfold sum. induction j as [|j IH]; [reflexivity|]. cbn [repeat fold_right]. rewrite IH. lia. Qed.

Lemma firstn_repeat : forall A (a : A) j k, j <= k -> firstn j (repeat a k) = repeat a j.
Proof. intros A a j; induction j as [|j IH]; intros [|k] H; try lia; try reflexivity. cbn. rewrite IH by lia. reflexivity. Qed.

Lemma nth_repeat_S : forall A (a : A) j, nth_error (repeat a (S j)) j = Some a.
Proof. intros A a j. induction j as [|j IH]; [reflexivity|exact IH]. Qed.

(** Every call of a file scheduler, over the stream of slices. *)
Lemma base_calls : forall c C fl k fuel n, disk (c_loader c) C -> (c_randomize c = true -> perm_ok (c_rng c)) ->
  no_faults C fl -> uniform C fl -> epoch C fl <> [] -> 2 * List.length fl < fuel -> 0 < n ->
  exists x, stream_of (c_randomize c) (c_loop c) C fl x /\
    forall j, (x (j * n) = None -> fst (get_batch c fuel n (before c fuel n (init c fl k) j)) = CRaise StopIteration) /\
      (x (j * n) <> None -> exists b l, fst (get_batch c fuel n (before c fuel n (init c fl k) j)) = CReturn b /\
         batch_of n l b /\ forall i, i < n -> nth_error l i = x (j * n + i)).
Proof.
  intros c C fl k fuel n HD HP HF HU HE Hf Hn.
  assert (HA : forall j, c_randomize c = false -> s_files (pass_st c fl k j) = fl).
  { intros j HR. induction j as [|j IH]; [apply init_files, HR|].
    change (s_files (reset c (pass_st c fl k j)) = fl). unfold reset. rewrite HR. exact IH. }
  destruct (c_loop c) eqn:HL.
  - assert (SS : same_shapes C fl) by (destruct HU as (F & I1 & I2 & _ & _ & _ & H); now exists F, I1, I2).
    set (str := fun K => flat_map (pass c C fl k) (seq 0 K)).
    assert (LK : forall K, K <= List.length (str K)) by (intros K; apply passes_long; auto).
    assert (EXT : forall K K' i, i < K -> K <= K' -> nth_error (str K') i = nth_error (str K) i).
    { intros K K' i Hi HK. unfold str. replace K' with (K + (K' - K)) by lia. rewrite seq_app, flat_map_app.
      rewrite nth_error_app1; [reflexivity|]. specialize (LK K). unfold str in LK. lia. }
    exists (fun i => nth_error (str (S i)) i). split.
    + exists (fun j => s_files (pass_st c fl k j)). split; [intros j; apply pass_perm; auto|].
      split; [intros HR j; apply HA, HR|]. split; [discriminate|]. intros _ K i Hi.
      split; [symmetry; apply (EXT (S i) K i); lia|]. apply nth_error_Some. specialize (LK (S i)). lia.
    + intros j. set (u := init c fl k). cbv beta. split.
      { intros H. exfalso. revert H. apply nth_error_Some. specialize (LK (S (j * n))). lia. }
      intros _. pose proof (nth_call c fuel n u j) as NC.
      pose proof (At_init c C fl k HP HF) as HAt.
      destruct (At_run c C HD fl k HL HP HF HE fuel (repeat n (S j)) (init c fl k) [] Hf SS) as [rs [s' [D' [H1 [H2 [H3 [_ H4]]]]]]].
      { intros m Hm. apply repeat_spec in Hm. lia. } { exact HAt. }
      destruct (H4 j n (nth_repeat_S _ n j)) as (b & Hb1 & Hb2). cbn [List.length] in H3, Hb2. rewrite sum_repeat in H3.
      rewrite firstn_repeat, sum_repeat in Hb2 by lia. rewrite Nat.add_0_l in *.
      fold u in H1. rewrite H1 in NC. cbn [fst] in NC. rewrite Hb1 in NC. injection NC as NC.
      exists b. eexists. split; [symmetry; exact NC|]. split; [exact Hb2|]. intros i Hi.
      rewrite nth_error_firstn_lt by lia. rewrite nth_error_skipn'.
      rewrite (At_prefix c C fl k s' D' (List.length D') H2) by (apply passes_long; auto).
      rewrite nth_error_firstn_lt by lia. apply (EXT (S (j * n + i)) (List.length D')); lia.
  - set (xs := epoch C (collapse (s_files (init c fl k)))). pose proof (init_perm c fl k HP) as HPe.
    exists (fun i => nth_error xs i). split.
    + exists (fun j => s_files (pass_st c fl k j)). split; [intros j; apply pass_perm; auto|].
      split; [intros HR j; apply HA, HR|]. split; [|discriminate]. intros _ i. reflexivity.
    + intros j. pose proof (nth_call c fuel n (init c fl k) j) as NC.
      destruct (run_finite c C HD fuel fl (repeat n (S j)) (init c fl k) xs) as [rs [s' [H1 [H2 [_ [_ H3]]]]]]; auto.
      * intros x Hx. apply (proj2 (epoch_collapse_in C _ _)) in Hx. eapply epoch_perm_in; eauto.
      * apply init_inv.
      * rewrite (Permutation_length HPe). lia.
      * rewrite pending_fresh by apply BaseLoop.init_fresh. apply tail_events_full. intros p l e Hp. apply HF. eapply Permutation_in; eauto.
      * destruct (H3 j n (nth_repeat_S _ n j)) as [Ha Hb]. rewrite firstn_repeat, sum_repeat in Ha, Hb by lia.
        rewrite H1 in NC. cbn [fst] in NC.
        assert (SEG : firstn n (skipn (j * n) xs) = [] <-> nth_error xs (j * n) = None).
        { split; intros H.
          - pose proof (nth_error_firstn_lt _ (skipn (j * n) xs) n 0 Hn) as Z. rewrite H, nth_error_skipn', Nat.add_0_r in Z.
            cbn in Z. congruence.
          - apply nth_error_None in H. rewrite skipn_all2 by lia. destruct n; reflexivity. }
        split; intros H.
        -- rewrite (Ha (proj2 SEG H)) in NC. congruence.
        -- destruct Hb as (b & Hb1 & Hb2). { intros Z. apply H, SEG, Z. }
           exists b. eexists. split; [congruence|]. split; [exact Hb2|]. intros i Hi.
           rewrite nth_error_firstn_lt by lia. apply nth_error_skipn'.
Qed.

Lemma stream_in : forall r lo C fl x i s, stream_of r lo C fl x -> x i = Some s -> In s (epoch C fl).
Proof.
  intros r lo C fl x i s (P & P1 & _ & P3 & P4) H.
  assert (G : exists j, In s (epoch C (collapse (P j)))).
  { destruct lo.
    - destruct (P4 eq_refl (S i) i (Nat.lt_succ_diag_r i)) as [E _]. rewrite E in H. apply nth_error_In, in_flat_map in H.
      destruct H as (j & _ & H). now exists j.
    - rewrite (P3 eq_refl) in H. exists 0. eapply nth_error_In; eauto. }
  destruct G as (j & G). apply (proj2 (epoch_collapse_in C _ _)) in G. eapply epoch_perm_in; eauto.
Qed.

(** Place by place, a scheduler batch carries slices [base], [base + 1], ... *)
Definition carries {flow imgt : Type} (fld : option SchedData -> flow -> Prop) (n base : nat) (x : nat -> option SchedData)
    (d : fdata flow imgt) : Prop :=
  List.length (fd_flows d) = n /\
  forall q, q < n -> labelled (fd_mask d) (fd_files d) q (x (base + q)) /\
    exists f, nth_error (fd_flows d) q = Some f /\ fld (x (base + q)) f.

Lemma nth_rows : forall a q, q < nrows a -> nth_error (rows a) q = Some (row q a).
Proof. intros a q H. unfold rows. rewrite nth_error_map, nth_error_nth' with (d := 0) by (rewrite seq_length; exact H). rewrite seq_nth by exact H. reflexivity. Qed.

Lemma zeros_zero : forall sh v, In v (data (zeros sh)) -> v = 0%Q.
Proof. intros sh v H. apply repeat_spec in H. exact H. Qed.

Lemma batch_carries : forall n base x l b, batch_of n l b -> (forall i, i < n -> nth_error l i = x (base + i)) ->
  carries field_of n base x (fdata_of b).
Proof.
  intros n base x l b H HX. split.
  - unfold fdata_of, rows. cbn. now rewrite map_length, seq_length, (bo_rows _ _ _ H).
  - intros q Hq. destruct (bo_mask _ _ _ H) as (mk & M1 & M2 & M3). destruct (bo_files _ _ _ H) as (fs & F1 & F2 & F3 & F4).
    cbn [fdata_of fd_flows fd_mask fd_files]. rewrite nth_rows by (rewrite (bo_rows _ _ _ H); exact Hq).
    specialize (HX q Hq). destruct (x (base + q)) as [s|].
    + assert (L : q < List.length l) by (apply nth_error_Some; congruence). split.
      * exists mk, fs. split; [exact M1|]. split; [exact F1|]. split; [apply M3; assumption|].
        destruct (F3 _ _ HX) as (f & Y1 & Y2). exists f. auto.
      * eexists. split; [reflexivity|]. exact (bo_flow _ _ _ H _ _ HX).
    + apply nth_error_None in HX. split.
      * exists mk, fs. split; [exact M1|]. split; [exact F1|]. split; [|apply F4; lia].
        destruct (nth_error mk q) as [[]|] eqn:E; [|reflexivity|].
        -- apply (M3 q Hq) in E. lia.
        -- apply nth_error_None in E. lia.
      * eexists. split; [reflexivity|]. unfold field_of. rewrite (bo_flow_pad _ _ _ H) by lia. apply zeros_zero.
Qed.

(** The images, place by place. *)
Definition pictures (o : option SchedData) (a0 a1 : arr) : Prop :=
  match o with
  | Some s => sd_im1 s = Some a0 /\ sd_im2 s = Some a1
  | None => (forall v, In v (data a0) -> v = 0%Q) /\ (forall v, In v (data a1) -> v = 0%Q)
  end.

Lemma batch_pictures : forall n base x l b, batch_of n l b -> (forall i, i < n -> nth_error l i = x (base + i)) ->
  (forall i s, x i = Some s -> sd_im1 s <> None /\ sd_im2 s <> None) ->
  exists r1 r2, fd_images1 (fdata_of b) = Some r1 /\ fd_images2 (fdata_of b) = Some r2 /\
    List.length r1 = n /\ List.length r2 = n /\
    forall q, q < n -> exists a0 a1, nth_error r1 q = Some a0 /\ nth_error r2 q = Some a1 /\ pictures (x (base + q)) a0 a1.
Proof.
  intros n base x l b H HX HI.
  assert (NI : forall s, In s l -> sd_im1 s <> None /\ sd_im2 s <> None).
  { intros s Hs. apply In_nth_error in Hs. destruct Hs as (i & Hi). eapply (HI (base + i)). rewrite <- HX; [exact Hi|].
    pose proof (bo_len _ _ _ H). assert (i < List.length l) by (apply nth_error_Some; congruence). lia. }
  destruct (sd_im1 b) as [m1|] eqn:E1.
  2:{ destruct (proj1 (bo_im1_none _ _ _ H) E1) as (s & Hs & Z). destruct (NI s Hs). contradiction. }
  destruct (sd_im2 b) as [m2|] eqn:E2.
  2:{ destruct (proj1 (bo_im2_none _ _ _ H) E2) as (s & Hs & Z). destruct (NI s Hs). contradiction. }
  destruct (bo_im1 _ _ _ H _ E1) as (A1 & A2 & A3). destruct (bo_im2 _ _ _ H _ E2) as (B1 & B2 & B3).
  exists (rows m1), (rows m2). cbn [fdata_of fd_images1 fd_images2]. rewrite E1, E2.
  split; [reflexivity|]. split; [reflexivity|]. split; [unfold rows; now rewrite map_length, seq_length|].
  split; [unfold rows; now rewrite map_length, seq_length|]. intros q Hq.
  exists (row q m1), (row q m2). split; [apply nth_rows; lia|]. split; [apply nth_rows; lia|].
  specialize (HX q Hq). destruct (x (base + q)) as [s|].
  - split; [exact (A2 _ _ HX) | exact (B2 _ _ HX)].
  - apply nth_error_None in HX. unfold pictures. rewrite A3, B3 by lia. split; apply zeros_zero.
Qed.

(** * The file scheduler under a sampler *)
Lemma base_delivers : forall c C fl k fuel n, disk (c_loader c) C -> (c_randomize c = true -> perm_ok (c_rng c)) ->
  no_faults C fl -> uniform C fl -> epoch C fl <> [] -> 2 * List.length fl < fuel -> 0 < n ->
  exists x D S_, stream_of (c_randomize c) (c_loop c) C fl x /\
    (c_loop c = true -> delivers (base_sif c fuel) n (init c fl k) D S_ /\ forall j, x j <> None) /\
    (c_loop c = false -> exists J, last_batch n x J /\ delivers_upto (base_sif c fuel) n J (init c fl k) D S_) /\
    forall j, x (j * n) <> None -> carries field_of n (j * n) x (D j) /\
      exists l b, D j = fdata_of b /\ batch_of n l b /\ forall i, i < n -> nth_error l i = x (j * n + i).
Proof.
  intros c C fl k fuel n HD HP HF HU HE Hf Hn.
  destruct (base_calls c C fl k fuel n HD HP HF HU HE Hf Hn) as (x & ST & CA).
  set (S_ := before c fuel n (init c fl k)).
  set (D := fun j => match fst (get_batch c fuel n (S_ j)) with CReturn b => fdata_of b | _ => mkFdata [] None None None None end).
  assert (G : forall j, si_get (base_sif c fuel) n (S_ j) = (get_result (fst (get_batch c fuel n (S_ j))), S_ (j + 1))).
  { intros j. rewrite Nat.add_1_r. unfold S_. rewrite before_S. cbn [base_sif si_get].
    destruct (get_batch c fuel n (before c fuel n (init c fl k) j)). reflexivity. }
  assert (OK : forall j, x (j * n) <> None -> si_get (base_sif c fuel) n (S_ j) = (Ok (D j), S_ (j + 1))).
  { intros j Hj. rewrite G. unfold D. destruct (proj2 (CA j) Hj) as (b & l & E & _). fold S_ in E. rewrite E. reflexivity. }
  assert (STOP : forall j, x (j * n) = None -> si_get (base_sif c fuel) n (S_ j) = (Err StopIteration, S_ (j + 1))).
  { intros j Hj. rewrite G. pose proof (proj1 (CA j) Hj) as E. fold S_ in E. rewrite E. reflexivity. }
  exists x, D, S_. split; [exact ST|]. destruct ST as (P & P1 & P2 & P3 & P4). split; [|split].
  - intros HL. assert (NN : forall j, x j <> None) by (intros j; apply (P4 HL (S j) j); lia).
    split; [split; [reflexivity|]; intros j; apply OK, NN | exact NN].
  - intros HL. specialize (P3 HL). set (xs := epoch C (collapse (P 0))) in *.
    assert (NE : 1 <= List.length xs).
    { destruct xs as [|s r] eqn:Ex; [|cbn; lia]. exfalso. destruct (epoch C fl) as [|s r] eqn:Ee; [now apply HE|].
      assert (I : In s (epoch C (collapse (P 0)))).
      { apply (proj1 (epoch_collapse_in C _ _)). eapply epoch_perm_in; [apply Permutation_sym, P1|]. rewrite Ee. left. reflexivity. }
      fold xs in I. rewrite Ex in I. exact I. }
    set (J := (List.length xs + n - 1) / n).
    assert (JB : forall j, j < J <-> j * n < List.length xs).
    { intros j. unfold J. pose proof (Nat.div_mod (List.length xs + n - 1) n ltac:(lia)). pose proof (Nat.mod_upper_bound (List.length xs + n - 1) n ltac:(lia)). nia. }
    assert (JX : forall j, j < J <-> x (j * n) <> None) by (intros j; rewrite JB, P3; symmetry; apply nth_error_Some).
    exists J. split; [split; [|exact JX]; apply JB; lia|]. split; [reflexivity|].
    split; intros j Hj; [apply OK, JX, Hj|]. apply STOP. destruct (x (j * n)) eqn:E; [|reflexivity].
    assert (j < J) by (apply JX; congruence). lia.
  - intros j Hj. destruct (proj2 (CA j) Hj) as (b & l & E & Bo & Hl).
    assert (DE : D j = fdata_of b) by (unfold D; fold S_ in E; rewrite E; reflexivity). rewrite DE.
    split; [eapply batch_carries; eauto|]. exists l, b. auto.
Qed.

(** What is made from such a batch shows the slices. *)
Lemma made_shows : forall si oflow bflow img (c : scfg si oflow bflow img) (fld : option SchedData -> si_flow si -> Prop) x m d b,
  sizes_ok c -> sc_F c mod sc_nd c = 0 -> carries fld (sc_F c) ((m / sc_bpf c) * sc_F c) x d -> made_from c m d b ->
  List.length (ba_images b) = sc_B c /\ List.length (ba_flows b) = sc_B c /\
  forall i, i < sc_B c ->
    let q := source (sc_nd c) (sc_B c) (sc_F c) i in
    let o := x ((m / sc_bpf c) * sc_F c + q) in
    q < sc_F c /\ labelled (ba_mask b) (ba_files b) q o /\
    exists f, fld o f /\ nth_error (ba_flows b) i = Some (sc_adapt c f) /\
      nth_error (ba_images b) i =
        Some (sc_render c (device_key (sc_seed c) m (i / (sc_B c / sc_nd c))) (i mod (sc_B c / sc_nd c)) (sc_bounds c f)).
Proof.
  intros si oflow bflow img c fld x m d b OK FM [HL HC] (M1 & M2 & M3 & M4 & M5). rewrite HL in M3.
  split; [exact M1|]. split; [exact M2|]. intros i Hi q o.
  assert (Q : q < sc_F c) by (destruct OK as (O1 & O2 & O3 & O4 & O5 & O6); apply source_bound; assumption).
  destruct (HC q Q) as [La (f & N1 & N2)]. destruct (M3 i Hi) as (f' & N3 & N4 & N5). fold q in N3.
  rewrite N1 in N3. injection N3 as <-. split; [exact Q|]. split; [now rewrite M4, M5|]. exists f. auto.
Qed.

(** * The sampler over a scheduler that delivers the slices *)
Section Over.
Context {si : sif} {oflow bflow img : Type}.
Variable c : scfg si oflow bflow img.
Variables (fld : option SchedData -> si_flow si -> Prop) (x : nat -> option SchedData) (u : si_state si)
  (D : nat -> fdata (si_flow si) (si_img si)) (S_ : nat -> si_state si).
Hypothesis OK : sizes_ok c.
Hypothesis FM : sc_F c mod sc_nd c = 0.
Hypothesis GO : forall j, si_protocol si = true -> si_steps si (S_ j) <> 0%Z.
Hypothesis CA : forall j, x (j * sc_F c) <> None -> carries fld (sc_F c) (j * sc_F c) x (D j).

Definition shown (m : nat) (b : batch oflow img) : Prop :=
  List.length (ba_images b) = sc_B c /\ List.length (ba_flows b) = sc_B c /\
  forall i, i < sc_B c ->
    let q := source (sc_nd c) (sc_B c) (sc_F c) i in
    let o := x ((m / sc_bpf c) * sc_F c + q) in
    q < sc_F c /\ labelled (ba_mask b) (ba_files b) q o /\
    exists f, fld o f /\ nth_error (ba_flows b) i = Some (sc_adapt c f) /\
      nth_error (ba_images b) i =
        Some (sc_render c (device_key (sc_seed c) m (i / (sc_B c / sc_nd c))) (i mod (sc_B c / sc_nd c)) (sc_bounds c f)).

Lemma over_loop : delivers si (sc_F c) u D S_ -> (forall j, x j <> None) ->
  forall s m, fresh c s -> y_sched s = u ->
  exists b, nth_error (fst (srun c (repeat SNext (S m)) s)) m = Some (SBatch b) /\ shown m b.
Proof.
  intros [D0 DS] NN s m Fr Us. assert (Hb : 1 <= sc_bpf c) by apply OK.
  assert (SH : forall j, shardable c (D j)) by (intros j; split; [apply CA, NN | exact FM]).
  destruct (reuse_obs c OK u D S_ (S m) D0 (fun j _ => DS j) (fun j _ => SH j) GO s Fr Us m) as (b & E & M); [nia|].
  exists b. split; [rewrite obs_nth by lia; rewrite E; reflexivity|].
  exact (made_shows _ _ _ _ c fld x m (D (m / sc_bpf c)) b OK FM (CA _ (NN _)) M).
Qed.

Lemma over_upto : forall J, last_batch (sc_F c) x J -> delivers_upto si (sc_F c) J u D S_ ->
  forall s, fresh c s -> y_sched s = u ->
  (forall m, m < J * sc_bpf c ->
     exists b, nth_error (fst (srun c (repeat SNext (S m)) s)) m = Some (SBatch b) /\ shown m b) /\
  nth_error (fst (srun c (repeat SNext (S (J * sc_bpf c))) s)) (J * sc_bpf c) = Some (SRaise StopIteration).
Proof.
  intros J [J1 JX] (D0 & DS & DT) s Fr Us. assert (Hb : 1 <= sc_bpf c) by apply OK.
  assert (SH : forall j, j < J -> shardable c (D j)) by (intros j Hj; split; [apply CA, JX, Hj | exact FM]).
  split.
  - intros m Hm. destruct (reuse_obs c OK u D S_ J D0 DS SH GO s Fr Us m Hm) as (b & E & M).
    exists b. split; [rewrite obs_nth by lia; rewrite E; reflexivity|].
    apply (made_shows _ _ _ _ c fld x m (D (m / sc_bpf c)) b OK FM); [|exact M]. apply CA, JX. apply Nat.div_lt_upper_bound; lia.
  - rewrite obs_nth by lia. destruct (exhausted_obs c OK u D S_ J D0 DS SH GO s Fr Us J1 DT 0) as [A _].
    rewrite Nat.add_0_r in A. rewrite A; [reflexivity|]. apply Nat.mod_0_l. lia.
Qed.
End Over.

(** * Real images *)
Lemma real_nth : forall si B n (S_ : nat -> si_state si) (r : nat -> result (batch (si_flow si) (si_img si * si_img si))) K,
  (forall j, j < K -> real_next si B (S_ j) = (r j, S_ (S j))) ->
  forall j0, j0 + n <= K -> forall i, i < n -> nth_error (fst (real_run si B n (S_ j0))) i = Some (r (j0 + i)).
Proof.
  intros si B n S_ r K H. induction n as [|n IH]; intros j0 HK i Hi; [lia|]. cbn [real_run]. rewrite H by lia.
  destruct (real_run si B n (S_ (S j0))) as [rs u2] eqn:E. cbn [fst]. destruct i as [|i]; [cbn; now rewrite Nat.add_0_r|].
  cbn [nth_error]. specialize (IH (S j0) ltac:(lia) i ltac:(lia)). rewrite E in IH. cbn [fst] in IH. rewrite IH. do 2 f_equal. lia.
Qed.

Lemma nth_combine : forall A B (a : list A) (b : list B) i y z, nth_error a i = Some y -> nth_error b i = Some z ->
  nth_error (combine a b) i = Some (y, z).
Proof.
  intros A B a; induction a as [|y' a IH]; intros [|z' b] [|i] y z Ha Hb; try discriminate; cbn in *; [congruence|]. eapply IH; eauto.
Qed.

Lemma real_call : forall si B u d u' r1 r2, si_get si B u = (Ok d, u') -> fd_images1 d = Some r1 -> fd_images2 d = Some r2 ->
  (si_protocol si = true -> si_steps si u <> 0%Z) ->
  exists b, real_next si B u = (Ok b, u') /\ ba_images b = combine r1 r2 /\ ba_flows b = fd_flows d /\
    ba_mask b = fd_mask d /\ ba_files b = fd_files d.
Proof.
  intros si B u d u' r1 r2 G I1 I2 GO. unfold real_next, sampler_next, real_get_next. rewrite G, I1, I2.
  assert (E : andb (si_protocol si) (si_steps si u =? 0)%Z = false).
  { destruct (si_protocol si); [|reflexivity]. apply Z.eqb_neq, GO. reflexivity. }
  rewrite E. destruct (si_protocol si); eexists; (split; [reflexivity|]); cbn; auto.
Qed.

Section OverReal.
Variable si : sif.
Variables (B : nat) (fld : option SchedData -> si_flow si -> Prop) (pic : option SchedData -> si_img si -> si_img si -> Prop)
  (x : nat -> option SchedData) (D : nat -> fdata (si_flow si) (si_img si)) (S_ : nat -> si_state si).
Hypothesis GO : forall j, si_protocol si = true -> si_steps si (S_ j) <> 0%Z.
Hypothesis CA : forall j, x (j * B) <> None -> carries fld B (j * B) x (D j) /\
  exists r1 r2, fd_images1 (D j) = Some r1 /\ fd_images2 (D j) = Some r2 /\ List.length r1 = B /\ List.length r2 = B /\
    forall q, q < B -> exists a0 a1, nth_error r1 q = Some a0 /\ nth_error r2 q = Some a1 /\ pic (x (j * B + q)) a0 a1.

Definition shown_real (m : nat) (b : batch (si_flow si) (si_img si * si_img si)) : Prop :=
  List.length (ba_images b) = B /\ List.length (ba_flows b) = B /\
  forall i, i < B ->
    let o := x (m * B + i) in
    labelled (ba_mask b) (ba_files b) i o /\
    exists f a0 a1, fld o f /\ nth_error (ba_flows b) i = Some f /\ nth_error (ba_images b) i = Some (a0, a1) /\ pic o a0 a1.

Lemma real_shown : forall j, x (j * B) <> None -> si_get si B (S_ j) = (Ok (D j), S_ (j + 1)) ->
  exists b, real_next si B (S_ j) = (Ok b, S_ (j + 1)) /\ shown_real j b.
Proof.
  intros j Hj G. destruct (CA j Hj) as ((L1 & C1) & r1 & r2 & I1 & I2 & L2 & L3 & P).
  destruct (real_call si B _ _ _ r1 r2 G I1 I2 (GO j)) as (b & E & M1 & M2 & M3 & M4). exists b. split; [exact E|].
  unfold shown_real. rewrite M1, M2, M3, M4, combine_length, L2, L3, Nat.min_id. split; [reflexivity|]. split; [exact L1|].
  intros i Hi. cbv zeta. destruct (C1 i Hi) as (La & f & N1 & N2). split; [exact La|].
  destruct (P i Hi) as (a0 & a1 & Q1 & Q2 & Q3). exists f, a0, a1. split; [exact N2|]. split; [exact N1|].
  split; [apply nth_combine; assumption | exact Q3].
Qed.

Lemma real_loop : forall u, delivers si B u D S_ -> (forall j, x j <> None) ->
  forall m, exists b, nth_error (fst (real_run si B (S m) u)) m = Some (Ok b) /\ shown_real m b.
Proof.
  intros u [<- DS] NN m. set (r := fun j => fst (real_next si B (S_ j))).
  assert (H : forall j, j < S m -> real_next si B (S_ j) = (r j, S_ (S j))).
  { intros j _. destruct (real_shown j (NN _) (DS j)) as (b & E & _). unfold r. rewrite E. cbn. now rewrite Nat.add_1_r. }
  rewrite (real_nth si B (S m) S_ r (S m) H 0) by lia. destruct (real_shown m (NN _) (DS m)) as (b & E & SH).
  exists b. cbn [Nat.add]. unfold r. rewrite E. auto.
Qed.

Lemma real_upto : forall u J, last_batch B x J -> delivers_upto si B J u D S_ ->
  (forall m, m < J -> exists b, nth_error (fst (real_run si B (S m) u)) m = Some (Ok b) /\ shown_real m b) /\
  (forall m, J <= m -> nth_error (fst (real_run si B (S m) u)) m = Some (Err StopIteration)).
Proof.
  intros u J [J1 JX] (<- & DS & DT). set (r := fun j => fst (real_next si B (S_ j))).
  assert (ST : forall j, J <= j -> real_next si B (S_ j) = (Err StopIteration, S_ (j + 1))).
  { intros j Hj. unfold real_next, sampler_next, real_get_next. rewrite (DT j Hj).
    assert (E : andb (si_protocol si) (si_steps si (S_ j) =? 0)%Z = false).
    { destruct (si_protocol si) eqn:P; [|reflexivity]. apply Z.eqb_neq, GO, eq_refl. }
    rewrite E. reflexivity. }
  assert (H : forall K j, j < K -> real_next si B (S_ j) = (r j, S_ (S j))).
  { intros K j _. unfold r. rewrite <- Nat.add_1_r. destruct (Nat.lt_ge_cases j J) as [L|L].
    - destruct (real_shown j (proj1 (JX j) L) (DS j L)) as (b & E & _). rewrite E. reflexivity.
    - rewrite (ST j L). reflexivity. }
  split; intros m Hm; rewrite (real_nth si B (S m) S_ r (S m) (H (S m)) 0) by lia; cbn [Nat.add]; unfold r.
  - destruct (real_shown m (proj1 (JX m) Hm) (DS m Hm)) as (b & E & SH). exists b. rewrite E. auto.
  - rewrite (ST m Hm). reflexivity.
Qed.
End OverReal.


(** * A scheduler whose [next_episode] does nothing *)
Section Unbroken.
Context {si : sif} {oflow bflow img : Type}.
Variable c : scfg si oflow bflow img.
Variables (D : nat -> fdata (si_flow si) (si_img si)) (At : nat -> si_state si -> Prop).
Hypothesis OK : sizes_ok c.
Hypothesis SH : forall j, shardable c (D j).
Hypothesis PT : si_protocol si = true.
Hypothesis GO : forall u, si_steps si u = 1%Z.
Hypothesis GET : forall j u, At j u -> exists u', si_get si (sc_F c) u = (Ok (D j), u') /\ At (S j) u'.
Hypothesis NXT : forall j u, At j u -> exists u', si_next si u = (Ok tt, u') /\ At j u'.

Definition made (m : nat) (s : sst si oflow bflow) : Prop :=
  y_rng s = chain (Seed (sc_seed c)) m /\
  match m with
  | 0 => y_cur s = CurNone /\ At 0 (y_sched s)
  | S k => running c s (D (k / sc_bpf c)) m (S (k mod sc_bpf c)) /\ At (S (k / sc_bpf c)) (y_sched s)
  end.

Lemma made_next : forall m s, made m s -> exists b s', syn_get_next c s = (Ok b, s') /\ made_from c m (D (m / sc_bpf c)) b /\ made (S m) s'.
Proof.
  intros m s [R M]. assert (Hb : 1 <= sc_bpf c) by apply OK.
  assert (NEW : m mod sc_bpf c = 0 -> match y_cur s with CurNone => true | _ => sc_bpf c <=? y_gen s end = true ->
     At (m / sc_bpf c) (y_sched s) ->
     exists b s', syn_get_next c s = (Ok b, s') /\ made_from c m (D (m / sc_bpf c)) b /\ made (S m) s').
  { intros E0 N A. destruct (GET _ _ A) as (u' & G & A').
    destruct (get_next_new c s _ u' m OK N G (SH _) R) as (b & s' & E & MF & _ & U & RU).
    exists b, s'. split; [exact E|]. split; [exact MF|]. split; [apply RU|]. rewrite E0, U. auto. }
  destruct m as [|k].
  - destruct M as [C A]. apply NEW; [apply Nat.mod_0_l; lia | now rewrite C |]. rewrite Nat.div_0_l by lia. exact A.
  - destruct M as [RU A]. pose proof (Nat.div_mod k (sc_bpf c) ltac:(lia)) as DM. pose proof (Nat.mod_upper_bound k (sc_bpf c) ltac:(lia)) as MB.
    destruct (Nat.eq_dec (S (k mod sc_bpf c)) (sc_bpf c)) as [E|NE].
    + assert (Q : S k / sc_bpf c = S (k / sc_bpf c)) by (symmetry; apply (Nat.div_unique (S k) (sc_bpf c) (S (k / sc_bpf c)) 0); lia).
      assert (Z : S k mod sc_bpf c = 0) by (symmetry; apply (Nat.mod_unique (S k) (sc_bpf c) (S (k / sc_bpf c)) 0); lia).
      apply NEW; [exact Z| |rewrite Q; exact A].
      destruct RU as (C1 & _ & C3 & _). rewrite C1, C3, E. unfold cur_of. apply Nat.leb_refl.
    + assert (Q : S k / sc_bpf c = k / sc_bpf c) by (symmetry; apply (Nat.div_unique (S k) (sc_bpf c) (k / sc_bpf c) (S (k mod sc_bpf c))); lia).
      assert (Z : S k mod sc_bpf c = S (k mod sc_bpf c)) by (symmetry; apply (Nat.mod_unique (S k) (sc_bpf c) (k / sc_bpf c) (S (k mod sc_bpf c))); lia).
      destruct (get_next_old c s _ (S k) _ OK (SH _) RU ltac:(lia)) as (b & s' & E & MF & _ & U & RU').
      exists b, s'. rewrite Q. split; [exact E|]. split; [exact MF|]. split; [apply RU'|]. rewrite Z, U, Q. auto.
Qed.

Lemma unbroken_run : forall ops m s, Forall (fun o => o = SNext \/ o = SNextEpisode) ops -> made m s ->
  unbroken c D m ops (fst (srun c ops s)).
Proof.
  induction ops as [|o ops IH]; intros m s HF M; [exact I|]. inversion HF as [|? ? Ho HF']; subst. cbn [srun].
  destruct Ho as [->| ->]; cbn [do_sop].
  - destruct (made_next m s M) as (b & s' & E & MF & M').
    pose proof (next_of c s b s' ltac:(intros _; rewrite GO; discriminate) E) as N. rewrite PT, GO in N. rewrite N.
    specialize (IH (S m) s' HF' M'). destruct (srun c ops s') as [rs s2]. cbn [fst unbroken] in *.
    split; [|exact IH]. eexists. split; [reflexivity|]. split; [apply made_done, MF | reflexivity].
  - assert (A : exists j, At j (y_sched s)) by (destruct M as [_ M]; destruct m; destruct M as [_ M]; eauto).
    unfold syn_next_episode. rewrite PT.
    assert (NX : exists u', si_next si (y_sched s) = (Ok tt, u') /\ made m (set_sched s u')).
    { destruct M as [R M]. destruct m as [|k].
      - destruct M as [C A']. destruct (NXT _ _ A') as (u' & G & A2). exists u'. split; [exact G|]. split; [exact R|]. split; [exact C | exact A2].
      - destruct M as [RU A']. destruct (NXT _ _ A') as (u' & G & A2). exists u'. split; [exact G|]. split; [exact R|]. split; [exact RU | exact A2]. }
    destruct NX as (u' & G & M'). rewrite G. specialize (IH m _ HF' M'). destruct (srun c ops (set_sched s u')) as [rs s2].
    cbn [fst unbroken] in *. auto.
Qed.
End Unbroken.

(** The prefetcher without episodes is one. *)
Section Plain.
Variables (si : sif) (B N : nat) (u : si_state si) (D : nat -> fdata (si_flow si) (si_img si)) (S_ : nat -> si_state si).
Hypothesis Npos : 1 <= N.
Hypothesis DE : delivers si B u D S_.

Definition src (v : si_state si) (g : nat) : Prop := v = S_ g.
Lemma plain_feeds : forall v g, src v g -> live None g ->
  (exists u', sc_get (sched_of si None B) v = (GBatch (D g), u') /\ src u' (S g)) \/
  (exists u1 u2 u3, (None : option nat) <> None /\ sc_get (sched_of si None B) v = (GEpisodeEnd, u1) /\ sc_next (sched_of si None B) u1 = Some u2 /\
     src u2 g /\ sc_get (sched_of si None B) u2 = (GBatch (D g), u3) /\ src u3 (S g)).
Proof. intros v g -> _. left. exists (S_ (g + 1)). split; [apply sched_get_ok, DE|]. unfold src. f_equal; lia. Qed.

Definition taken (j : nat) (x : tst si None B) : Prop :=
  p_pc (t_st x) = CIdle /\ prompt (t_time x) /\ holds si None B None D src j (t_st x).

Lemma taken_get : forall j x, taken j x -> exists x', pf_get si None B N B x = (Ok (D j), x') /\ taken (S j) x'.
Proof.
  intros j x (P & PX & H).
  destruct (pf_get_data si None B N Npos None D src plain_feeds ltac:(discriminate) ltac:(discriminate) j x H P PX ltac:(discriminate)) as (s' & P' & _ & _ & [(_ & E & H') | (EJ & _)]); [|discriminate].
  eexists; split; [exact E|]. split; [exact P'|]. split; [apply prompt_later, PX | exact H'].
Qed.

Lemma taken_next : forall j x, taken j x -> exists x', pf_next si None B N x = (Ok tt, x') /\ taken j x'.
Proof.
  intros j x (P & PX & H). unfold pf_next. set (tm := t_time x) in *. destruct (PX 0) as (P5 & PF0 & PF1).
  destruct (wait_exec si None B N (fst (tm 0)) (t_st x)) as (_ & _ & _ & _ & _ & P0 & T0 & S0 & _).
  assert (H0 : holds si None B None D src j (wait si None B N (fst (tm 0)) (t_st x))).
  { unfold wait. rewrite PF0. eapply holds_wrun; [exact Npos | exact plain_feeds | discriminate | discriminate | exact H]. }
  set (s0 := wait si None B N (fst (tm 0)) (t_st x)) in *.
  assert (E1 : Prefetch.pstep (sched_of si None B) B N s0 LCallNext = Some ([EvNext], s0)).
  { unfold Prefetch.pstep. rewrite P0, P. reflexivity. }
  rewrite E1. eexists; split; [reflexivity|]. cbn [pf_discard]. split; [cbn; congruence|]. split; [apply prompt_later, PX | exact H0].
Qed.

Lemma taken_init : forall tm, prompt tm -> taken 0 (mkTst (pinit (sched_of si None B) u) tm).
Proof.
  intros tm PR. split; [reflexivity|]. split; [exact PR|]. unfold holds. cbn. repeat split; auto. destruct DE as [E _]. unfold src. congruence.
Qed.
End Plain.
