(** Sampler: assembling one batch, and running the batch loop. *)
From Coq Require Import List Arith ZArith String Bool Lia.
From Verif Require Import Prelude Model.Sampler Spec.SamplerSpec.
Import ListNotations.
Local Open Scope nat_scope.

(** * Lists in blocks *)
Lemma nth_error_blocks : forall A (f : nat -> list A) b n k i, 0 < b ->
  (forall d, k <= d < k + n -> List.length (f d) = b) -> i < n * b ->
  nth_error (flat_map f (seq k n)) i = nth_error (f (k + i / b)) (i mod b).
Proof.
  intros A f b n; induction n as [|n IH]; intros k i Hb Hl Hi; [lia|]. cbn [seq flat_map].
  assert (L0 : List.length (f k) = b) by (apply Hl; lia).
  destruct (Nat.lt_ge_cases i b) as [C|C].
  - rewrite nth_error_app1 by lia. rewrite Nat.div_small, Nat.mod_small, Nat.add_0_r by lia. reflexivity.
  - rewrite nth_error_app2 by lia. rewrite L0, IH; [|lia|intros; apply Hl; lia|lia].
    assert (E : i = (i - b) + 1 * b) by lia.
    rewrite E at 3 4. rewrite Nat.div_add, Nat.mod_add by lia. f_equal. f_equal. lia.
Qed.

Lemma length_blocks : forall A (f : nat -> list A) b n k,
  (forall d, k <= d < k + n -> List.length (f d) = b) -> List.length (flat_map f (seq k n)) = n * b.
Proof.
  intros A f b n; induction n as [|n IH]; intros k Hl; cbn [seq flat_map]; [reflexivity|].
  rewrite app_length, IH by (intros; apply Hl; lia). rewrite Hl by lia. lia.
Qed.

Lemma nth_error_repeat_concat : forall A (l : list A) r j, j < r * List.length l ->
  nth_error (List.concat (repeat l r)) j = nth_error l (j mod List.length l).
Proof.
  intros A l r j H.
  assert (E : List.concat (repeat l r) = flat_map (fun _ => l) (seq 0 r)).
  { clear H. generalize 0. induction r as [|r IH]; intros k; cbn; [reflexivity|]. f_equal. apply IH. }
  rewrite E. destruct l as [|a l]; [cbn in H; lia|].
  rewrite (nth_error_blocks _ (fun _ => a :: l) (List.length (a :: l))); auto. cbn; lia.
Qed.

Lemma length_repeat_concat : forall A (l : list A) r, List.length (List.concat (repeat l r)) = r * List.length l.
Proof. induction r; cbn; [reflexivity|]. rewrite app_length. lia. Qed.

Lemma tile_enough : forall b n, 0 < n -> b <= (b + n - 1) / n * n.
Proof.
  intros b n H. pose proof (Nat.div_mod (b + n - 1) n). pose proof (Nat.mod_upper_bound (b + n - 1) n).
  set (q := (b + n - 1) / n) in *. nia.
Qed.

Lemma tile_length : forall A b (l : list A), l <> [] -> List.length (tile_flows b l) = b.
Proof.
  intros A b l H. unfold tile_flows. rewrite firstn_length, length_repeat_concat.
  assert (0 < List.length l) by (destruct l; cbn; [congruence | lia]).
  pose proof (tile_enough b (List.length l)). lia.
Qed.

Lemma nth_error_firstn : forall A n (l : list A) i, i < n -> nth_error (firstn n l) i = nth_error l i.
Proof.
  intros A n; induction n as [|n IH]; intros [|a l] [|i] H; cbn; try lia; auto. apply IH. lia.
Qed.

Lemma nth_error_skipn : forall A n (l : list A) i, nth_error (skipn n l) i = nth_error l (n + i).
Proof. intros A n; induction n as [|n IH]; intros [|a l] i; cbn; auto. destruct i; auto. Qed.

Lemma tile_nth : forall A b (l : list A) j, l <> [] -> j < b ->
  nth_error (tile_flows b l) j = nth_error l (j mod List.length l).
Proof.
  intros A b l j H K. unfold tile_flows. rewrite nth_error_firstn by assumption.
  apply nth_error_repeat_concat.
  assert (0 < List.length l) by (destruct l; cbn; [congruence | lia]).
  pose proof (tile_enough b (List.length l)). lia.
Qed.

(** * Sharding *)
Definition chunk {A} (c : nat) (l : list A) (d : nat) : list A := firstn c (skipn (d * c) l).

Lemma chunk_map : forall A B (f : A -> B) c l d, map f (chunk c l d) = chunk c (map f l) d.
Proof. intros. unfold chunk. rewrite skipn_map, firstn_map. reflexivity. Qed.

Lemma chunk_length : forall A c (l : list A) d n, List.length l = n * c -> d < n -> List.length (chunk c l d) = c.
Proof. intros A c l d n H K. unfold chunk. rewrite firstn_length, skipn_length. nia. Qed.

Lemma chunk_nth : forall A c (l : list A) d j, j < c -> nth_error (chunk c l d) j = nth_error l (d * c + j).
Proof. intros A c l d j H. unfold chunk. rewrite nth_error_firstn by assumption. apply nth_error_skipn. Qed.

Lemma shard_ok : forall A nd (l : list A), List.length l mod nd = 0 ->
  shard nd l = Ok (map (chunk (List.length l / nd) l) (seq 0 nd)).
Proof. intros A nd l H. unfold shard. rewrite H. reflexivity. Qed.

Lemma combine_seq : forall A (f : nat -> A) n k,
  combine (seq k n) (map f (seq k n)) = map (fun d => (d, f d)) (seq k n).
Proof. intros A f n; induction n as [|n IH]; intros k; cbn; [reflexivity|]. f_equal. apply IH. Qed.

Section Syn.
Context {si : sif} {oflow bflow img : Type}.
Variable c : scfg si oflow bflow img.
Notation st := (sst si oflow bflow).
Notation data := (fdata (si_flow si) (si_img si)).

Definition cur_of (d : data) : current oflow bflow :=
  CurFlows (flat_map (fun l => tile_flows (sc_B c / sc_nd c) (map (sc_adapt c) l))
              (map (chunk (List.length (fd_flows d) / sc_nd c) (fd_flows d)) (seq 0 (sc_nd c))))
           (map (sc_bounds c) (fd_flows d)).

Lemma div_exact_mul : forall a n, 1 <= n -> a mod n = 0 -> a = n * (a / n).
Proof. intros a n H K. pose proof (Nat.div_mod a n). lia. Qed.

Lemma make_sizes : forall nd BS F bpf seed (adapt : si_flow si -> oflow) bounds (render : key -> nat -> bflow -> img) c',
  make_scfg si nd BS F bpf seed adapt bounds render = Ok c' ->
  sizes_ok c' /\ sc_B c' = round_batch BS nd /\ sc_bpf c' = (if si_class si then 1 else bpf) /\ sc_F c' = F /\ sc_nd c' = nd /\ BS <= sc_B c' < BS + nd.
Proof.
  intros nd BS F bpf seed adapt bounds render c' H. unfold make_scfg in H.
  destruct (Nat.eqb_spec nd 0); [discriminate|]. destruct (Nat.eqb_spec BS 0); [discriminate|].
  destruct (Nat.eqb_spec bpf 0); [discriminate|]. destruct (Nat.eqb_spec F 0); [discriminate|].
  destruct (Nat.ltb_spec BS F); [discriminate|]. injection H as <-. cbn.
  assert (R : BS <= round_batch BS nd < BS + nd /\ round_batch BS nd mod nd = 0).
  { unfold round_batch. destruct (Nat.eqb_spec (BS mod nd) 0); [lia|].
    pose proof (Nat.div_mod BS nd). pose proof (Nat.mod_upper_bound BS nd).
    rewrite Nat.mod_mul by assumption. set (q := BS / nd) in *. split; [|reflexivity]. nia. }
  destruct R as [R1 R2]. unfold sizes_ok. cbn. repeat split; auto; try lia.
  destruct (si_class si); lia.
Qed.

Lemma source_lt : forall i, sizes_ok c -> sc_F c mod sc_nd c = 0 -> i < sc_B c ->
  source (sc_nd c) (sc_B c) (sc_F c) i < sc_F c.
Proof.
  intros i (N1 & _ & F1 & _ & B1 & BM) FM H. unfold source.
  pose proof (div_exact_mul _ _ N1 BM) as EB. pose proof (div_exact_mul _ _ N1 FM) as EF.
  set (b := sc_B c / sc_nd c) in *. set (f := sc_F c / sc_nd c) in *.
  assert (0 < b) by nia. assert (0 < f) by nia.
  assert (i / b < sc_nd c) by (apply Nat.div_lt_upper_bound; lia).
  pose proof (Nat.mod_upper_bound (i mod b) f). nia.
Qed.

(** Fetching. *)
Lemma fetch_ok : forall (s : st) d u, sizes_ok c ->
  match y_cur s with CurNone => true | _ => sc_bpf c <=? y_gen s end = true ->
  si_get si (sc_F c) (y_sched s) = (Ok d, u) -> shardable c d ->
  syn_fetch c s = (Ok tt, mkSst u (y_rng s) (cur_of d) 0 (fd_mask d) (fd_files d)).
Proof.
  intros s d u Hs Hn Hg [E M]. unfold syn_fetch. rewrite Hn, Hg.
  rewrite shard_ok by (rewrite E; assumption). reflexivity.
Qed.

(** Generating. *)
Lemma generate_ok : forall (s : st) d m, sizes_ok c -> shardable c d ->
  y_cur s = cur_of d -> y_rng s = chain (Seed (sc_seed c)) m ->
  y_mask s = fd_mask d -> y_files s = fd_files d ->
  exists b, syn_generate c s =
      (Ok b, mkSst (y_sched s) (chain (Seed (sc_seed c)) (S m)) (y_cur s) (S (y_gen s)) (y_mask s) (y_files s)) /\
    made_from c m d b /\ ba_done b = None.
Proof.
  intros s d m Hs [EF FM] Hc Hr Hm Hf. unfold syn_generate. rewrite Hc. unfold cur_of. cbv beta iota zeta.
  assert (EL : List.length (map (sc_bounds c) (fd_flows d)) = sc_F c) by (rewrite map_length; assumption).
  destruct (map (sc_bounds c) (fd_flows d)) as [|dflt rest] eqn:EB.
  { destruct Hs as (_ & _ & F1 & _). cbn in EL. lia. }
  rewrite <- EB. rewrite <- EB in EL. rewrite shard_ok by (rewrite EL; assumption).
  rewrite EL. rewrite combine_seq.
  destruct Hs as (N1 & _ & F1 & FB & B1 & BM).
  pose proof (div_exact_mul _ _ N1 BM) as EB2. pose proof (div_exact_mul _ _ N1 FM) as EF2.
  set (nd := sc_nd c) in *. set (b := sc_B c / nd) in *. set (f := sc_F c / nd) in *.
  assert (B0 : 0 < b) by nia. assert (F0 : 0 < f) by nia.
  set (flows := flat_map _ (map (chunk _ (fd_flows d)) (seq 0 nd))).
  set (imgs := flat_map _ (map _ (seq 0 nd))).
  exists (mkBatch imgs flows None (y_mask s) (y_files s)).
  split; [rewrite Hr; reflexivity|]. split; [|reflexivity].
  assert (CL : forall d', 0 <= d' < 0 + nd -> List.length (chunk f (fd_flows d) d') = f).
  { intros d' Hd. apply (chunk_length _ f _ d' nd); [rewrite EF; lia | lia]. }
  assert (E1 : flows = flat_map (fun d' => tile_flows b (map (sc_adapt c) (chunk f (fd_flows d) d'))) (seq 0 nd)).
  { unfold flows. rewrite EF. fold f. rewrite !flat_map_concat_map, map_map. reflexivity. }
  assert (E2 : imgs = flat_map (fun d' => gen_images (sc_render c) (Child (Child (y_rng s) 1) d') b
                                 (chunk f (map (sc_bounds c) (fd_flows d)) d') dflt) (seq 0 nd)).
  { unfold imgs. rewrite !flat_map_concat_map, map_map. reflexivity. }
  assert (L1 : forall d', 0 <= d' < 0 + nd ->
     List.length (tile_flows b (map (sc_adapt c) (chunk f (fd_flows d) d'))) = b).
  { intros d' Hd. apply tile_length. intros K. apply map_eq_nil in K. specialize (CL d' Hd). rewrite K in CL. cbn in CL. lia. }
  assert (L2 : forall d', 0 <= d' < 0 + nd ->
     List.length (gen_images (sc_render c) (Child (Child (y_rng s) 1) d') b
                                 (chunk f (map (sc_bounds c) (fd_flows d)) d') dflt) = b).
  { intros d' Hd. unfold gen_images. rewrite map_length, seq_length. reflexivity. }
  unfold made_from. cbn [ba_images ba_flows ba_mask ba_files]. rewrite EF.
  split; [rewrite E2, (length_blocks _ _ b) by assumption; lia|].
  split; [rewrite E1, (length_blocks _ _ b) by assumption; lia|].
  split; [|split; assumption].
  intros i Hi.
  assert (Hd : i / b < nd) by (apply Nat.div_lt_upper_bound; lia).
  assert (Hj : i mod b < b) by (apply Nat.mod_upper_bound; lia).
  assert (Hjf : (i mod b) mod f < f) by (apply Nat.mod_upper_bound; lia).
  assert (SL : source nd (sc_B c) (sc_F c) i < List.length (fd_flows d)).
  { rewrite EF. unfold source. fold b f. nia. }
  destruct (nth_error (fd_flows d) (source nd (sc_B c) (sc_F c) i)) as [fl|] eqn:En;
    [|apply nth_error_None in En; lia].
  assert (SE : source nd (sc_B c) (sc_F c) i = (i / b) * f + (i mod b) mod f) by reflexivity.
  exists fl. split; [exact En|]. split.
  - rewrite E1, (nth_error_blocks _ _ b) by (try assumption; lia). rewrite Nat.add_0_l, tile_nth.
    + rewrite map_length, CL by lia. rewrite nth_error_map, chunk_nth by assumption.
      rewrite <- SE, En. reflexivity.
    + intros K. apply map_eq_nil in K. specialize (CL (i / b)). rewrite K in CL. cbn in CL. lia.
    + assumption.
  - rewrite E2, (nth_error_blocks _ _ b) by (try assumption; lia). rewrite Nat.add_0_l. unfold gen_images.
    rewrite nth_error_map.
    assert (Q : nth_error (seq 0 b) (i mod b) = Some (i mod b)).
    { rewrite (nth_error_nth' _ 0) by (rewrite seq_length; assumption). rewrite seq_nth by assumption. reflexivity. }
    rewrite Q. cbn [option_map]. f_equal. unfold device_key. rewrite Hr. f_equal.
    rewrite <- chunk_map, map_length, CL by lia.
    apply nth_error_nth. rewrite nth_error_map, chunk_nth by assumption. rewrite <- SE, En. reflexivity.
Qed.

(** [next] when new flow fields are needed, resp. not needed. *)
Definition running (s : st) (d : data) (m g : nat) : Prop :=
  y_cur s = cur_of d /\ y_rng s = chain (Seed (sc_seed c)) m /\ y_gen s = g /\
  y_mask s = fd_mask d /\ y_files s = fd_files d.

Lemma get_next_new : forall (s : st) d u m, sizes_ok c ->
  match y_cur s with CurNone => true | _ => sc_bpf c <=? y_gen s end = true ->
  si_get si (sc_F c) (y_sched s) = (Ok d, u) -> shardable c d ->
  y_rng s = chain (Seed (sc_seed c)) m ->
  exists b s', syn_get_next c s = (Ok b, s') /\ made_from c m d b /\ ba_done b = None /\
    y_sched s' = u /\ running s' d (S m) 1.
Proof.
  intros s d u m Hs Hn Hg Hd Hr. unfold syn_get_next. rewrite (fetch_ok s d u Hs Hn Hg Hd).
  destruct (generate_ok (mkSst u (y_rng s) (cur_of d) 0 (fd_mask d) (fd_files d)) d m Hs Hd eq_refl Hr eq_refl eq_refl)
    as (b & E & M & D0).
  cbn [y_sched y_cur y_gen y_mask y_files] in E.
  eexists b, _. split; [exact E|]. repeat split; auto; apply M.
Qed.

Lemma get_next_old : forall (s : st) d m g, sizes_ok c -> shardable c d ->
  running s d m g -> g < sc_bpf c ->
  exists b s', syn_get_next c s = (Ok b, s') /\ made_from c m d b /\ ba_done b = None /\
    y_sched s' = y_sched s /\ running s' d (S m) (S g).
Proof.
  intros s d m g Hs Hd (R1 & R2 & R3 & R4 & R5) Hg. unfold syn_get_next, syn_fetch.
  assert (N : match y_cur s with CurNone => true | _ => sc_bpf c <=? y_gen s end = false).
  { rewrite R1, R3. unfold cur_of. apply Nat.leb_gt. assumption. }
  rewrite N. destruct (generate_ok s d m Hs Hd R1 R2 R4 R5) as (b & E & M & D0).
  eexists b, _. split; [exact E|]. cbn. rewrite R3. unfold running. cbn. repeat split; auto; apply M.
Qed.

Lemma made_done : forall m d (b : batch oflow img) x, made_from c m d b -> made_from c m d (set_done b x).
Proof. intros m d b x H. exact H. Qed.

(** [__next__] with the episode bookkeeping. *)
Lemma next_of : forall (s : st) b s',
  (si_protocol si = true -> si_steps si (y_sched s) <> 0%Z) -> syn_get_next c s = (Ok b, s') ->
  syn_next c s = (Ok (if si_protocol si then set_done b (repeat (si_steps si (y_sched s') =? 0)%Z (sc_B c)) else b), s').
Proof.
  intros s b s' H E. unfold syn_next, sampler_next.
  assert (K : (si_protocol si && (si_steps si (y_sched s) =? 0)%Z)%bool = false).
  { destruct (si_protocol si); [|reflexivity]. apply Z.eqb_neq. auto. }
  rewrite K, E. reflexivity.
Qed.

Lemma srun_app : forall ops1 ops2 (s : st),
  srun c (ops1 ++ ops2) s =
  (fst (srun c ops1 s) ++ fst (srun c ops2 (snd (srun c ops1 s))), snd (srun c ops2 (snd (srun c ops1 s)))).
Proof.
  induction ops1 as [|o ops1 IH]; intros ops2 s; cbn [app srun].
  - cbn [fst snd app]. destruct (srun c ops2 s); reflexivity.
  - destruct (do_sop c o s) as [r s1]. rewrite IH. destruct (srun c ops1 s1) as [rs s2]. reflexivity.
Qed.

Lemma srun_length : forall ops (s : st), List.length (fst (srun c ops s)) = List.length ops.
Proof.
  induction ops as [|o ops IH]; intros s; cbn; [reflexivity|]. destruct (do_sop c o s) as [r s1].
  specialize (IH s1). destruct (srun c ops s1). cbn in *. lia.
Qed.

(** The [m]-th observation is the one of the call made in the state after [m] calls. *)
Definition after (m : nat) (s : st) : st := snd (srun c (repeat SNext m) s).

Lemma repeat_snoc : forall A (x : A) n, repeat x (S n) = repeat x n ++ [x].
Proof. induction n; cbn; [reflexivity|]. f_equal. assumption. Qed.

Lemma after_S : forall m s, after (S m) s = snd (do_sop c SNext (after m s)).
Proof.
  intros m s. unfold after. rewrite repeat_snoc, srun_app. cbn [snd srun].
  destruct (do_sop c SNext (snd (srun c (repeat SNext m) s))). reflexivity.
Qed.

Lemma obs_nth : forall m n s, m < n ->
  nth_error (fst (srun c (repeat SNext n) s)) m = Some (fst (do_sop c SNext (after m s))).
Proof.
  intros m n s H. replace n with (m + S (n - S m)) by lia. rewrite repeat_app, srun_app. cbn [fst].
  rewrite nth_error_app2 by (rewrite srun_length, repeat_length; lia).
  rewrite srun_length, repeat_length, Nat.sub_diag. cbn [repeat srun]. unfold after.
  destruct (do_sop c SNext (snd (srun c (repeat SNext m) s))) as [r s1].
  destruct (srun c (repeat SNext (n - S m)) s1). reflexivity.
Qed.

Lemma init_fresh : forall u, fresh c (syn_init c u).
Proof. intros; repeat split. Qed.

Lemma reset_fresh : forall r s, fresh c (syn_reset c r s).
Proof. intros [] s; repeat split. Qed.
End Syn.
