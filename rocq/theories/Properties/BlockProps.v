(** More of C04 and C11: which batches carry images, and errors in every mode. *)
From Coq Require Import List Arith String Bool Permutation Lia QArith.
From Verif Require Import Prelude Model.Base Spec.BaseSpec.
From Verif Require Import Proofs.BaseProofs Proofs.BaseBatch Proofs.BaseRun Proofs.BaseFinal.
Import ListNotations.
Local Open Scope nat_scope.

(** A batch carries images exactly when each of the slices in it does. *)
Theorem C04_images : forall c C fl k f0 ops fuel n b s',
  disk (c_loader c) C -> slice_never_stops (c_loader c) ->
  (c_randomize c = true -> perm_ok (c_rng c)) -> same_shapes C fl -> 0 < n ->
  get_batch c fuel n (snd (run c f0 ops (init c fl k))) = (CReturn b, s') ->
  exists l, l <> [] /\ (forall x, In x l -> In x (epoch C fl)) /\ map slice_row l = valid_rows (CReturn b) /\
    (sd_im1 b <> None <-> forall x, In x l -> sd_im1 x <> None) /\
    (sd_im2 b <> None <-> forall x, In x l -> sd_im2 x <> None).
Proof.
  intros c C fl k f0 ops fuel n b s' HD HN HP HU Hn HG.
  destruct (mask_and_padding c C fl k f0 ops fuel n b s' HD HN HP HU Hn HG) as [l [Hb [NE [Hin _]]]].
  exists l. split; [exact NE|]. split; [exact Hin|]. split; [symmetry; apply (valid_rows_batch n); exact Hb|].
  assert (ALL : forall (f : SchedData -> option arr) (o : option arr), (o = None <-> exists x, In x l /\ f x = None) -> (o <> None <-> forall x, In x l -> f x <> None)).
  { intros f o E. split.
    - intros H x I K. apply H, E. eauto.
    - intros H K. apply E in K. destruct K as [x [I K]]. exact (H x I K). }
  split; apply ALL; [exact (bo_im1_none _ _ _ Hb)|exact (bo_im2_none _ _ _ Hb)].
Qed.
Print Assumptions C04_images.

(** ** Errors *)

(** The scheduler stands before data whose extraction raises, or has no files. *)
Inductive stuck (c : cfg) (e : exn) (s : st) : Prop :=
| stuck_slice : forall p, nth_error (s_files s) (s_index s) = Some p -> s_cfile s = Some p ->
    get_next_slice (c_loader c) (s_cdata s) (s_cfile s) (s_slice s) = SRaise e -> stuck c e s
| stuck_empty : s_files s = [] -> c_loop c = true -> e = IndexError -> stuck c e s.

Lemma reset_empty : forall c s, (c_randomize c = true -> perm_ok (c_rng c)) -> s_files s = [] -> s_files (reset c s) = [].
Proof.
  intros c s HP E. pose proof (reset_perm c s HP) as P. rewrite E in P. apply Permutation_nil, Permutation_sym, P.
Qed.

Lemma stuck_next : forall c e s f, (c_randomize c = true -> perm_ok (c_rng c)) -> stuck c e s ->
  exists s', get_next c (S f) s = (NRaise e, s') /\ stuck c e s'.
Proof.
  intros c e s f HP [p N F G|E L ->].
  - exists s. split; [|econstructor 1; eauto].
    assert (LT : s_index s < List.length (s_files s)) by (apply nth_error_Some; congruence).
    cbn [get_next]. rewrite (proj2 (Nat.ltb_lt _ _) LT), (proj2 (Nat.leb_gt _ _) LT). cbn [orb].
    unfold next_body. rewrite N, (proj2 (opt_str_eqb_true _ _) F), G. reflexivity.
  - exists (reset c s). split; [|constructor 2; auto; apply reset_empty; auto].
    cbn [get_next]. rewrite L, orb_true_r, E. cbn [List.length Nat.leb].
    unfold next_body. rewrite (reset_empty c s HP E). destruct (s_index (reset c s)); reflexivity.
Qed.

Lemma next_stuck : forall c e, (c_randomize c = true -> perm_ok (c_rng c)) -> e <> StopIteration ->
  forall fuel s s', get_next c fuel s = (NRaise e, s') -> stuck c e s'.
Proof.
  intros c e HP NE fuel. induction fuel as [|fuel IH]; intros s s' H; [discriminate|]. cbn [get_next] in H.
  destruct ((s_index s <? List.length (s_files s)) || c_loop c) eqn:EL; [|injection H as <- <-; contradiction].
  set (s1 := if List.length (s_files s) <=? s_index s then reset c s else s) in H.
  destruct (next_body c s1) as [s2|[r s2]] eqn:EB; [exact (IH _ _ H)|]. injection H as -> ->.
  unfold next_body in EB. destruct (nth_error (s_files s1) (s_index s1)) as [p|] eqn:EN.
  - destruct (opt_str_eqb (s_cfile s1) p) eqn:EO.
    + apply opt_str_eqb_true in EO. destruct (get_next_slice _ _ _ _) eqn:EG; try discriminate. injection EB as -> ->. econstructor 1; eauto.
    + destruct (load_file (c_loader c) p) as [d|]; [|discriminate]. destruct (get_next_slice _ _ _ _) eqn:EG; try discriminate. injection EB as -> <-.
      econstructor 1; [exact EN|reflexivity|exact EG].
  - injection EB as <- <-. apply nth_error_None in EN. unfold s1 in *. destruct (List.length (s_files s) <=? s_index s) eqn:LE.
    + assert (Z : s_index (reset c s) = 0) by apply reset_index. rewrite Z in EN.
      destruct (s_files (reset c s)) eqn:EF; [|cbn in EN; lia].
      constructor 2; auto. destruct (c_loop c); auto. apply Nat.leb_le in LE. rewrite (proj2 (Nat.ltb_ge _ _) LE) in EL. discriminate.
    + apply Nat.leb_gt in LE. lia.
Qed.

Lemma collect_stuck : forall c e, (c_randomize c = true -> perm_ok (c_rng c)) ->
  forall fuel n acc s s', collect c fuel n acc s = (CollectRaise e, s') -> e <> StopIteration /\ stuck c e s'.
Proof.
  intros c e HP fuel n. induction n as [|n IH]; intros acc s s' H; [discriminate|]. cbn [collect] in H.
  destruct (get_next c fuel s) as [[x|e'|] s1] eqn:EG; [exact (IH _ _ _ H)| |discriminate].
  assert (K : e' = e /\ s1 = s' /\ e <> StopIteration) by (destruct e'; try discriminate H; injection H as <- <-; repeat split; discriminate).
  destruct K as [-> [-> NE]]. split; [exact NE|exact (next_stuck c e HP NE _ _ _ EG)].
Qed.

Lemma run_stuck : forall c e f, (c_randomize c = true -> perm_ok (c_rng c)) -> e <> StopIteration ->
  forall ns s, (forall n, In n ns -> 0 < n) -> stuck c e s -> fst (run c (S f) (gets ns) s) = map (fun _ => ORes (CRaise e)) ns.
Proof.
  intros c e f HP NE ns. induction ns as [|n ns IH]; intros s HN K; [reflexivity|].
  destruct (stuck_next c e s f HP K) as [s' [EG K']].
  assert (G : get_batch c (S f) n s = (CRaise e, s')).
  { unfold get_batch. destruct n as [|n]; [specialize (HN 0 (or_introl eq_refl)); lia|]. cbn [collect]. rewrite EG.
    destruct e; try reflexivity. contradiction. }
  cbn [gets map run do_op]. rewrite G. specialize (IH s' (fun m I => HN m (or_intror I)) K'). unfold gets in IH.
  destruct (run c (S f) (map OGet ns) s') as [rs s2]. cbn [fst] in *. rewrite IH. reflexivity.
Qed.

(** Whatever the mode (looping or not, shuffled or not) and the calls made
    before: once get_batch has raised anything but StopIteration, every later
    call raises the same, whatever its batch size, until reset(). *)
Theorem C11_every_mode : forall c C fl k f0 ops fuel n e s1 f1 ns,
  disk (c_loader c) C -> slice_never_stops (c_loader c) -> (c_randomize c = true -> perm_ok (c_rng c)) -> uniform C fl -> 0 < n ->
  get_batch c fuel n (snd (run c f0 ops (init c fl k))) = (CRaise e, s1) -> e <> StopIteration ->
  (forall m, In m ns -> 0 < m) ->
  fst (run c (S f1) (gets ns) s1) = map (fun _ => ORes (CRaise e)) ns.
Proof.
  intros c C fl k f0 ops fuel n e s1 f1 ns HD HN HP HU Hn HG NE Hns.
  destruct (run_reach c C HD f0 ops (init c fl k) HP (init_inv c C fl k)) as [HI HPe].
  set (s := snd (run c f0 ops (init c fl k))) in *.
  assert (HPf : Permutation (s_files s) fl) by (etransitivity; [exact HPe|apply init_perm; auto]).
  apply run_stuck; auto. unfold get_batch in HG. pose proof (collect_reach c C HD fuel n [] s HP HI) as HC.
  destruct (collect c fuel n [] s) as [[l|e'|] s2] eqn:EC; [| |discriminate].
  - exfalso. destruct HC as [_ [_ H3]]. destruct (H3 l eq_refl) as [l' [E [Hle [Hloop Hin]]]]. cbn in E. subst l'.
    destruct l as [|x l].
    + destruct (c_loop c); [specialize (Hloop eq_refl HN); cbn in Hloop; lia|]. congruence.
    + destruct HU as [F [I1 [I2 [D1 [D2 [D3 HS]]]]]].
      destruct (assemble_ok F I1 I2 (c_loop c) n (x :: l)) as [b [EA _]].
      * intros _. unfold paddable. auto.
      * discriminate.
      * exact Hle.
      * intro L. auto.
      * intros y Iy. apply HS. eapply epoch_perm_in; [exact HPf|]. auto.
      * rewrite EA in HG. discriminate.
  - injection HG as -> <-. exact (proj2 (collect_stuck c e HP _ _ _ _ _ EC)).
Qed.
Print Assumptions C11_every_mode.

(** A looping, shuffled scheduler over a good and a faulty file. *)
Definition exB_slice (f : string) : SchedData := mkSD (mkArr [1; 1; 2] [1%Q; 2%Q]) None None None (Some [f]).
Definition exB_disk (p : string) : content :=
  if String.eqb p "a" then Slices [exB_slice "a"; exB_slice "a"] else Faulty [exB_slice "b"] KeyError.
Definition exB_cfg : cfg := mkCfg (loader_of exB_disk) (mkRng (fun _ n => rev (seq 0 n)) (fun _ _ _ => [])) true true.

Example exB_case : disk (c_loader exB_cfg) exB_disk /\ slice_never_stops (c_loader exB_cfg) /\ perm_ok (c_rng exB_cfg) /\
  uniform exB_disk ["b"; "a"]%string /\
  map (fun o => match o with ORes (CRaise e) => Some e | _ => None end)
    (fst (run exB_cfg 9 [OGet 3; OGet 2; OGet 1; OReset; OGet 1] (init exB_cfg ["b"; "a"]%string (Seed 0)))) =
  [None; Some KeyError; Some KeyError; None; None].
Proof.
  split; [apply loader_of_disk|]. split.
  { intros d f i. unfold exB_cfg, c_loader, loader_of, get_next_slice, exB_disk. destruct f as [p|]; [|discriminate].
    destruct (String.eqb p "a"); destruct (nth_error _ i); discriminate. }
  split; [intros k n; apply Permutation_sym, Permutation_rev|]. split.
  { exists [1; 1; 2], [1; 1], [1; 1]. repeat split; auto.
    - unfold wf_arr. cbn in H. destruct H as [<-|[<-|[<-|[]]]]; reflexivity.
    - cbn in H. destruct H as [<-|[<-|[<-|[]]]]; reflexivity.
    - cbn in H. destruct H as [<-|[<-|[<-|[]]]]; discriminate.
    - cbn in H. destruct H as [<-|[<-|[<-|[]]]]; discriminate.
    - cbn in H. destruct H as [<-|[<-|[<-|[]]]]; discriminate.
    - cbn in H. destruct H as [<-|[<-|[<-|[]]]]; discriminate.
    - cbn in H. destruct H as [<-|[<-|[<-|[]]]]; eexists; reflexivity. }
  reflexivity.
Qed.
