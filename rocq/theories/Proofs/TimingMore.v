(** The schedulers that [make] builds, and the program, under two timings. *)
From Coq Require Import List Arith ZArith String Bool Lia.
From Verif Require Import Prelude Model.PyVal Model.Types Model.Base Model.Loaders Model.Episodic Model.Prefetch Model.Sampler Model.Real Model.Stack
  Model.Make Model.Main Spec.StackSpec Spec.MakeSpec Spec.TimingSpec Proofs.StackProofs Proofs.MakeProofs Proofs.BaseFinal Proofs.TimingProofs.
Import ListNotations.
Local Open Scope nat_scope.

(** ** Who raises EpisodeEnd *)

Definition polite (l : loader) : Prop := forall d f i, get_next_slice l d f i <> Base.SRaise EpisodeEnd.

Lemma polite_next : forall c fuel s s', polite (c_loader c) -> get_next c fuel s <> (NRaise EpisodeEnd, s').
Proof.
  intros c fuel s s' PO. revert s. induction fuel as [|fuel IH]; intros s H; [discriminate|]. cbn [get_next] in H.
  destruct ((s_index s <? List.length (s_files s)) || c_loop c); [|discriminate].
  match type of H with match next_body c ?x with _ => _ end = _ => set (s1 := x) in * end.
  destruct (next_body c s1) as [s2|r] eqn:E; [exact (IH _ H)|]. subst r. unfold next_body in E.
  destruct (nth_error (s_files s1) (s_index s1)) as [path|]; [|discriminate].
  destruct (if opt_str_eqb (s_cfile s1) path then inr s1 else
    match load_file (c_loader c) path with
    | Ok d => inr (with_cache (with_cache s1 None None (s_slice s1)) (Some d) (Some path) 0)
    | Err _ => inl (with_index (with_cache s1 None None (s_slice s1)) (S (s_index s1))) end) as [s2|s2]; [discriminate|].
  destruct (get_next_slice (c_loader c) (s_cdata s2) (s_cfile s2) (s_slice s2)) eqn:G; try discriminate.
  injection E as -> _. exact (PO _ _ _ G).
Qed.
Lemma polite_collect : forall c fuel n acc s s', polite (c_loader c) -> collect c fuel n acc s <> (CollectRaise EpisodeEnd, s').
Proof.
  intros c fuel n acc s s' PO. revert acc s. induction n as [|n IH]; intros acc s H; [discriminate|]. cbn [collect] in H.
  destruct (get_next c fuel s) as [[d|e|] s1] eqn:G; [exact (IH _ _ H)| |discriminate].
  destruct e; try discriminate H. exact (polite_next _ _ _ _ PO G).
Qed.

Local Notation odd r := (r <> Err EpisodeEnd).
Lemma odd_bind : forall A B (x : result A) (f : A -> result B), odd x -> (forall a, odd (f a)) -> odd (bind x f).
Proof. intros A B [a|e] f H K; [apply K|]. intros E. apply H. cbn in E. congruence. Qed.
Lemma assemble_odd : forall loop n batch, odd (assemble loop n batch).
Proof.
  assert (S : forall l, odd (np_stack l)) by (intros [|a l]; [discriminate|]; unfold np_stack; destruct (forallb _ _); discriminate).
  assert (SI : forall l, odd (stack_images l)).
  { intros l. unfold stack_images. destruct (opt_all l); [|discriminate]. apply odd_bind; [apply S | discriminate]. }
  assert (PD : forall k p a, odd (np_pad0 k p a)).
  { intros k p a. unfold np_pad0. destruct (Nat.eqb _ _); [|discriminate]. destruct (shape a); discriminate. }
  assert (PO : forall k p o, odd (pad_opt k p o)).
  { intros k p [a|]; unfold pad_opt; [|discriminate]. apply odd_bind; [apply PD | discriminate]. }
  intros loop n batch. unfold assemble. apply odd_bind; [apply SI|]. intros im1. apply odd_bind; [apply SI|]. intros im2. apply odd_bind; [apply S|]. intros flow.
  apply odd_bind.
  { unfold batch_files. destruct (existsb _ _); [|discriminate]. destruct (forallb _ _); discriminate. }
  intros files. destruct (List.length batch <? n); [|discriminate].
  apply odd_bind; [apply PD|]. intros f. apply odd_bind; [apply PO|]. intros i1. apply odd_bind; [apply PO|]. discriminate.
Qed.
Lemma polite_batch : forall c fuel n s s', polite (c_loader c) -> get_batch c fuel n s <> (CRaise EpisodeEnd, s').
Proof.
  intros c fuel n s s' PO H. unfold get_batch in H. destruct (collect c fuel n [] s) as [[batch|e|] s1] eqn:E.
  - assert (K : forall s2, match assemble (c_loop c) n batch with Ok d => (CReturn d, s2) | Err e => (CRaise e, s2) end <> (CRaise EpisodeEnd, s')).
    { intros s2 X. pose proof (assemble_odd (c_loop c) n batch) as O. destruct (assemble (c_loop c) n batch); [discriminate|]. apply O. congruence. }
    destruct batch as [|b batch]; [destruct (c_loop c)|]; [exact (K _ H) | discriminate | exact (K _ H)].
  - injection H as -> ->. exact (polite_collect _ _ _ _ _ _ PO E).
  - discriminate.
Qed.

Lemma polite_for : forall w a, (fa_class a = Npy -> fa_images a = false) -> polite (loader_for w a).
Proof.
  intros w a HI d f i. unfold loader_for. destruct (fa_class a); cbn [get_next_slice h5_loader mat_loader npy_loader].
  - unfold h5_slice. destruct d as [d|], f as [f|]; try discriminate. destruct (nth_error (shape (sd_flow d)) 1); [|discriminate].
    destruct (_ <=? i); [discriminate|]. unfold slice_axis1. destruct (shape (sd_flow d)) as [|x [|y [|z [|t l]]]]; discriminate.
  - unfold mat_slice. destruct d; [|discriminate]. destruct (negb (i =? 0)); [discriminate|]. destruct (fa_images a); discriminate.
  - rewrite (HI eq_refl). unfold npy_slice. destruct d as [d|], f as [f|]; try discriminate. destruct (negb (i =? 0)); discriminate.
Qed.

(** ** Schedulers that can be wrapped *)

Lemma fresh_steady : forall si L B, fresh_episodes si B -> steady si L B (fun _ => True).
Proof.
  intros si L B FE. split; [auto|]. split; [auto|]. intros u u1 u2 _ _ G NX.
  assert (H : forall x y, sc_get (sched_of si L B) x = (GEpisodeEnd, y) -> si_get si B x = (Err EpisodeEnd, y)).
  { intros x y X. cbn in X. destruct (si_get si B x) as [[d|[]] z]; try discriminate; injection X as <-; reflexivity. }
  apply H in G. cbn in NX. destruct (si_next si u1) as [[x|e] u3] eqn:N; [|discriminate]. injection NX as ->.
  intros E. apply (FE _ _ _ _ G N). destruct (sc_get (sched_of si L B) u2) as [r y] eqn:G2. cbn [fst] in E. subst r. apply H in G2. rewrite G2. reflexivity.
Qed.
Lemma episodic_fresh : forall ec fuel B, 1 <= ec_L ec -> ec_starts ec <> [] -> polite (c_loader (ec_base ec)) -> fresh_episodes (episodic_sif ec fuel) B.
Proof.
  intros ec fuel B HL HS PO u u1 x u2 _ NX. cbn in NX. injection NX as _ <-. unfold next_episode, sample.
  destruct (ec_starts ec) as [|w ws] eqn:ES; [exfalso; apply HS; reflexivity|].
  intros E. cbn [episodic_sif si_get] in E. unfold ep_get in E. cbn [e_t e_base] in E. destruct (B =? ec_B ec); [|discriminate].
  assert (L0 : ec_L ec <=? 0 = false) by (apply Nat.leb_gt; lia). rewrite L0 in E.
  match type of E with context [get_batch (ec_base ec) fuel B ?s] => destruct (get_batch (ec_base ec) fuel B s) as [r b] eqn:G end.
  destruct r; cbn in E; try discriminate. injection E as ->. exact (polite_batch _ _ _ _ _ PO G).
Qed.
Lemma construct_fresh : forall D c g base B L k ec es, ep_construct D c g base B L k = Ok (ec, es) ->
  ec_base ec = c /\ ec_L ec = L /\ 1 <= ec_L ec /\ ec_starts ec <> [].
Proof.
  intros D c g base B L k ec es H. unfold ep_construct in H. destruct (B =? 0); [discriminate|]. destruct (L =? 0) eqn:EL; [discriminate|].
  apply Nat.eqb_neq in EL. destruct (calculate_starts D L (s_files base)) as [starts|e]; [|discriminate]. cbn [bind] in H.
  destruct starts as [|x starts]; [discriminate|]. cbn in H. injection H as <- <-. cbn. repeat split; [lia | discriminate].
Qed.
Lemma file_steady : forall c fuel B (P : st -> Prop), (forall n s r s', P s -> get_batch c fuel n s = (r, s') -> P s') ->
  steady (base_sif c fuel) None B P.
Proof.
  intros c fuel B P H. split; [|split].
  - intros u r u' HP G. cbn in G. destruct (get_batch c fuel B u) as [x y] eqn:E.
    assert (y = u') as <-; [|eapply H; eauto]. destruct (get_result x) as [d|[]]; injection G as _ <-; reflexivity.
  - intros u u' _ X. discriminate.
  - intros u u1 u2 _ N. contradiction.
Qed.
Lemma file_frame : forall c fuel n s r s', c_randomize c = false -> get_batch c fuel n s = (r, s') -> s_files s' = s_files s /\ s_key s' = s_key s.
Proof.
  intros c fuel n s r s' HR H. pose proof (op_frame c fuel (OGet n) s HR) as F. cbn [do_op] in F. rewrite H in F. exact F.
Qed.

(** What [make] builds does not depend on the timing. *)
Lemma make_timed : forall w d smp, make w (PDict d) = Ok smp -> forall fuel tm tm', prompt tm -> prompt tm' ->
  let sch := scheduler_of smp in
  exists resets R, bisim (sif_of fuel sch) resets R /\ R (start_of fuel tm sch) (start_of fuel tm' sch) /\ (starts_over sch -> resets = true).
Proof.
  intros w d smp H fuel tm tm' PR PR' sch. apply make_ok in H. destruct H as (cls & B & N & L & inc & seed & a & c & s & sch' & SS & E1 & E2 & FS & W & Hs).
  assert (sch = sch') as ->.
  { unfold sch. destruct inc; [subst smp; reflexivity|]. destruct Hs as (p & v & _ & _ & _ & _ & ->). reflexivity. }
  assert (PO : polite (c_loader c)).
  { destruct (fst_loader _ _ _ _ _ FS) as (-> & _). apply polite_for. intros EN. destruct (fa_images a) eqn:EI; [|reflexivity]. exfalso.
    assert (cls = Mat) by (apply (ss_supported _ _ _ _ _ _ _ SS); congruence). congruence. }
  destruct W as (core & HC & HN). destruct HN as [(_ & ->)|(Np & ->)].
  - destruct HC as [(_ & ->)|(_ & ec & es & EC & ->)]; exists true, eq; (split; [apply bisim_eq|]); split; auto; reflexivity.
  - destruct HC as [(_ & ->)|(_ & ec & es & EC & ->)].
    + cbn [sif_of start_of episode_len starts_over]. destruct (c_randomize c) eqn:RA.
      * exists false, (alike (base_sif c fuel) None B N (fun _ => True)). split; [|split; [|discriminate]].
        -- apply bisim_prefetch; [exact Np | apply file_steady; auto | discriminate].
        -- apply alike_init; auto.
      * set (P := fun x : st => s_files x = s_files s /\ s_key x = s_key s).
        exists true, (alike (base_sif c fuel) None B N P). split; [|split; [|reflexivity]].
        -- apply bisim_prefetch; [exact Np | apply file_steady |].
           ++ intros n x r x' (X1 & X2) G. destruct (file_frame _ _ _ _ _ _ RA G) as (G1 & G2). split; congruence.
           ++ intros _. split.
              ** intros v v' (V1 & V2) (V1' & V2'). cbn [base_sif si_reset]. unfold reset. rewrite RA, V1, V2, V1', V2'. reflexivity.
              ** intros v (V1 & V2). cbn [base_sif si_reset]. unfold reset. rewrite RA. split; assumption.
        -- apply alike_init; auto. split; reflexivity.
    + cbn [sif_of start_of episode_len starts_over]. destruct (construct_fresh _ _ _ _ _ _ _ _ _ EC) as (EB & _ & EL & ES).
      exists false, (alike (episodic_sif ec fuel) (Some (ec_L ec)) B N (fun _ => True)). split; [|split; [|contradiction]].
      * apply bisim_prefetch; [exact Np | apply fresh_steady, episodic_fresh; auto; rewrite EB; exact PO | discriminate].
      * apply alike_init; auto.
Qed.

(** ** The program *)

Section Session.
Context {S o i : Type}.
Variable next : S -> result (batch o i) * S.
Variable R : S -> S -> Prop.
Hypothesis HN : forall s s' r v r' v', R s s' -> next s = (r, v) -> next s' = (r', v') -> r' = r /\ R v v'.

Lemma loop_same : forall W dir num fuel k s s', R s s' -> fst (main_loop next W dir num fuel k s') = fst (main_loop next W dir num fuel k s).
Proof.
  intros W dir num. induction fuel as [|fuel IH]; intros k s s' H; [reflexivity|]. cbn [main_loop].
  destruct (next s) as [r v] eqn:E. destruct (next s') as [r' v'] eqn:E'. destruct (HN _ _ _ _ _ _ H E E') as (-> & K). destruct r as [b|e].
  - destruct (samples W dir k b (seq 0 (Z.to_nat (Z.min num (Z.of_nat (List.length (ba_images b))))))) as [a [e|]]; [reflexivity|].
    pose proof (IH (Datatypes.S k) _ _ K) as I.
    destruct (main_loop next W dir num fuel (Datatypes.S k) v) as [[l x] s2]. destruct (main_loop next W dir num fuel (Datatypes.S k) v') as [[l' x'] s2'].
    cbn [fst] in I. injection I as -> ->. destruct (0 <? num)%Z; [|reflexivity]. destruct (x_say W k) as [c|e]; [|reflexivity].
    destruct (String.eqb (lower c) "y"); reflexivity.
  - destruct e; reflexivity.
Qed.
Lemma session_same : forall off W dir num fuel s s', R s s' -> fst (session next off W dir num fuel s') = fst (session next off W dir num fuel s).
Proof.
  intros off W dir num fuel s s' H. unfold session. pose proof (loop_same W dir num fuel 0 s s' H) as I.
  destruct (main_loop next W dir num fuel 0 s) as [[l x] s2]. destruct (main_loop next W dir num fuel 0 s') as [[l' x'] s2'].
  cbn [fst] in I. injection I as -> ->. destruct x; reflexivity.
Qed.
End Session.
