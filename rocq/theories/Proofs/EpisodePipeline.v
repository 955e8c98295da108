(** From files to samplers, in episodes. *)
From Coq Require Import List Arith ZArith Lia String Bool QArith Permutation.
From Verif Require Import Prelude Model.Base Model.Files Model.Episodic Model.Prefetch Model.Sampler Model.Stack
  Spec.BaseSpec Spec.EpisodicSpec Spec.SamplerSpec Spec.StackSpec Spec.PipelineSpec
  Proofs.BaseProofs Proofs.BaseBatch Proofs.BaseRun Proofs.BaseLoop Proofs.BaseFinal Proofs.EpisodicProofs
  Proofs.SamplerProofs Proofs.SamplerRuns Proofs.SamplerMore Proofs.StackProofs Proofs.PipelineProofs.
Import ListNotations.
Local Open Scope nat_scope.

Lemma source_same : forall nd B i, 0 < nd -> B mod nd = 0 -> i < B -> source nd B B i = i.
Proof.
  intros nd B i Hn HB Hi. unfold source. pose proof (Nat.div_mod B nd ltac:(lia)) as DM.
  assert (P : 0 < B / nd) by (destruct (B / nd); nia). rewrite Nat.mod_mod by lia.
  pose proof (Nat.div_mod i (B / nd) ltac:(lia)). lia.
Qed.

Lemma in_firstn_in : forall A n (l : list A) x, In x (firstn n l) -> In x l.
Proof. intros A n l x H. rewrite <- (firstn_skipn n l). apply in_app_iff. left. exact H. Qed.
Lemma in_skipn_in : forall A n (l : list A) x, In x (skipn n l) -> In x l.
Proof. intros A n l x H. rewrite <- (firstn_skipn n l). apply in_app_iff. right. exact H. Qed.

Lemma plays_weaken : forall si oflow bflow img (c : scfg si oflow bflow img) L D (shown : nat -> nat -> nat -> batch oflow img -> Prop),
  (forall e t m b, t < L -> made_from c m (D e t) b -> shown e t m b) ->
  forall ops obs e t m, plays c L D e t m ops obs -> plays_as shown (sc_B c) L e t m ops obs.
Proof.
  intros si oflow bflow img c L D shown H. induction ops as [|o ops IH]; intros obs e t m P; [exact P|].
  destruct o, obs as [|r obs]; cbn [plays plays_as] in *; try contradiction.
  - destruct (t <? L) eqn:T.
    + destruct P as [(b & E & M & Dn) P]. split; [|apply IH, P]. exists b. split; [exact E|]. split; [|exact Dn]. apply H; [apply Nat.ltb_lt, T | exact M].
    + destruct P as [E P]. split; [exact E | apply IH, P].
  - destruct P as [E P]. split; [exact E | apply IH, P].
Qed.

Section Episodes.
Variables (D : dirs) (c : cfg) (g : rng) (base : st) (B L : nat) (k : key) (ec : ecfg) (s0 : est) (C : string -> content) (fuel : nat).
Hypothesis HE : enum_ok D.
Hypothesis HC : choice_ok g.
Hypothesis HM : ep_construct D c g base B L k = Ok (ec, s0).
Hypothesis HD : disk (c_loader c) C.
Hypothesis HR : c_randomize c = false.
Hypothesis HS : single_slices C D (s_files base).
Hypothesis HF : distinct_files D (s_files base).
Hypothesis Hf : 2 * (L * B) < fuel.

Lemma built : ecfg_ok D (s_files base) ec /\ ec_base ec = c /\ ec_B ec = B /\ ec_L ec = L /\ sample ec (mkEst base k 0) = Ok s0 /\ 0 < B /\ 0 < L.
Proof.
  destruct (construct_inv _ _ _ _ _ _ _ _ _ HE HC HM) as (HO & Hc & HB & HL & _ & Hs & _).
  pose proof (eo_B _ _ _ HO). pose proof (eo_L _ _ _ HO). rewrite HB in *. rewrite HL in *. auto 10.
Qed.

Definition draws (e : nat) : list (string * nat) := drawn ec (chain k e).
Definition order (e : nat) : list string := interleave (ec_B ec) (ec_L ec) (map (window_files ec) (draws e)).
Definition opening (e : nat) : st := init c (order e) (s_key base).

Lemma draws_ok : forall e, List.length (draws e) = B /\ (forall w, In w (draws e) -> window D (s_files base) L w) /\
  time_major (dir_files D) L (draws e) (order e).
Proof.
  intros e. destruct built as (HO & Hc & HB & HL & _). destruct (drawn_ok _ _ ec (chain k e) HO) as [D1 D2].
  pose proof (interleave_time_major _ _ ec (draws e) HO D1 D2) as T. fold (order e) in T. rewrite HB in D1. rewrite HL in D2, T. auto.
Qed.

Definition at_ep (u : est) (e t : nat) : Prop :=
  t <= L /\ e_t u = t /\ e_key u = chain k (S e) /\ e_base u = before c fuel B (opening e) t.

Lemma fresh_episode : forall u key, sample ec (mkEst (e_base u) key (e_t u)) = Ok (mkEst (mkSt (interleave (ec_B ec) (ec_L ec) (map (window_files ec) (drawn ec key))) 0 None None 0 (s_key (e_base u))) (Child key 0) (e_t u)).
Proof.
  intros u key. destruct built as (HO & Hc & _). destruct (sample_ok _ _ ec (mkEst (e_base u) key (e_t u)) HO) as (o & Eo & _ & S).
  rewrite S. cbn [e_key e_base e_t] in *. subst o. unfold reset. rewrite Hc, HR. reflexivity.
Qed.

Lemma at_first : at_ep s0 0 0.
Proof.
  destruct built as (_ & _ & _ & _ & S & _). pose proof (fresh_episode (mkEst base k 0) k) as F. cbn [e_base e_t] in F. rewrite S in F.
  injection F as ->. split; [lia|]. split; [reflexivity|]. split; [reflexivity|]. cbn [e_base]. unfold before. cbn. unfold opening, init, order, draws.
  rewrite HR. reflexivity.
Qed.

Lemma at_next : forall u e t, at_ep u e t -> at_ep (next_episode ec u) (S e) 0.
Proof.
  intros u e t (_ & _ & K & Eb). pose proof (fresh_episode u (e_key u)) as F.
  assert (U : mkEst (e_base u) (e_key u) (e_t u) = u) by (destruct u; reflexivity). rewrite U in F.
  unfold next_episode. rewrite F. cbn [e_base e_key]. split; [lia|]. split; [reflexivity|]. split; [cbn [e_key]; rewrite K; reflexivity|].
  cbn [e_base]. unfold before. cbn. unfold opening, init, order, draws. rewrite HR, K. f_equal.
  rewrite Eb. unfold before. rewrite (proj2 (run_frame c fuel _ _ HR)). unfold opening, init. rewrite HR. reflexivity.
Qed.

Lemma at_iter : forall e, at_ep (Nat.iter e (next_episode ec) s0) e 0.
Proof. induction e as [|e IH]; [apply at_first|]. exact (at_next _ _ _ IH). Qed.

Lemma iter_order : forall e, s_files (e_base (Nat.iter e (next_episode ec) s0)) = order e.
Proof. intros e. destruct (at_iter e) as (_ & _ & _ & ->). unfold before. cbn. unfold opening, init. rewrite HR. reflexivity. Qed.

(** The batches. *)
Definition got (e t : nat) : call_res := fst (get_batch c fuel B (before c fuel B (opening e) t)).
Definition fed (e t : nat) : fdata arr arr := match got e t with CReturn b => fdata_of b | _ => mkFdata [] None None None None end.

Lemma got_spread : forall e t, spread L (draws e) -> t < L -> step_of C (dir_files D) (draws e) t (Some (ORes (got e t))).
Proof.
  intros e t SP HT. destruct built as (HO & Hc & HB & HL & _). destruct (draws_ok e) as (D1 & D2 & D3).
  unfold got. rewrite <- (nth_call c fuel B (opening e) t).
  pose proof (base_aligned D (s_files base) ec C (order e) (draws e) HO) as G. rewrite HB, HL, Hc in G.
  apply (G D1 D2 D3 HD HS (s_key base) fuel (S t) t HR HF SP Hf HT). lia.
Qed.

Lemma got_loop : forall e t, c_loop c = true -> exists b l, got e t = CReturn b /\ batch_of B l b /\ forall x, In x l -> In x (epoch C (order e)).
Proof.
  intros e t LO. destruct built as (HO & Hc & HB & HL & _ & Bp & Lp). destruct (draws_ok e) as (D1 & D2 & D3).
  assert (LE : List.length (order e) = L * B) by (rewrite (proj1 D3), D1; reflexivity).
  pose proof D1 as D1'. rewrite <- HB in D1'. pose proof D2 as D2'. rewrite <- HL in D2'. pose proof D3 as D3'. rewrite <- HL in D3'.
  pose proof (order_no_faults D (s_files base) ec C (order e) (draws e) HO D1' D2' D3' HS) as NF.
  pose proof (order_stack D (s_files base) ec C (order e) (draws e) HO D1' D2' D3' HS) as SS.
  pose proof (epoch_single C (order e) (order_single D (s_files base) ec C (order e) (draws e) HO D1' D2' D3' HS)) as [EL _].
  assert (NE : epoch C (order e) <> []) by (intros Z; rewrite Z, LE in EL; cbn in EL; nia).
  assert (HP : c_randomize c = true -> perm_ok (c_rng c)) by congruence.
  destruct (At_run c C HD (order e) (s_key base) LO HP NF NE fuel (repeat B (S t)) (opening e) []) as (rs & s' & D' & H1 & H2 & _ & _ & H4).
  - rewrite LE. exact Hf.
  - exact SS.
  - intros m Hm. apply repeat_spec in Hm. lia.
  - exact (At_init c C (order e) (s_key base) HP NF).
  - destruct (H4 t B (nth_repeat_S _ B t)) as (b & Hb1 & Hb2). pose proof (nth_call c fuel B (opening e) t) as NC. rewrite H1 in NC. cbn [fst] in NC.
    rewrite Hb1 in NC. injection NC as NC. exists b. eexists. split; [symmetry; exact NC | split; [exact Hb2|]].
    intros x Hx. eapply (At_in c C (order e) (s_key base)); [exact HP | exact H2|]. eapply in_skipn_in, in_firstn_in, Hx.
Qed.

Hypothesis GO : c_loop c = true \/ (forall e, spread L (draws e)).

Lemma got_batch : forall e t, t < L -> exists b l, got e t = CReturn b /\ batch_of B l b.
Proof.
  intros e t HT. destruct GO as [LO|SP]; [destruct (got_loop e t LO) as (b & l & E & Bo & _); eauto|].
  destruct (got_spread e t (SP e) HT) as (b & l & E & Bo & _). injection E as E. exists b, l. split; [exact E|].
  rewrite (proj1 (draws_ok e)) in Bo. exact Bo.
Qed.

Lemma fed_length : forall e t, t < L -> List.length (fd_flows (fed e t)) = B.
Proof.
  intros e t HT. destruct (got_batch e t HT) as (b & l & E & Bo). unfold fed. rewrite E. unfold fdata_of, rows. cbn.
  rewrite map_length, seq_length. apply Bo.
Qed.

Lemma episodes_are : episodic (episodic_sif ec fuel) B L fed at_ep.
Proof.
  destruct built as (HO & Hc & HB & HL & _). constructor.
  - reflexivity.
  - intros u e t (T & Et & _). split; [exact T|]. cbn. unfold steps_remaining. rewrite HL, Et. reflexivity.
  - intros u e t (T & Et & K & Eb) HT. cbn [si_get episodic_sif]. unfold ep_get. rewrite HB, HL, Nat.eqb_refl, Et.
    rewrite (proj2 (Nat.leb_gt _ _)) by exact HT. rewrite Hc, Eb.
    destruct (got_batch e t HT) as (b & l & G & _). unfold fed. rewrite G. unfold got in G.
    pose proof (before_S c fuel B (opening e) t) as BS.
    destruct (get_batch c fuel B (before c fuel B (opening e) t)) as [r s']. cbn [fst snd] in *. subst r.
    eexists. split; [reflexivity|]. split; [lia|]. split; [reflexivity|]. split; [exact K|]. cbn [e_base]. rewrite BS. reflexivity.
  - intros u e t A. exists (next_episode ec u). split; [reflexivity|]. exact (at_next u e t A).
Qed.

Lemma episodes_end : forall u e, at_ep u e L -> exists u', si_get (episodic_sif ec fuel) B u = (Err EpisodeEnd, u') /\ at_ep u' e L.
Proof.
  intros u e A. destruct built as (HO & Hc & HB & HL & _). exists u. split; [|exact A]. destruct A as (_ & Et & _).
  cbn [si_get episodic_sif]. unfold ep_get. rewrite HB, HL, Nat.eqb_refl, Et, Nat.leb_refl. reflexivity.
Qed.

(** What a batch made from such data shows. *)
Lemma fed_shows : forall oflow bflow img nd Bs seed (adapt : arr -> oflow) (bounds : arr -> bflow) (render : key -> nat -> bflow -> img) e t m (b : batch oflow img),
  0 < nd -> 0 < B -> Bs mod nd = 0 -> B mod nd = 0 -> t < L -> spread L (draws e) ->
  List.length (ba_images b) = Bs -> List.length (ba_flows b) = Bs ->
  (forall i, i < Bs ->
     exists f, nth_error (fd_flows (fed e t)) (source nd Bs B i) = Some f /\ nth_error (ba_flows b) i = Some (adapt f) /\
       nth_error (ba_images b) i = Some (render (device_key seed m (i / (Bs / nd))) (i mod (Bs / nd)) (bounds f))) ->
  ba_mask b = fd_mask (fed e t) -> ba_files b = fd_files (fed e t) ->
  shows_step nd Bs B seed adapt bounds render C (dir_files D) (draws e) t m b.
Proof.
  intros oflow bflow img nd Bs seed adapt bounds render e t m b Hn Bp MB MF HT SP L1 L2 EN MK FI.
  split; [exact L1|]. split; [exact L2|]. intros i Hi. destruct (EN i Hi) as (f & Ef & Eo & Ei).
  set (q := source nd Bs B i) in *.
  destruct (got_spread e t SP HT) as (b0 & l & E & Bo & Ll & Hl). injection E as E. rewrite (proj1 (draws_ok e)) in Bo, Ll.
  assert (Q : q < B).
  { rewrite <- (fed_length e t HT). apply nth_error_Some. congruence. }
  destruct (nth_error (draws e) q) as [[d s]|] eqn:W.
  2:{ apply nth_error_None in W. rewrite (proj1 (draws_ok e)) in W. lia. }
  destruct (Hl q d s W) as (p & x & Ep & Cp & Lx). exists d, s, p, x.
  assert (CA : carries (imgt := arr) field_of B 0 (fun j => nth_error l j) (fed e t)).
  { unfold fed. rewrite E. apply (batch_carries B 0 _ l b0 Bo). reflexivity. }
  destruct CA as [_ CA]. destruct (CA q Q) as (LB & f' & Ef' & FO). cbn [plus] in LB, FO. rewrite Lx in LB, FO. cbn [field_of] in FO.
  rewrite Ef in Ef'. injection Ef' as <-. subst f. rewrite MK, FI. auto 10.
Qed.
End Episodes.
