(** The real-image sampler. *)
From Coq Require Import List Arith ZArith Lia String Bool QArith Permutation.
From Verif Require Import Prelude Model.PyVal Model.Types Model.Base Model.Files Model.Loaders Model.Episodic Model.Prefetch Model.Sampler
  Model.Stack Model.Make Model.Real
  Spec.TypesSpec Spec.BaseSpec Spec.EpisodicSpec Spec.SamplerSpec Spec.StackSpec Spec.MakeSpec Spec.PipelineSpec Spec.RealSpec
  Proofs.BaseProofs Proofs.BaseBatch Proofs.BaseRun Proofs.BaseLoop Proofs.BaseFinal Proofs.EpisodicProofs
  Proofs.SamplerProofs Proofs.SamplerRuns Proofs.SamplerMore Proofs.StackProofs Proofs.PipelineProofs Proofs.EpisodePipeline
  Proofs.MakeProofs.
Import ListNotations.
Local Open Scope nat_scope.

(** * The constructor *)
Lemma init_verdict : forall sch, (loads_images sch /\ real_init_ok (stack_of sch) = Ok tt) \/
  (~ loads_images sch /\ real_init_ok (stack_of sch) = Err ValueError).
Proof.
  induction sch as [a c s|a ec s|B N sch IH].
  - destruct (fa_images a) eqn:E.
    + left. split; [constructor; exact E|]. cbn [stack_of]. rewrite E. reflexivity.
    + right. split; [intros H; inversion H; congruence|]. cbn [stack_of]. rewrite E. reflexivity.
  - destruct (fa_images a) eqn:E.
    + left. split; [constructor; exact E|]. cbn [stack_of]. rewrite E. reflexivity.
    + right. split; [intros H; inversion H; congruence|]. cbn [stack_of]. rewrite E. reflexivity.
  - cbn [stack_of real_init_ok]. destruct IH as [[A E]|[A E]]; [left|right]; (split; [|exact E]).
    + constructor. exact A.
    + intros H. inversion H. contradiction.
Qed.

(** * Resetting *)
Lemma rrun_app : forall si B ops1 ops2 u,
  rrun si B (ops1 ++ ops2) u =
  let (r1, u1) := rrun si B ops1 u in let (r2, u2) := rrun si B ops2 u1 in ((r1 ++ r2)%list, u2).
Proof.
  intros si B ops1 ops2. induction ops1 as [|o ops1 IH]; intros u.
  - cbn [rrun app]. destruct (rrun si B ops2 u). reflexivity.
  - cbn [rrun app]. destruct (do_rop si B o u) as [r u1]. rewrite IH.
    destruct (rrun si B ops1 u1) as [r1 u2]. destruct (rrun si B ops2 u2) as [r2 u3]. reflexivity.
Qed.

Lemma rop_base_frame : forall c fuel B o u, c_randomize c = false ->
  s_files (snd (do_rop (base_sif c fuel) B o u)) = s_files u /\ s_key (snd (do_rop (base_sif c fuel) B o u)) = s_key u.
Proof.
  intros c fuel B o u HR. destruct o as [|r|].
  - pose proof (op_frame c fuel (OGet B) u HR) as F. cbn [do_op] in F.
    cbn [do_rop]. unfold real_next, sampler_next. cbn [si_protocol base_sif andb]. unfold real_get_next. cbn [si_get base_sif].
    destruct (get_batch c fuel B u) as [rs s']. cbn [snd] in F.
    destruct (get_result rs) as [[fl i1 i2 mk fs]|e]; [|exact F]. destruct i1; [|exact F]. destruct i2; exact F.
  - destruct r; cbn; [|auto]. unfold reset. rewrite HR. auto.
  - cbn. auto.
Qed.

Lemma rrun_base_frame : forall c fuel B ops u, c_randomize c = false ->
  s_files (snd (rrun (base_sif c fuel) B ops u)) = s_files u /\ s_key (snd (rrun (base_sif c fuel) B ops u)) = s_key u.
Proof.
  intros c fuel B ops. induction ops as [|o ops IH]; intros u HR; [cbn; auto|]. cbn [rrun].
  pose proof (rop_base_frame c fuel B o u HR) as F. destruct (do_rop (base_sif c fuel) B o u) as [r u1].
  specialize (IH u1 HR). destruct (rrun (base_sif c fuel) B ops u1) as [rs u2]. cbn [snd] in *. destruct F, IH. split; congruence.
Qed.

(** * Images come from the files *)
Lemma mat_pictured : forall r m oh ow C, disk (mat_loader r m true oh ow) C -> pictured C.
Proof.
  intros r m oh ow C HD p l x HC Hx. specialize (HD p). rewrite HC in HD. destruct HD as (d & Ld & G).
  apply In_nth_error in Hx. destruct Hx as (i & Hi).
  pose proof (G i) as Gi. rewrite Hi in Gi. cbn [mat_loader get_next_slice] in Gi. unfold mat_slice in Gi.
  destruct (negb (i =? 0)); [discriminate|]. injection Gi as Gi. subst d.
  cbn [mat_loader load_file] in Ld. unfold mat_load in Ld.
  match type of Ld with bind ?q _ = _ => destruct q as [dc|]; [|discriminate] end. cbn [bind] in Ld.
  destruct (lookup "V" dc); [|discriminate]. destruct (lookup "I0" dc); [|discriminate]. destruct (lookup "I1" dc); [|discriminate].
  apply bind_ok in Ld. destruct Ld as (im & E & Ld). apply bind_ok in E. destruct E as (a0 & _ & E). apply bind_ok in E.
  destruct E as (a1 & _ & E). injection E as <-. apply bind_ok in Ld. destruct Ld as (f & _ & Ld). injection Ld as <-.
  cbn. split; discriminate.
Qed.

Lemma pictured_epoch : forall C fl, pictured C -> no_faults C fl -> forall s, In s (epoch C fl) -> sd_im1 s <> None /\ sd_im2 s <> None.
Proof.
  intros C fl HP NF s Hs. unfold epoch in Hs. apply in_flat_map in Hs. destruct Hs as (p & Hp & Hs). unfold slices_of in Hs.
  destruct (C p) as [|l|l e] eqn:E; [destruct Hs | eapply HP; eauto | exfalso; exact (NF p l e Hp E)].
Qed.

(** * Episodes *)
Lemma real_plays : forall (si : sif) B L D at_ (shown : nat -> nat -> batch (si_flow si) (si_img si * si_img si) -> Prop),
  episodic si B L D at_ ->
  (forall e t, t < L -> exists a b, fd_images1 (D e t) = Some a /\ fd_images2 (D e t) = Some b /\
     shown e t (mkBatch (combine a b) (fd_flows (D e t)) (Some (repeat (S t =? L) B)) (fd_mask (D e t)) (fd_files (D e t)))) ->
  forall ops u e t m, Forall (fun o => o = SNext \/ o = SNextEpisode) ops -> at_ u e t ->
  plays_as (fun e t _ b => shown e t b) B L e t m ops (fst (rrun si B ops u)).
Proof.
  intros si B L D at_ shown EP SH. induction ops as [|o ops IH]; intros u e t m HO A; [exact I|].
  inversion HO as [|? ? Ho HO']; subst. cbn [rrun]. destruct Ho as [-> | ->].
  - destruct (ep_range _ _ _ _ _ EP u e t A) as [T _]. destruct (real_episode si B L D at_ EP u e t A) as [R1 R2]. cbn [do_rop].
    destruct (Nat.ltb_spec t L) as [HT|HT].
    + destruct (SH e t HT) as (a & b & Ea & Eb & S_). destruct (R1 HT a b Ea Eb) as (u' & E & A'). rewrite E.
      specialize (IH u' e (S t) (S m) HO' A'). destruct (rrun si B ops u') as [rs u2]. cbn [fst plays_as] in *.
      rewrite (proj2 (Nat.ltb_lt t L) HT). split; [|exact IH]. eexists. split; [reflexivity|]. split; [exact S_ | reflexivity].
    + assert (t = L) by lia. subst t. rewrite (R2 eq_refl).
      specialize (IH u e L m HO' A). destruct (rrun si B ops u) as [rs u2]. cbn [fst plays_as] in *.
      rewrite Nat.ltb_irrefl. auto.
  - cbn [do_rop]. unfold real_next_episode. rewrite (ep_proto _ _ _ _ _ EP).
    destruct (ep_next _ _ _ _ _ EP u e t A) as (u' & E & A'). rewrite E.
    specialize (IH u' (S e) 0 m HO' A'). destruct (rrun si B ops u') as [rs u2]. cbn [fst plays_as] in *. auto.
Qed.

Section Episodes.
Variables (D : dirs) (c : cfg) (g : rng) (base : st) (B L : nat) (k : key) (ec : ecfg) (s0 : est) (C : string -> content) (fuel : nat).
Hypothesis HE : enum_ok D.
Hypothesis HC : choice_ok g.
Hypothesis HM : ep_construct D c g base B L k = Ok (ec, s0).
Hypothesis HD : disk (c_loader c) C.
Hypothesis HR : c_randomize c = false.
Hypothesis HS : single_slices C D (s_files base).
Hypothesis HF : distinct_files D (s_files base).
Hypothesis Hf : 2 * (L * B) < fuel.
Hypothesis HI : pictured C.
Hypothesis GO : c_loop c = true \/ (forall e, spread L (draws k ec e)).

Lemma got_pictured : forall e t, t < L -> exists b l, got c base B k ec fuel e t = CReturn b /\ batch_of B l b /\
  forall x, In x l -> sd_im1 x <> None /\ sd_im2 x <> None.
Proof.
  intros e t HT. destruct (built D c g base B L k ec s0 HE HC HM) as (HO & Hc & HB & HL & _).
  destruct (draws_ok D c g base B L k ec s0 HE HC HM e) as (D1 & D2 & D3).
  pose proof D1 as D1'. rewrite <- HB in D1'. pose proof D2 as D2'. rewrite <- HL in D2'. pose proof D3 as D3'. rewrite <- HL in D3'.
  pose proof (order_no_faults D (s_files base) ec C (order k ec e) (draws k ec e) HO D1' D2' D3' HS) as NF.
  destruct GO as [LO|SP].
  - destruct (got_loop D c g base B L k ec s0 C fuel HE HC HM HD HR HS Hf e t LO) as (b & l & E & Bo & I). exists b, l.
    split; [exact E|]. split; [exact Bo|]. intros x Hx. exact (pictured_epoch C _ HI NF x (I x Hx)).
  - destruct (got_spread D c g base B L k ec s0 C fuel HE HC HM HD HR HS HF Hf e t (SP e) HT) as (b & l & E & Bo & Ll & Hl).
    injection E as E. rewrite D1 in Bo, Ll. exists b, l. split; [exact E|]. split; [exact Bo|]. intros x Hx. apply In_nth_error in Hx.
    destruct Hx as (i & Hi). assert (HiB : i < B) by (rewrite <- Ll; apply nth_error_Some; congruence).
    destruct (nth_error (draws k ec e) i) as [[d s]|] eqn:W; [|apply nth_error_None in W; lia].
    destruct (Hl i d s W) as (p & y & _ & Cp & Ly). assert (x = y) by congruence. subst y. eapply HI; [exact Cp | left; reflexivity].
Qed.

Lemma fed_real : forall e t, t < L ->
  exists r1 r2, fd_images1 (fed c base B k ec fuel e t) = Some r1 /\ fd_images2 (fed c base B k ec fuel e t) = Some r2 /\
    (spread L (draws k ec e) -> forall dn,
     shows_real_step B C (dir_files D) (draws k ec e) t
       (mkBatch (combine r1 r2) (fd_flows (fed c base B k ec fuel e t)) dn (fd_mask (fed c base B k ec fuel e t)) (fd_files (fed c base B k ec fuel e t)))).
Proof.
  intros e t HT. destruct (got_pictured e t HT) as (b & l & E & Bo & PI).
  assert (FE : fed c base B k ec fuel e t = fdata_of b) by (unfold fed; rewrite E; reflexivity). rewrite FE.
  destruct (batch_pictures B 0 (fun j => nth_error l j) l b Bo) as (r1 & r2 & R1 & R2 & L1 & L2 & P).
  { intros i _. reflexivity. }
  { intros i s Hs. apply PI. eapply nth_error_In, Hs. }
  exists r1, r2. split; [exact R1|]. split; [exact R2|]. intros SP dn.
  destruct (got_spread D c g base B L k ec s0 C fuel HE HC HM HD HR HS HF Hf e t SP HT) as (b' & l' & E' & Bo' & Ll & Hl).
  injection E' as E'. rewrite E in E'. injection E' as <-. rewrite (proj1 (draws_ok D c g base B L k ec s0 HE HC HM e)) in Bo', Ll.
  destruct (batch_pictures B 0 (fun j => nth_error l' j) l' b Bo') as (r1' & r2' & R1' & R2' & _ & _ & P').
  { intros i _. reflexivity. }
  { intros i s Hs. assert (Hi : i < B) by (rewrite <- Ll; apply nth_error_Some; congruence).
    destruct (nth_error (draws k ec e) i) as [[d s']|] eqn:W;
      [|apply nth_error_None in W; rewrite (proj1 (draws_ok D c g base B L k ec s0 HE HC HM e)) in W; lia].
    destruct (Hl i d s' W) as (p & y & _ & Cp & Ly). assert (s = y) by congruence. subst y. eapply HI; [exact Cp | left; reflexivity]. }
  rewrite R1 in R1'. injection R1' as <-. rewrite R2 in R2'. injection R2' as <-.
  assert (CA : carries (imgt := arr) field_of B 0 (fun j => nth_error l' j) (fdata_of b)) by (apply (batch_carries B 0 _ l' b Bo'); reflexivity).
  destruct CA as [CL CA]. split; [cbn [ba_images]; rewrite combine_length; lia|]. split; [exact CL|]. intros i Hi.
  destruct (nth_error (draws k ec e) i) as [[d s]|] eqn:W.
  2:{ apply nth_error_None in W. rewrite (proj1 (draws_ok D c g base B L k ec s0 HE HC HM e)) in W. lia. }
  destruct (Hl i d s W) as (p & x & Ep & Cp & Lx). destruct (P' i Hi) as (a0 & a1 & A0 & A1 & PP). cbn [plus] in PP. rewrite Lx in PP.
  destruct PP as [P0 P1]. destruct (CA i Hi) as (LB & f & Ef & FO). cbn [plus] in LB, FO. rewrite Lx in LB, FO. cbn [field_of] in FO. subst f.
  exists d, s, p, x, a0, a1. split; [reflexivity|]. split; [exact Ep|]. split; [exact Cp|].
  split; [exact LB|]. split; [exact Ef|]. split; [exact P0|]. split; [exact P1|]. cbn [ba_images].
  clear - A0 A1. revert r2 i A0 A1. induction r1 as [|q r1 IH]; intros [|q' r2] [|i] H1 H2; cbn in *; try discriminate; [congruence | apply IH; assumption].
Qed.
End Episodes.
