(** Proofs about the base scheduler. *)
From Coq Require Import List Arith Lia String Bool QArith Permutation.
From Verif Require Import Prelude Model.Base Spec.BaseSpec.
Import ListNotations.
Local Open Scope nat_scope.

(** * Pending events *)

Inductive ev : Type := Good (x : SchedData) | Bad (e : exn).

Definition events (C : string -> content) (p : string) : list ev :=
  match C p with
  | Unreadable => []
  | Slices l => map Good l
  | Faulty l e => map Good l ++ [Bad e]
  end.

Definition prev_of (C : string -> content) (p : string) : option string :=
  match C p with Unreadable => None | _ => Some p end.

Fixpoint tail_events (C : string -> content) (prev : option string)
         (l : list string) : list ev :=
  match l with
  | [] => []
  | p :: l =>
      (if opt_str_eqb prev p then [] else events C p)
        ++ tail_events C (prev_of C p) l
  end.

Definition pending (C : string -> content) (s : st) : list ev :=
  match skipn (s_index s) (s_files s) with
  | [] => []
  | p :: l =>
      (if opt_str_eqb (s_cfile s) p
       then skipn (s_slice s) (events C p) else events C p)
        ++ tail_events C (prev_of C p) l
  end.

Definition Inv (c : cfg) (C : string -> content) (s : st) : Prop :=
  match s_cfile s with
  | None => True
  | Some p =>
      exists d, s_cdata s = Some d /\ load_file (c_loader c) p = Ok d /\
        forall l e, C p = Faulty l e -> s_slice s <= List.length l
  end.

Lemma opt_str_eqb_true : forall o p, opt_str_eqb o p = true <-> o = Some p.
Proof.
  intros [q|] p; simpl; split; intro H; try discriminate.
  - apply String.eqb_eq in H; congruence.
  - apply String.eqb_eq; congruence.
Qed.

Lemma skipn_nth_cons : forall A (l : list A) i x,
  nth_error l i = Some x -> skipn i l = x :: skipn (S i) l.
Proof.
  intros A l; induction l as [|a l IH]; intros [|i] x H; simpl in *; try discriminate.
  - congruence.
  - rewrite (IH i x H). destruct l; reflexivity.
Qed.

Lemma skipn_nth_none : forall A (l : list A) i,
  nth_error l i = None -> skipn i l = [].
Proof.
  intros A l i H. apply nth_error_None in H. apply skipn_all2; lia.
Qed.

Section WithDisk.
Variable c : cfg.
Variable C : string -> content.
Hypothesis HD : disk (c_loader c) C.

Lemma pending_next : forall s p,
  nth_error (s_files s) (s_index s) = Some p ->
  pending C s =
    (if opt_str_eqb (s_cfile s) p
     then skipn (s_slice s) (events C p) else events C p)
      ++ tail_events C (prev_of C p) (skipn (S (s_index s)) (s_files s)).
Proof.
  intros s p H. unfold pending. rewrite (skipn_nth_cons _ _ _ _ H). reflexivity.
Qed.

(** Extraction from a cached file. *)
Lemma slice_cached : forall p d i,
  load_file (c_loader c) p = Ok d ->
  (forall l e, C p = Faulty l e -> i <= List.length l) ->
  match get_next_slice (c_loader c) (Some d) (Some p) i with
  | SItem x => skipn i (events C p) = Good x :: skipn (S i) (events C p)
      /\ (forall l e, C p = Faulty l e -> S i <= List.length l)
  | SEnded => skipn i (events C p) = []
  | SRaise e => skipn i (events C p) = [Bad e]
  end.
Proof.
  intros p d i Hl Hf. pose proof (HD p) as H. unfold events.
  destruct (C p) as [|l|l e] eqn:EC.
  - destruct H as [e He]; congruence.
  - destruct H as [d' [Hd Hs]]. assert (d' = d) by congruence; subst d'.
    rewrite Hs. destruct (nth_error l i) as [x|] eqn:En.
    + split; [|intros; discriminate].
      apply skipn_nth_cons. apply map_nth_error; exact En.
    + apply skipn_nth_none. apply nth_error_None. rewrite map_length.
      apply nth_error_None; exact En.
  - destruct H as [d' [Hd [Hs He]]]. assert (d' = d) by congruence; subst d'.
    pose proof (Hf l e eq_refl) as Hi.
    destruct (Nat.eq_dec i (List.length l)) as [->|Hne].
    + rewrite He. rewrite skipn_app, map_length, Nat.sub_diag.
      rewrite skipn_all2 by (rewrite map_length; lia). reflexivity.
    + rewrite Hs by lia. destruct (nth_error l i) as [x|] eqn:En.
      * split.
        -- apply skipn_nth_cons. rewrite nth_error_app1 by (rewrite map_length; lia).
           apply map_nth_error; exact En.
        -- intros l' e' E. inversion E; subst. lia.
      * apply nth_error_None in En. lia.
Qed.

Lemma prev_loaded : forall p d, load_file (c_loader c) p = Ok d -> prev_of C p = Some p.
Proof.
  intros p d H. pose proof (HD p) as HP. unfold prev_of.
  destruct (C p); auto. destruct HP as [e He]; congruence.
Qed.

Lemma pending_advance : forall s p,
  nth_error (s_files s) (s_index s) = Some p ->
  s_cfile s = prev_of C p ->
  (s_cfile s = Some p -> skipn (s_slice s) (events C p) = []) ->
  pending C (with_index s (S (s_index s))) =
  tail_events C (prev_of C p) (skipn (S (s_index s)) (s_files s)).
Proof.
  intros s p Hn Hc Hs. unfold pending.
  change (s_index (with_index s (S (s_index s)))) with (S (s_index s)).
  change (s_files (with_index s (S (s_index s)))) with (s_files s).
  change (s_cfile (with_index s (S (s_index s)))) with (s_cfile s).
  change (s_slice (with_index s (S (s_index s)))) with (s_slice s).
  destruct (skipn (S (s_index s)) (s_files s)) as [|q l] eqn:Eq; auto.
  cbn [tail_events]. rewrite <- Hc.
  destruct (opt_str_eqb (s_cfile s) q) eqn:E; auto.
  apply opt_str_eqb_true in E. f_equal.
  assert (p = q).
  { rewrite Hc in E. unfold prev_of in E. destruct (C p); congruence. }
  subst q. apply Hs. exact E.
Qed.

Lemma next_body_spec : forall s,
  Inv c C s -> s_index s < List.length (s_files s) ->
  match next_body c s with
  | inl s' => Inv c C s' /\ pending C s' = pending C s
      /\ s_index s' = S (s_index s) /\ s_files s' = s_files s
      /\ s_key s' = s_key s
  | inr (NItem x, s') => Inv c C s' /\ pending C s = Good x :: pending C s'
      /\ s_index s' = s_index s /\ s_files s' = s_files s
      /\ s_key s' = s_key s
  | inr (NRaise e, s') => Inv c C s' /\ (exists r, pending C s = Bad e :: r)
      /\ pending C s' = pending C s
      /\ s_index s' = s_index s /\ s_files s' = s_files s
      /\ s_key s' = s_key s
  | inr (NOutOfFuel, _) => False
  end.
Proof.
  intros s HI Hlt. unfold next_body.
  destruct (nth_error (s_files s) (s_index s)) as [p|] eqn:En.
  2: { apply nth_error_None in En; lia. }
  destruct (opt_str_eqb (s_cfile s) p) eqn:Ec.
  - (* cached *)
    pose proof Ec as Ec'. apply opt_str_eqb_true in Ec. unfold Inv in HI. rewrite Ec in HI.
    destruct HI as [d [Hd [Hl Hf]]]. rewrite Hd, Ec.
    pose proof (slice_cached p d (s_slice s) Hl Hf) as HS.
    destruct (get_next_slice (c_loader c) (Some d) (Some p) (s_slice s)) as [x| |e].
    + destruct HS as [HS HS2]. split.
      { unfold Inv; simpl. rewrite Ec. exists d. auto. }
      split; [|auto].
      rewrite (pending_next s p En), Ec', HS.
      rewrite (pending_next (with_slice s (S (s_slice s))) p En). simpl.
      rewrite Ec'. reflexivity.
    + split.
      { unfold Inv; simpl. rewrite Ec. exists d. auto. }
      split; [|auto].
      rewrite (pending_advance s p En).
      * rewrite (pending_next s p En), Ec', HS. reflexivity.
      * rewrite Ec. symmetry. eapply prev_loaded; eauto.
      * intros _. exact HS.
    + split.
      { unfold Inv. rewrite Ec. exists d. auto. }
      split; [|auto].
      rewrite (pending_next s p En), Ec', HS. eexists; reflexivity.
  - destruct (load_file (c_loader c) p) as [d|e] eqn:Hl.
    + set (s1 := with_cache (with_cache s None None (s_slice s)) (Some d) (Some p) 0).
      assert (En1 : nth_error (s_files s1) (s_index s1) = Some p) by exact En.
      assert (Ep : pending C s1 = pending C s).
      { rewrite (pending_next s1 p En1), (pending_next s p En), Ec. simpl.
        rewrite String.eqb_refl. reflexivity. }
      pose proof (slice_cached p d 0 Hl) as HS.
      assert (H0 : forall (l : list SchedData) (e : exn), C p = Faulty l e -> 0 <= List.length l)
        by (intros; lia).
      specialize (HS H0). change (s_cdata s1) with (Some d).
      change (s_cfile s1) with (Some p). change (s_slice s1) with 0.
      destruct (get_next_slice (c_loader c) (Some d) (Some p) 0) as [x| |e].
      * destruct HS as [HS HS2]. split.
        { unfold Inv; simpl. exists d. auto. }
        split; [|auto]. rewrite <- Ep.
        rewrite (pending_next s1 p En1).
        rewrite (pending_next (with_slice s1 1) p En1).
        change (s_cfile s1) with (Some p).
        change (s_cfile (with_slice s1 1)) with (Some p).
        change (s_slice s1) with 0. change (s_slice (with_slice s1 1)) with 1.
        simpl opt_str_eqb. rewrite String.eqb_refl.
        rewrite HS. reflexivity.
      * split.
        { unfold Inv; simpl. exists d. auto. }
        split; [|auto]. rewrite <- Ep.
        change (S (s_index s)) with (S (s_index s1)).
        rewrite (pending_advance s1 p En1).
        -- rewrite (pending_next s1 p En1). simpl opt_str_eqb.
           rewrite String.eqb_refl. change (s_slice s1) with 0.
           rewrite HS. reflexivity.
        -- simpl. symmetry. eapply prev_loaded; eauto.
        -- intros _. exact HS.
      * split.
        { unfold Inv; simpl. exists d. auto. }
        split.
        { rewrite <- Ep. rewrite (pending_next s1 p En1). simpl opt_str_eqb.
          rewrite String.eqb_refl. change (s_slice s1) with 0.
          rewrite HS. eexists; reflexivity. }
        split; [exact Ep|auto].
    + (* load failure *)
      split; [exact I|]. split; [|auto].
      assert (HC : C p = Unreadable).
      { pose proof (HD p) as HP. destruct (C p); auto;
        destruct HP as [d [HP _]]; congruence. }
      set (s1 := with_cache s None None (s_slice s)).
      change (S (s_index s)) with (S (s_index s1)).
      rewrite (pending_advance s1 p En).
      * rewrite (pending_next s p En), Ec. unfold events. rewrite HC. reflexivity.
      * simpl. unfold prev_of. rewrite HC. reflexivity.
      * simpl. discriminate.
Qed.

Lemma reset_inv : forall s, Inv c C (reset c s).
Proof.
  intros s. unfold reset, Inv. destruct (c_randomize c); simpl; auto.
Qed.

Lemma reset_index : forall s, s_index (reset c s) = 0.
Proof. intros s. unfold reset. destruct (c_randomize c); reflexivity. Qed.

(** [get_next] while the current pass still has something pending. *)
Lemma get_next_pending : forall fuel s,
  Inv c C s -> pending C s <> [] ->
  List.length (s_files s) - s_index s < fuel ->
  exists s', Inv c C s' /\ s_files s' = s_files s /\ s_key s' = s_key s /\
    match pending C s with
    | [] => False
    | Good x :: r => get_next c fuel s = (NItem x, s') /\ pending C s' = r
    | Bad e :: r => get_next c fuel s = (NRaise e, s') /\ pending C s' = pending C s
    end.
Proof.
  induction fuel as [|fuel IH]; intros s HI Hp Hf; [lia|].
  assert (Hlt : s_index s < List.length (s_files s)).
  { destruct (Nat.lt_ge_cases (s_index s) (List.length (s_files s))); auto.
    exfalso; apply Hp. unfold pending. rewrite skipn_all2 by lia. reflexivity. }
  simpl get_next.
  replace (s_index s <? List.length (s_files s)) with true
    by (symmetry; apply Nat.ltb_lt; lia). simpl.
  replace (List.length (s_files s) <=? s_index s) with false
    by (symmetry; apply Nat.leb_gt; lia).
  pose proof (next_body_spec s HI Hlt) as HB.
  destruct (next_body c s) as [s'|[[x|e|] s']].
  - destruct HB as [HI' [Hpe [Hi [Hfl Hk]]]].
    destruct (IH s' HI') as [s'' [H1 [H2 [H3 H4]]]].
    + rewrite Hpe; exact Hp.
    + rewrite Hfl, Hi. lia.
    + exists s''. rewrite Hpe in H4. repeat split; auto; congruence.
  - destruct HB as [HI' [Hpe [Hi [Hfl Hk]]]].
    exists s'. rewrite Hpe. repeat split; auto.
  - destruct HB as [HI' [[r Hpe] [Hp' [Hi [Hfl Hk]]]]].
    exists s'. rewrite Hpe. rewrite Hpe in Hp'. repeat split; auto.
  - contradiction.
Qed.

(** Nothing pending: the loop runs off the end of the list. *)
Lemma get_next_drain : forall m s,
  Inv c C s -> pending C s = [] -> List.length (s_files s) - s_index s = m ->
  exists s', Inv c C s' /\ s_files s' = s_files s /\ s_key s' = s_key s /\
    pending C s' = [] /\ List.length (s_files s) <= s_index s' /\
    forall fuel, get_next c (m + fuel) s = get_next c fuel s'.
Proof.
  induction m as [|m IH]; intros s HI Hp Hm.
  - exists s. repeat split; auto. lia.
  - assert (Hlt : s_index s < List.length (s_files s)) by lia.
    pose proof (next_body_spec s HI Hlt) as HB.
    destruct (next_body c s) as [s'|[[x|e|] s']] eqn:EB.
    + destruct HB as [HI' [Hpe [Hi [Hfl Hk]]]].
      destruct (IH s' HI') as [s'' [H1 [H2 [H3 [H4 [H5 H6]]]]]].
      * congruence.
      * rewrite Hfl, Hi; lia.
      * exists s''. repeat split; auto; try congruence.
        intro fuel. simpl.
        replace (s_index s <? List.length (s_files s)) with true
             by (symmetry; apply Nat.ltb_lt; lia). simpl.
           replace (List.length (s_files s) <=? s_index s) with false
             by (symmetry; apply Nat.leb_gt; lia).
           rewrite EB. apply H6.
    + destruct HB as [_ [Hpe _]]. rewrite Hp in Hpe. discriminate.
    + destruct HB as [_ [[r Hpe] _]]. rewrite Hp in Hpe. discriminate.
    + contradiction.
Qed.

Lemma get_next_stop : forall fuel s,
  c_loop c = false -> Inv c C s -> pending C s = [] ->
  List.length (s_files s) - s_index s < fuel ->
  exists s', get_next c fuel s = (NRaise StopIteration, s') /\ Inv c C s' /\
    s_files s' = s_files s /\ s_key s' = s_key s /\ pending C s' = [].
Proof.
  intros fuel s Hl HI Hp Hf.
  destruct (get_next_drain _ s HI Hp eq_refl) as [s' [H1 [H2 [H3 [H4 [H5 H6]]]]]].
  exists s'. split; [|auto].
  replace fuel with (List.length (s_files s) - s_index s
     + S (fuel - S (List.length (s_files s) - s_index s))) by lia.
  rewrite H6. simpl. rewrite H2, Hl.
  replace (s_index s' <? List.length (s_files s)) with false
    by (symmetry; apply Nat.ltb_ge; lia). reflexivity.
Qed.

Lemma shuffle_length : forall g k fl,
  List.length (rperm g k (List.length fl)) = List.length fl ->
  List.length (shuffle g k fl) = List.length fl.
Proof. intros g k fl H. unfold shuffle. rewrite map_length; exact H. Qed.

(** Wrap-around. *)
Lemma get_next_wrap : forall fuel s,
  c_loop c = true -> Inv c C s -> pending C s = [] ->
  0 < List.length (s_files (reset c s)) ->
  List.length (s_files s) - s_index s < fuel ->
  exists s', Inv c C s' /\ s_files s' = s_files s /\ s_key s' = s_key s /\
    get_next c fuel s =
    get_next c (fuel - (List.length (s_files s) - s_index s)) (reset c s').
Proof.
  intros fuel s Hl HI Hp Hne Hf.
  destruct (get_next_drain _ s HI Hp eq_refl) as [s' [H1 [H2 [H3 [H4 [H5 H6]]]]]].
  exists s'. split; [exact H1|]. split; [exact H2|]. split; [exact H3|].
  set (m := List.length (s_files s) - s_index s) in *.
  replace fuel with (m + S (fuel - S m)) at 1 by lia. rewrite H6.
  replace (fuel - m) with (S (fuel - S m)) by lia.
  assert (Hr : List.length (s_files (reset c s')) = List.length (s_files (reset c s))).
  { unfold reset. rewrite H2, H3. destruct (c_randomize c); reflexivity. }
  simpl. rewrite Hl, !orb_true_r. rewrite H2.
  replace (List.length (s_files s) <=? s_index s') with true
    by (symmetry; apply Nat.leb_le; lia).
  replace (List.length (s_files (reset c s')) <=? s_index (reset c s')) with false; auto.
  symmetry. apply Nat.leb_gt. rewrite reset_index. lia.
Qed.

End WithDisk.
