(** The dialogue of the configuration check. *)
From Coq Require Import List Arith ZArith QArith String Bool Ascii Lia.
From Verif Require Import Prelude Model.PyVal Model.Files Model.Types Model.Make Model.Sanity Spec.SanitySpec
  Proofs.MakeProofs Proofs.SanityText.
Import ListNotations.
Local Open Scope string_scope.
Local Open Scope nat_scope.

Lemma dict_in_value : forall k d, dict_in d k = match value_of k d with Some _ => true | None => false end.
Proof.
  intros k d; induction d as [|[k' v] d IH]; [reflexivity|]. unfold dict_in in *. cbn [existsb fst value_of].
  destruct (String.eqb k k'); [reflexivity|exact IH].
Qed.

Lemma valid_paths_spec : forall w l fl, valid_paths w l = Some fl <->
  l = map PStr fl /\ forall p, In p fl -> sw_isfile w p = true /\ ends_with p ".h5" = true.
Proof.
  intros w; induction l as [|v l IH]; intros fl; cbn [valid_paths].
  - split; [intros E; inversion E; split; [reflexivity|intros p []]|]. intros [E _]. destruct fl; [reflexivity|discriminate].
  - split.
    + destruct v; try discriminate. destruct (sw_isfile w s && ends_with s ".h5") eqn:B; [|discriminate].
      destruct (valid_paths w l) as [fl'|] eqn:E; [|discriminate]. intros H; inversion H; subst.
      destruct (proj1 (IH fl') eq_refl) as [-> I]. split; [reflexivity|]. apply andb_true_iff in B.
      intros p [<-|J]; auto.
    + intros [E I]. destruct fl as [|p fl]; [discriminate|]. inversion E; subst. cbn [map].
      destruct (I p (or_introl eq_refl)) as [-> ->]. cbn [andb].
      rewrite (proj2 (IH fl)); [reflexivity|]. split; [reflexivity|]. intros; apply I; right; auto.
Qed.

Lemma missing_spec : forall d, missing_speeds d <> [] <-> speed_missing d.
Proof.
  intros d. unfold missing_speeds, speed_missing, speed_keys. split.
  - intros H. destruct (filter _ _) as [|k l] eqn:E; [congruence|].
    assert (I : In k (k :: l)) by (left; auto). rewrite <- E in I. apply filter_In in I. destruct I as [I B].
    exists k. split; [exact I|]. intros v V. rewrite dict_in_value, value_get, V in B. cbn in B. apply negb_true_iff in B. exact B.
  - intros (k & I & V) E.
    assert (J : In k (filter (fun k => negb (dict_in d k && is_number (dict_get d k PNone)))
                        ["max_speed_x"; "max_speed_y"; "min_speed_x"; "min_speed_y"])).
    { apply filter_In. split; [exact I|]. rewrite dict_in_value, value_get. destruct (value_of k d) eqn:G; [|reflexivity].
      rewrite (V _ eq_refl). reflexivity. }
    rewrite E in J. destruct J.
Qed.

Lemma not_missing : forall d, missing_speeds d = [] ->
  forall k, In k speed_keys -> exists v, value_of k d = Some v /\ is_number v = true.
Proof.
  intros d E k I. destruct (value_of k d) as [v|] eqn:G.
  - exists v. split; auto. destruct (is_number v) eqn:N; auto. exfalso. apply (proj2 (missing_spec d)); auto.
    exists k. split; auto. intros v' E'. congruence.
  - exfalso. apply (proj2 (missing_spec d)); auto. exists k. split; auto. intros v' E'. congruence.
Qed.

(** All that [panel] does. *)
Lemma panel_cases : forall w disk answers r disk', panel w disk answers = (r, disk') ->
  (disk' = disk /\ (exists e, r = Err e)) \/
  (exists d fl, sw_load w disk = Ok d /\ listed_files w d fl /\
    ((missing_speeds d = [] /\ disk' = disk /\ r = Ok (map (fun k => dict_get d k PNone) speed_keys)) \/
     (exists s rest, missing_speeds d <> [] /\ answers = "1" :: rest /\ calculate_speeds (sw_h5 w) fl = Ok s /\
        disk' = new_text (sw_text w) d (speeds_dict s) /\
        ((exists e, r = Err e) \/
         r = Ok [PFloat (max_x s); PFloat (max_y s); PFloat (min_x s); PFloat (min_y s)])))).
Proof.
  intros w disk answers r disk' H. unfold panel in H.
  destruct (sw_load w disk) as [d|e] eqn:EL; [|inversion H; subst; left; eauto].
  assert (BAD : (Err ValueError, disk) = (r, disk') -> disk' = disk /\ exists e, r = Err e)
    by (intros E; inversion E; subst; eauto).
  rewrite value_get in H.
  destruct (value_of "file_list" d) as [[| | | | |l| | ]|] eqn:EF; try (left; apply BAD; exact H).
  destruct l as [|x l]; [left; apply BAD; exact H|].
  destruct (valid_paths w (x :: l)) as [fl|] eqn:EV; [|left; apply BAD; exact H].
  apply valid_paths_spec in EV. destruct EV as [EV HF].
  assert (LF : listed_files w d fl).
  { split; [rewrite EF, EV; reflexivity|]. split; [intros ->; discriminate|exact HF]. }
  destruct (missing_speeds d) as [|k ks] eqn:EM.
  - right. exists d, fl. split; auto. split; auto. left. inversion H. auto.
  - unfold ask in H. destruct answers as [|a answers]; [inversion H; subst; left; eauto|].
    destruct (String.eqb_spec a "1") as [->|N]; [|inversion H; subst; left; eauto].
    destruct (calculate_speeds (sw_h5 w) fl) as [s|e] eqn:EC; [|inversion H; subst; left; eauto].
    right. exists d, fl. split; auto. split; auto. right. exists s, answers. rewrite EM.
    split; [discriminate|]. split; [reflexivity|]. split; [exact EC|].
    destruct answers as [|b answers]; [inversion H; subst; split; eauto|].
    destruct (String.eqb b "y" || String.eqb b "Y"); inversion H; subst; split; eauto.
Qed.

Lemma panel_untouched : forall w disk answers r disk', panel w disk answers = (r, disk') -> disk' <> disk ->
  exists d fl s rest, sw_load w disk = Ok d /\ listed_files w d fl /\ speed_missing d /\ answers = "1" :: rest /\
    calculate_speeds (sw_h5 w) fl = Ok s /\ disk' = new_text (sw_text w) d (speeds_dict s).
Proof.
  intros w disk answers r disk' H N.
  destruct (panel_cases _ _ _ _ _ H) as [[E _]|(d & fl & E1 & E2 & [(_ & E & _)|(s & rest & M & A & C & D & _)])]; try congruence.
  exists d, fl, s, rest. apply missing_spec in M. repeat (split; [assumption|]). assumption.
Qed.

(** A computed configuration is read back completely. *)
Lemma computed_back : forall w rd d fl s, reads_yaml w rd -> listed_files w d fl -> rewritable rd (sw_text w) d s ->
  exists d', sw_load w (new_text (sw_text w) d (speeds_dict s)) = Ok d' /\ listed_files w d' fl /\
    (forall k, ~ In k speed_keys -> value_of k d' = value_of k d) /\
    value_of "max_speed_x" d' = Some (PFloat (max_x s)) /\ value_of "max_speed_y" d' = Some (PFloat (max_y s)) /\
    value_of "min_speed_x" d' = Some (PFloat (min_x s)) /\ value_of "min_speed_y" d' = Some (PFloat (min_y s)).
Proof.
  intros w rd d fl s RY (F1 & F2 & F3) (R1 & R2 & R3 & R4 & R5).
  assert (NU : NoDup (map fst (speeds_dict s))).
  { cbn. repeat constructor; cbn; intuition discriminate. }
  destruct (rewritten rd (sw_text w) d (speeds_dict s) R1 NU) as (d' & Y & V & FL & _).
  - intros k [K|K]; [apply R2; exact K|]. cbn in K.
    destruct K as [<-|[<-|[<-|[<-|[]]]]]; (split; [apply one_line_lit; reflexivity|split; reflexivity]).
  - intros k v N E. cbn [speeds_dict value_of] in E.
    destruct (String.eqb_spec k "min_speed_x") as [->|N1]; [inversion E; apply R5; cbn; auto|].
    destruct (String.eqb_spec k "max_speed_x") as [->|N2]; [inversion E; apply R5; cbn; auto|].
    destruct (String.eqb_spec k "min_speed_y") as [->|N3]; [inversion E; apply R5; cbn; auto 6|].
    destruct (String.eqb_spec k "max_speed_y") as [->|N4]; [inversion E; apply R5; cbn; auto|].
    cbn in E. apply (R3 k v E N). cbn. intuition congruence.
  - intros l v E I. cbn in E. apply (R4 l v E I).
  - exists d'. split; [apply RY; exact Y|]. split.
    + split; [|auto]. apply FL; [destruct fl; [congruence|discriminate]|]. cbn. exact F1.
    + split; [|repeat split; rewrite V by discriminate; reflexivity].
      intros k N. destruct (String.eqb_spec k "file_list") as [->|NF].
      * rewrite (FL (map PStr fl)); [symmetry; exact F1|destruct fl; [congruence|discriminate]|exact F1].
      * rewrite V by exact NF. cbn [speeds_dict value_of].
        destruct (String.eqb_spec k "min_speed_x") as [->|N1]; [exfalso; apply N; cbn; auto|].
        destruct (String.eqb_spec k "max_speed_x") as [->|N2]; [exfalso; apply N; cbn; auto|].
        destruct (String.eqb_spec k "min_speed_y") as [->|N3]; [exfalso; apply N; cbn; auto|].
        destruct (String.eqb_spec k "max_speed_y") as [->|N4]; [exfalso; apply N; cbn; auto|]. reflexivity.
Qed.

Lemma panel_given : forall w disk d fl, sw_load w disk = Ok d -> listed_files w d fl -> ~ speed_missing d ->
  forall answers, panel w disk answers = (Ok (map (fun k => dict_get d k PNone) speed_keys), disk).
Proof.
  intros w disk d fl E (F1 & F2 & F3) N answers. unfold panel. rewrite E, value_get, F1.
  assert (EV := proj2 (valid_paths_spec w (map PStr fl) fl) (conj eq_refl F3)).
  destruct fl as [|p fl]; [congruence|]. cbn [map] in *. rewrite EV.
  destruct (missing_speeds d) as [|k l] eqn:EM; [reflexivity|]. exfalso. apply N, missing_spec. rewrite EM. discriminate.
Qed.

Lemma panel_result : forall w rd disk answers r disk', panel w disk answers = (Ok r, disk') -> reads_yaml w rd ->
  (forall d fl s, sw_load w disk = Ok d -> speed_missing d -> listed_files w d fl -> calculate_speeds (sw_h5 w) fl = Ok s ->
     rewritable rd (sw_text w) d s) ->
  (exists d', sw_load w disk' = Ok d' /\
     map (fun k => value_of k d') ["max_speed_x"; "max_speed_y"; "min_speed_x"; "min_speed_y"] = map Some r) /\
  forall answers', panel w disk' answers' = (Ok r, disk').
Proof.
  intros w rd disk answers r disk' H RY RW.
  destruct (panel_cases _ _ _ _ _ H) as [[_ [e E]]|(d & fl & E1 & E2 & [(M & -> & R)|(s & rest & M & A & C & -> & R)])]; [discriminate| |].
  - inversion R; subst r. split.
    + exists d. split; [exact E1|]. pose proof (not_missing d M) as G. cbn [map speed_keys].
      destruct (G "max_speed_x") as (v1 & V1 & _); [cbn; auto|]. destruct (G "max_speed_y") as (v2 & V2 & _); [cbn; auto|].
      destruct (G "min_speed_x") as (v3 & V3 & _); [cbn; auto|]. destruct (G "min_speed_y") as (v4 & V4 & _); [cbn; auto|].
      rewrite !value_get, V1, V2, V3, V4. reflexivity.
    + intros a. eapply panel_given; eauto. intros B. apply missing_spec in B. contradiction.
  - destruct R as [[e R]|R]; [discriminate|]. inversion R; subst r. apply missing_spec in M.
    destruct (computed_back w rd d fl s RY E2 (RW d fl s E1 M E2 C)) as (d' & L & LF & _ & V1 & V2 & V3 & V4). split.
    + exists d'. split; [exact L|]. cbn [map]. rewrite V1, V2, V3, V4. reflexivity.
    + intros a. rewrite (panel_given _ _ d' fl L LF).
      * cbn [map speed_keys]. rewrite !value_get, V1, V2, V3, V4. reflexivity.
      * intros (k & I & B). cbn in I. destruct I as [<-|[<-|[<-|[<-|[]]]]];
          [specialize (B _ V1)|specialize (B _ V2)|specialize (B _ V3)|specialize (B _ V4)]; discriminate.
Qed.

(** The answers. *)
Lemma panel_answers : forall w disk d fl, sw_load w disk = Ok d -> listed_files w d fl -> speed_missing d ->
  (forall a rest, a <> "1" -> panel w disk (a :: rest) = (Err RuntimeError, disk)) /\
  (forall s b rest, calculate_speeds (sw_h5 w) fl = Ok s -> b <> "y" -> b <> "Y" ->
     panel w disk ("1" :: b :: rest) = (Err RuntimeError, new_text (sw_text w) d (speeds_dict s))) /\
  (forall e rest, calculate_speeds (sw_h5 w) fl = Err e -> panel w disk ("1" :: rest) = (Err e, disk)).
Proof.
  intros w disk d fl E (F1 & F2 & F3) M.
  assert (EV := proj2 (valid_paths_spec w (map PStr fl) fl) (conj eq_refl F3)).
  apply missing_spec in M. unfold panel. rewrite E, value_get, F1.
  destruct fl as [|p fl]; [congruence|]. cbn [map] in *. rewrite EV. destruct (missing_speeds d) as [|k l]; [congruence|].
  unfold ask. repeat split.
  - intros a rest N. rewrite (proj2 (String.eqb_neq _ _) N). reflexivity.
  - intros s b rest C N1 N2. cbn [String.eqb Ascii.eqb Bool.eqb]. rewrite C, (proj2 (String.eqb_neq _ _) N1), (proj2 (String.eqb_neq _ _) N2). reflexivity.
  - intros e rest C. cbn [String.eqb Ascii.eqb Bool.eqb]. rewrite C. reflexivity.
Qed.

(** A computed speed whose text is not read back as a number is missing again. *)
Lemma computed_missing : forall w rd d fl s x, reads_yaml w rd -> listed_files w d fl -> NoDup (map fst d) ->
  (forall k, has_key k d -> plain_key k) ->
  (forall k v, value_of k d = Some v -> k <> "file_list" -> one_line (to_text (sw_text w) v)) ->
  (forall p, In p fl -> read_back rd (sw_text w) (PStr p)) ->
  (forall x, one_line (float_text (sw_text w) x)) ->
  In x [max_x s; max_y s; min_x s; min_y s] -> is_number (rd (float_text (sw_text w) x)) = false ->
  exists d', sw_load w (new_text (sw_text w) d (speeds_dict s)) = Ok d' /\ listed_files w d' fl /\ speed_missing d'.
Proof.
  intros w rd d fl s x RY (F1 & F2 & F3) ND PK OL RB FT IX NX.
  assert (NU : NoDup (map fst (speeds_dict s))).
  { cbn. repeat constructor; cbn; intuition discriminate. }
  destruct (rewritten_text rd (sw_text w) d (speeds_dict s) ND NU) as (d' & Y & V & FL & _).
  - intros k [K|K]; [apply PK; exact K|]. cbn in K.
    destruct K as [<-|[<-|[<-|[<-|[]]]]]; (split; [apply one_line_lit; reflexivity|split; reflexivity]).
  - intros k v N E. cbn [speeds_dict value_of] in E.
    destruct (String.eqb k "min_speed_x"); [inversion E; apply FT|].
    destruct (String.eqb k "max_speed_x"); [inversion E; apply FT|].
    destruct (String.eqb k "min_speed_y"); [inversion E; apply FT|].
    destruct (String.eqb k "max_speed_y"); [inversion E; apply FT|].
    cbn in E. apply (OL k v E N).
  - intros l v E I. change (value_of "file_list" d = Some (PList l)) in E. rewrite F1 in E. inversion E; subst l.
    apply in_map_iff in I. destruct I as (p & <- & I). apply (RB p I).
  - exists d'. split; [apply RY; exact Y|]. split.
    + split; [|auto]. rewrite (FL (map PStr fl)); [|destruct fl; [congruence|discriminate]|exact F1].
      do 2 f_equal. rewrite map_map. apply map_ext_in. intros p I. apply (RB p I).
    + cbn in IX. destruct IX as [<-|[<-|[<-|[<-|[]]]]];
        [exists "max_speed_x"|exists "max_speed_y"|exists "min_speed_x"|exists "min_speed_y"];
        (split; [cbn; tauto|]); intros v E; rewrite V in E by discriminate; cbn in E; inversion E; exact NX.
Qed.

(** ** The sampler needs the speeds *)

Lemma item_value : forall d k v, dict_item d k = Ok v -> value_of k d = Some v.
Proof.
  intros d k v H. unfold dict_item in H. rewrite dict_in_value, value_get in H. destruct (value_of k d); [congruence|discriminate].
Qed.

Lemma a_number_is : forall v x, a_number v = Ok x -> is_number v = true.
Proof. intros v x H. unfold a_number in H. destruct v; try discriminate; reflexivity. Qed.

Lemma sampler_speeds : forall w d sch p, synthetic_from_config w d sch = Ok p -> ~ speed_missing d.
Proof.
  intros w d sch p H. unfold synthetic_from_config in H.
  apply bind_ok in H. destruct H as (mask & _ & H). apply bind_ok in H. destruct H as (hist & _ & H). apply bind_ok in H. destruct H as (gs & _ & H).
  unfold synthetic_constructor in H. cbv zeta in H.
  apply bind_ok in H. destruct H as (x1 & _ & H). apply bind_ok in H. destruct H as (x2 & _ & H).
  apply bind_ok in H. destruct H as (x3 & _ & H). apply bind_ok in H. destruct H as (x4 & _ & H).
  apply bind_ok in H. destruct H as (x5 & _ & H). apply bind_ok in H. destruct H as (x6 & _ & H).
  apply bind_ok in H. destruct H as (a & Ha & H). apply bind_ok in H. destruct H as (b & Hb & H).
  apply bind_ok in H. destruct H as (c & Hc & H). apply bind_ok in H. destruct H as (e & He & H).
  apply item_value in Ha, Hb, Hc, He.
  assert (G : is_number a = true /\ is_number b = true /\ is_number c = true /\ is_number e = true).
  { apply bind_ok in H. destruct H as (u & _ & H). destruct (pair_ints (i_image_shape gs)) as [hh ww].
    repeat match goal with
    | H : bind (a_number _) _ = Ok _ |- _ => apply bind_ok in H; let y := fresh in let E := fresh in destruct H as (y & E & H); apply a_number_is in E
    | H : bind _ _ = Ok _ |- _ => apply bind_ok in H; let y := fresh in destruct H as (y & _ & H)
    | H : match ?fs with _ => _ end = Ok _ |- _ => is_var fs; destruct fs; try discriminate H
    end; auto. }
  destruct G as (G1 & G2 & G3 & G4). intros (k & I & B). cbn in I.
  destruct I as [<-|[<-|[<-|[<-|[]]]]]; [specialize (B _ Ha)|specialize (B _ Hb)|specialize (B _ Hc)|specialize (B _ He)]; congruence.
Qed.

Lemma main_valid : forall sw w disk answers disk', main sw w disk answers = (Valid, disk') ->
  disk' = disk /\ (exists d, sw_load sw disk = Ok d /\ ~ speed_missing d) /\
  forall answers', main sw w disk answers' = (Valid, disk).
Proof.
  intros sw w disk answers disk' H. unfold main in H. destruct (sw_load sw disk) as [d|e] eqn:EL; [|discriminate].
  destruct (panel sw disk answers) as [r disk1] eqn:EP. destruct r as [r|e]; [|discriminate].
  destruct (bind (dict_item d "file_list") _) as [p|e] eqn:EB; [|discriminate]. inversion H; subst disk1.
  assert (N : ~ speed_missing d).
  { apply bind_ok in EB. destruct EB as (fl & _ & EB). apply bind_ok in EB. destruct EB as (sch & _ & EB).
    eapply sampler_speeds; eauto. }
  destruct (panel_cases _ _ _ _ _ EP) as [[_ [e E]]|(d1 & fl & E1 & E2 & [(M & -> & R)|(s & rest & M & A & C & -> & R)])]; [discriminate| |].
  - split; [reflexivity|]. split; [eauto|]. intros a. unfold main. assert (d1 = d) by congruence. subst d1.
    rewrite EL, (panel_given _ _ d fl EL E2 N), EB. reflexivity.
  - exfalso. assert (d1 = d) by congruence. subst d1. apply N, missing_spec, M.
Qed.
