(** The speeds computed by the configuration check. *)
From Coq Require Import List Arith ZArith QArith String Bool Lia.
From Verif Require Import Prelude Model.PyVal Model.Sanity Spec.SanitySpec.
Import ListNotations.
Local Open Scope nat_scope.

(** ** Comparisons of numbers other than NaN *)

Lemma leb_refl : forall x, is_nan x = false -> num_leb x x = true.
Proof. intros [|[]|q] H; try discriminate; auto. cbn. apply Qle_bool_iff, Qle_refl. Qed.

Lemma leb_trans : forall x y z, num_leb x y = true -> num_leb y z = true -> num_leb x z = true.
Proof.
  intros [|[]|p] [|[]|q] [|[]|r]; cbn; intros H1 H2; try discriminate; auto.
  apply Qle_bool_iff in H1, H2. apply Qle_bool_iff. eapply Qle_trans; eauto.
Qed.

Lemma ltb_leb : forall x y, num_ltb x y = true -> num_leb x y = true.
Proof.
  intros [|[]|p] [|[]|q]; cbn; intros H; try discriminate; auto.
  apply Qle_bool_iff. apply negb_true_iff in H. destruct (Qlt_le_dec q p) as [L|L]; [|exact L].
  apply Qlt_le_weak, Qle_bool_iff in L. congruence.
Qed.

Lemma not_ltb : forall x y, is_nan x = false -> is_nan y = false -> num_ltb x y = false -> num_leb y x = true.
Proof.
  intros [|[]|p] [|[]|q]; cbn; intros H1 H2 H; try discriminate; auto.
  apply negb_false_iff in H. exact H.
Qed.

Lemma leb_least : forall x, num_leb x (Inf true) = true -> x = Inf true.
Proof. intros [|[]|q]; cbn; intros H; try discriminate; auto. Qed.
Lemma leb_greatest : forall x, num_leb (Inf false) x = true -> x = Inf false.
Proof. intros [|[]|q]; cbn; intros H; try discriminate; auto. Qed.

(** ** One selection, for maxima and minima alike *)

(** [le a b]: the selection prefers [b]. *)
Record selection : Type := mkSelection {
  sel_f : pynum -> pynum -> pynum;
  sel_le : pynum -> pynum -> bool;
  sel_bot : pynum
}.
Definition sel_ok (s : selection) : Prop :=
  (forall x, is_nan x = false -> sel_le s x x = true) /\
  (forall x y z, sel_le s x y = true -> sel_le s y z = true -> sel_le s x z = true) /\
  (forall a b, sel_f s a b = a \/ sel_f s a b = b) /\
  (forall a b, is_nan a = false -> is_nan b = false -> sel_le s a (sel_f s a b) = true /\ sel_le s b (sel_f s a b) = true) /\
  (forall a, sel_f s a NaN = a) /\
  is_nan (sel_bot s) = false /\
  (forall x, sel_le s x (sel_bot s) = true -> x = sel_bot s).

Definition maxima := mkSelection py_max num_leb (Inf true).
Definition minima := mkSelection py_min (fun a b => num_leb b a) (Inf false).

Lemma maxima_ok : sel_ok maxima.
Proof.
  unfold sel_ok, maxima; cbn [sel_f sel_le sel_bot]. unfold py_max.
  split; [exact leb_refl|]. split; [exact leb_trans|]. split; [intros; destruct (num_ltb a b); auto|].
  split.
  { intros a b Ha Hb. destruct (num_ltb a b) eqn:E.
    - split; [apply ltb_leb; auto|apply leb_refl; auto].
    - split; [apply leb_refl; auto|apply not_ltb; auto]. }
  split; [intros []; try destruct negative; reflexivity|]. split; [reflexivity|]. exact leb_least.
Qed.

Lemma minima_ok : sel_ok minima.
Proof.
  unfold sel_ok, minima; cbn [sel_f sel_le sel_bot]. unfold py_min.
  split; [exact leb_refl|]. split; [intros x y z H1 H2; eapply leb_trans; eauto|]. split; [intros; destruct (num_ltb b a); auto|].
  split.
  { intros a b Ha Hb. destruct (num_ltb b a) eqn:E.
    - split; [apply ltb_leb; auto|apply leb_refl; auto].
    - split; [apply leb_refl; auto|apply not_ltb; auto]. }
  split; [reflexivity|]. split; [reflexivity|]. exact leb_greatest.
Qed.

Section Select.
Variable sel : selection.
Hypothesis OK : sel_ok sel.

Definition tight (values : pynum -> Prop) (x : pynum) : Prop :=
  values x /\ forall v, values v -> sel_le sel v x = true.

Lemma fold_sel : forall l x, is_nan x = false -> (forall v, In v l -> is_nan v = false) ->
  tight (fun v => v = x \/ In v l) (fold_left (sel_f sel) l x).
Proof.
  destruct OK as (R & T & C & U & _). induction l as [|y l IH]; intros x Hx Hl; cbn [fold_left].
  - split; [left; auto|]. intros v [->|[]]. apply R; auto.
  - assert (Hy : is_nan y = false) by (apply Hl; left; auto).
    assert (Hz : is_nan (sel_f sel x y) = false) by (destruct (C x y) as [-> | ->]; auto).
    destruct (IH (sel_f sel x y) Hz ltac:(intros; apply Hl; right; auto)) as [I1 I2].
    destruct (U x y Hx Hy) as [U1 U2]. split.
    + destruct I1 as [E|I]; [|right; right; exact I]. rewrite E. destruct (C x y) as [-> | ->]; [left|right; left]; auto.
    + intros v [->|[<-|I]]; [eapply T; [exact U1|apply I2; auto]|eapply T; [exact U2|apply I2; auto]|apply I2; right; auto].
Qed.

Lemma np_fold_spec : forall l, l <> [] -> exists m, np_fold (sel_f sel) l = Ok m /\
  (In NaN l -> m = NaN) /\ (~ In NaN l -> is_nan m = false /\ tight (fun v => In v l) m).
Proof.
  intros [|x l] H; [congruence|]. unfold np_fold. destruct (existsb is_nan (x :: l)) eqn:E.
  - eexists; split; [reflexivity|]. split; auto. intros N. exfalso. apply existsb_exists in E.
    destruct E as ([| |] & I & E); try discriminate. auto.
  - assert (HN : forall v, In v (x :: l) -> is_nan v = false).
    { intros v I. destruct (is_nan v) eqn:Ev; auto. rewrite <- E. symmetry. apply existsb_exists. eauto. }
    eexists; split; [reflexivity|]. split.
    { intros I. apply HN in I. discriminate. }
    intros _. destruct (fold_sel l x (HN x (or_introl eq_refl)) ltac:(intros; apply HN; right; auto)) as [F1 F2].
    split.
    + apply HN. destruct F1 as [E1|I]; [rewrite E1; left; auto|right; auto].
    + split; [destruct F1 as [E1|I]; [left; auto|right; auto]|]. intros v [<-|I]; apply F2; auto.
Qed.

(** The running value after the lists [ls]: those with a NaN do not count. *)
Lemma running : forall ls x r, is_nan x = false ->
  Forall (fun l => l <> []) ls ->
  (forall ms, Forall2 (fun l m => np_fold (sel_f sel) l = Ok m) ls ms -> fold_left (sel_f sel) ms x = r) ->
  (r = x \/ exists l, In l ls /\ ~ In NaN l /\ In r l) /\ is_nan r = false /\ sel_le sel x r = true /\
  forall l v, In l ls -> ~ In NaN l -> In v l -> sel_le sel v r = true.
Proof.
  destruct OK as (R & T & C & U & N & _). induction ls as [|l ls IH]; intros x r Hx HF H.
  - specialize (H [] (Forall2_nil _)). cbn in H. subst r. split; [auto|]. split; [auto|]. split; [auto|]. intros l v [].
  - inversion HF as [|? ? Hl HF']; subst. destruct (np_fold_spec l Hl) as (m & E & M1 & M2).
    assert (HN : In NaN l \/ ~ In NaN l).
    { destruct (in_dec (fun a b : bool => bool_dec a b) true (map is_nan l)) as [I|I].
      - left. apply in_map_iff in I. destruct I as ([| |] & I & J); try discriminate. exact J.
      - right. intros J. apply I. apply in_map_iff. exists NaN. auto. }
    assert (H' : forall ms, Forall2 (fun l m => np_fold (sel_f sel) l = Ok m) ls ms -> fold_left (sel_f sel) ms (sel_f sel x m) = r).
    { intros ms Hms. apply (H (m :: ms)). constructor; auto. }
    destruct HN as [HN|HN].
    + rewrite (M1 HN), N in H'. destruct (IH x r Hx HF' H') as (I1 & I2 & I3 & I4).
      split; [destruct I1 as [I1|(l' & J1 & J2 & J3)]; [left; auto|right; exists l'; split; [right; auto|auto]]|].
      split; auto. split; auto. intros l' v [<-|J]; [tauto|apply I4; auto].
    + destruct (M2 HN) as [Hm [T1 T2]]. destruct (U x m Hx Hm) as [U1 U2].
      assert (Hz : is_nan (sel_f sel x m) = false) by (destruct (C x m) as [-> | ->]; auto).
      destruct (IH (sel_f sel x m) r Hz HF' H') as (I1 & I2 & I3 & I4). split; [|split; [|split]]; auto.
      * destruct I1 as [I1|(l' & J1 & J2 & J3)]; [|right; exists l'; split; [right; auto|auto]].
        destruct (C x m) as [E1|E1]; rewrite E1 in I1; [left; auto|right; exists l; subst r; split; [left; auto|auto]].
      * eapply T; eauto.
      * intros l' v [<-|J] J2 J3; [|eapply I4; eauto]. eapply T; [apply T2; exact J3|]. eapply T; [exact U2|exact I3].
Qed.
End Select.

(** ** Files *)

Lemma size_split : forall sh, sh <> [] -> size sh = size (removelast sh) * last sh 0.
Proof.
  intros sh H. rewrite (app_removelast_last 0 H) at 1. generalize (removelast sh) as l. generalize (last sh 0) as n.
  intros n l. unfold size. induction l as [|x l IH]; cbn; [lia|]. cbn in IH. rewrite IH. lia.
Qed.

Lemma shape_facts : forall sh, flow_shape_ok sh ->
  sh <> [] /\ 2 <= last sh 0 /\ ((List.length sh =? 4) || ((List.length sh =? 3) && (last sh 0 =? 2))) = true.
Proof.
  intros sh [(a & b & c & n & -> & H)|(a & b & ->)].
  - split; [discriminate|]. split; [exact H|reflexivity].
  - split; [discriminate|]. split; [cbn; lia|reflexivity].
Qed.

(** Component [c] of all vectors. *)
Definition values_of (c : nat) (a : farr) : list pynum :=
  map (fun i => nth (i * last (f_shape a) 0 + c) (f_data a) NaN) (seq 0 (size (removelast (f_shape a)))).

Lemma channel_values : forall h a c, flow_file h a -> c < 2 ->
  channel c a = Ok (values_of c a) /\ values_of c a <> [] /\ forall v, In v (values_of c a) <-> component a c v.
Proof.
  intros h a c (_ & HS & HD & HL) Hc. destruct (shape_facts _ HS) as (H1 & H2 & _).
  assert (HZ := size_split _ H1). unfold channel, values_of.
  assert (E : (c <? last (f_shape a) 0) = true) by (apply Nat.ltb_lt; lia). rewrite E.
  split; [reflexivity|]. set (n := last (f_shape a) 0) in *. set (N := size (removelast (f_shape a))) in *. split.
  - intros M. apply map_eq_nil in M. destruct N; [|discriminate]. cbn in HZ. rewrite HZ in HL. destruct (f_data a); [congruence|discriminate].
  - intros v. rewrite in_map_iff. unfold component. fold n. split.
    + intros (i & <- & I). exists i. apply in_seq in I. apply nth_error_nth'. rewrite HL, HZ. nia.
    + intros (i & I). exists i. split; [apply nth_error_nth; exact I|]. apply in_seq.
      assert (L : i * n + c < List.length (f_data a)) by (apply nth_error_Some; congruence). rewrite HL, HZ in L. nia.
Qed.

Lemma file_speeds_ok : forall h a s, flow_file h a ->
  exists mx my nx ny, np_fold py_max (values_of 0 a) = Ok mx /\ np_fold py_max (values_of 1 a) = Ok my /\
    np_fold py_min (values_of 0 a) = Ok nx /\ np_fold py_min (values_of 1 a) = Ok ny /\
    file_speeds h s = Ok (mkSpeeds (py_max (max_x s) mx) (py_max (max_y s) my) (py_min (min_x s) nx) (py_min (min_y s) ny)).
Proof.
  intros h a s HF. pose proof HF as (Eh & HS & _). destruct (shape_facts _ HS) as (_ & _ & EB).
  destruct (channel_values _ _ 0 HF ltac:(lia)) as (C0 & N0 & _). destruct (channel_values _ _ 1 HF ltac:(lia)) as (C1 & N1 & _).
  destruct (np_fold_spec maxima maxima_ok _ N0) as (mx & A1 & _). destruct (np_fold_spec maxima maxima_ok _ N1) as (my & A2 & _).
  destruct (np_fold_spec minima minima_ok _ N0) as (nx & A3 & _). destruct (np_fold_spec minima minima_ok _ N1) as (ny & A4 & _).
  exists mx, my, nx, ny. cbn [maxima minima sel_f] in *. repeat (split; [assumption|]).
  subst h. unfold file_speeds. rewrite EB, C0, C1. cbn [bind]. unfold np_max, np_min. rewrite A1, A2, A3, A4. reflexivity.
Qed.

(** The running speeds are four independent folds. *)
Lemma speeds_folds : forall (disk : string -> h5num) (fl : list string) arrs s, Forall2 (fun p a => flow_file (disk p) a) fl arrs ->
  exists r, speeds_from disk fl s = Ok r /\
    (forall ms, Forall2 (fun l m => np_fold py_max l = Ok m) (map (values_of 0) arrs) ms -> fold_left py_max ms (max_x s) = max_x r) /\
    (forall ms, Forall2 (fun l m => np_fold py_max l = Ok m) (map (values_of 1) arrs) ms -> fold_left py_max ms (max_y s) = max_y r) /\
    (forall ms, Forall2 (fun l m => np_fold py_min l = Ok m) (map (values_of 0) arrs) ms -> fold_left py_min ms (min_x s) = min_x r) /\
    (forall ms, Forall2 (fun l m => np_fold py_min l = Ok m) (map (values_of 1) arrs) ms -> fold_left py_min ms (min_y s) = min_y r).
Proof.
  intros disk fl arrs s H. revert s. induction H as [|p a fl arrs HF HR IH]; intros s.
  - exists s. split; [reflexivity|]. repeat split; intros ms Hm; inversion Hm; reflexivity.
  - destruct (file_speeds_ok _ _ s HF) as (mx & my & nx & ny & A1 & A2 & A3 & A4 & E).
    destruct (IH (mkSpeeds (py_max (max_x s) mx) (py_max (max_y s) my) (py_min (min_x s) nx) (py_min (min_y s) ny)))
      as (r & E' & B1 & B2 & B3 & B4). cbn [max_x max_y min_x min_y] in *.
    exists r. cbn [speeds_from]. rewrite E. cbn [bind]. split; [exact E'|]. cbn [map].
    repeat split; intros ms Hm; inversion Hm as [|? m ? ms' Q1 Q2]; subst; cbn [fold_left].
    + rewrite A1 in Q1. inversion Q1; subst. apply B1; auto.
    + rewrite A2 in Q1. inversion Q1; subst. apply B2; auto.
    + rewrite A3 in Q1. inversion Q1; subst. apply B3; auto.
    + rewrite A4 in Q1. inversion Q1; subst. apply B4; auto.
Qed.

(** The values that count: component [c] of the files without NaN there. *)
Definition counted (disk : string -> h5num) (fl : list string) (c : nat) (v : pynum) : Prop :=
  exists p a, In p fl /\ disk p = HArr a /\ ~ component a c NaN /\ component a c v.

Lemma files_arrays : forall (disk : string -> h5num) (fl : list string), (forall p, In p fl -> exists a, flow_file (disk p) a) ->
  exists arrs, Forall2 (fun p a => flow_file (disk p) a) fl arrs.
Proof.
  intros disk fl; induction fl as [|p fl IH]; intros H; [exists []; constructor|].
  destruct (H p (or_introl eq_refl)) as [a Ha]. destruct IH as [arrs Hr]; [intros; apply H; right; auto|].
  exists (a :: arrs). constructor; auto.
Qed.

Lemma in_arrays : forall (R : string -> farr -> Prop) fl arrs, Forall2 R fl arrs ->
  (forall a, In a arrs -> exists p, In p fl /\ R p a) /\ (forall p, In p fl -> exists a, In a arrs /\ R p a).
Proof.
  intros R fl arrs H; induction H as [|p a fl arrs H1 H2 [I1 I2]]; [split; intros ? []|]. split.
  - intros x [<-|I]; [exists p; split; [left|]; auto|]. destruct (I1 x I) as (q & J & K). exists q; split; [right|]; auto.
  - intros x [<-|I]; [exists a; split; [left|]; auto|]. destruct (I2 x I) as (b & J & K). exists b; split; [right|]; auto.
Qed.

Lemma select_counted : forall sel (disk : string -> h5num) (fl : list string) arrs c r, sel_ok sel -> c < 2 ->
  Forall2 (fun p a => flow_file (disk p) a) fl arrs ->
  (forall ms, Forall2 (fun l m => np_fold (sel_f sel) l = Ok m) (map (values_of c) arrs) ms -> fold_left (sel_f sel) ms (sel_bot sel) = r) ->
  ((exists v, counted disk fl c v) -> tight sel (counted disk fl c) r) /\
  ((forall v, ~ counted disk fl c v) -> r = sel_bot sel).
Proof.
  intros sel disk fl arrs c r OK Hc HF H. pose proof OK as (R & T & C & U & _ & BN & BL).
  destruct (in_arrays _ _ _ HF) as [IA IF].
  assert (NE : Forall (fun l => l <> []) (map (values_of c) arrs)).
  { apply Forall_forall. intros l I. apply in_map_iff in I. destruct I as (a & <- & I). destruct (IA a I) as (p & _ & K).
    apply (channel_values _ _ c K Hc). }
  assert (VC : forall v, (exists l, In l (map (values_of c) arrs) /\ ~ In NaN l /\ In v l) <-> counted disk fl c v).
  { intros v. split.
    - intros (l & I & N & J). apply in_map_iff in I. destruct I as (a & <- & I). destruct (IA a I) as (p & I' & K).
      destruct (channel_values _ _ c K Hc) as (_ & _ & Q). exists p, a. split; auto. split; [apply K|].
      split; [intros M; apply N, Q, M|apply Q; auto].
    - intros (p & a & I & E & N & J). destruct (IF p I) as (b & I' & K). destruct K as (E' & K).
      assert (b = a) by congruence. subst b. exists (values_of c a).
      destruct (channel_values _ _ c (conj E' K) Hc) as (_ & _ & Q).
      split; [apply in_map; auto|]. split; [intros M; apply N, Q, M|apply Q; auto]. }
  destruct (running sel OK _ _ r BN NE H) as (I1 & I2 & I3 & I4). split.
  - intros (v & Hv). assert (AB : forall u, counted disk fl c u -> sel_le sel u r = true).
    { intros u Hu. apply VC in Hu. destruct Hu as (l & J1 & J2 & J3). eapply I4; eauto. }
    split; [|exact AB]. destruct I1 as [->|I1]; [|apply VC; exact I1].
    assert (E := BL v (AB v Hv)). subst v. exact Hv.
  - intros N. destruct I1 as [->|I1]; [reflexivity|]. exfalso. apply (N r). apply VC. exact I1.
Qed.

Lemma speeds_general : forall disk fl, (forall p, In p fl -> exists a, flow_file (disk p) a) ->
  exists s, calculate_speeds disk fl = Ok s /\
    forall c hi lo, (c = 0 /\ hi = max_x s /\ lo = min_x s) \/ (c = 1 /\ hi = max_y s /\ lo = min_y s) ->
      ((exists v, counted disk fl c v) -> tight_max (counted disk fl c) hi /\ tight_min (counted disk fl c) lo) /\
      ((forall v, ~ counted disk fl c v) -> hi = Inf true /\ lo = Inf false).
Proof.
  intros disk fl H. destruct (files_arrays _ _ H) as [arrs HF].
  destruct (speeds_folds disk fl arrs speeds0 HF) as (s & E & B1 & B2 & B3 & B4). exists s. split; [exact E|].
  cbn [speeds0 max_x max_y min_x min_y] in *.
  intros c hi lo [(-> & -> & ->)|(-> & -> & ->)].
  - destruct (select_counted maxima disk fl arrs 0 _ maxima_ok ltac:(lia) HF B1) as [P1 P2].
    destruct (select_counted minima disk fl arrs 0 _ minima_ok ltac:(lia) HF B3) as [Q1 Q2].
    split; [intros V; split; [apply (P1 V)|apply (Q1 V)]|intros V; split; [apply (P2 V)|apply (Q2 V)]].
  - destruct (select_counted maxima disk fl arrs 1 _ maxima_ok ltac:(lia) HF B2) as [P1 P2].
    destruct (select_counted minima disk fl arrs 1 _ minima_ok ltac:(lia) HF B4) as [Q1 Q2].
    split; [intros V; split; [apply (P1 V)|apply (Q1 V)]|intros V; split; [apply (P2 V)|apply (Q2 V)]].
Qed.

Lemma has_component : forall h a c, flow_file h a -> c < 2 -> exists v, component a c v.
Proof.
  intros h a c H Hc. destruct (channel_values _ _ c H Hc) as (_ & N & Q). destruct (values_of c a) as [|v l] eqn:E; [congruence|].
  exists v. apply Q. left; auto.
Qed.

Lemma speeds_tight : forall disk fl, fl <> [] -> (forall p, In p fl -> exists a, flow_file (disk p) a) ->
  exists s, calculate_speeds disk fl = Ok s /\
    ((forall p, In p fl -> clean disk 0 p) -> tight_max (found disk fl 0) (max_x s) /\ tight_min (found disk fl 0) (min_x s)) /\
    ((forall p, In p fl -> clean disk 1 p) -> tight_max (found disk fl 1) (max_y s) /\ tight_min (found disk fl 1) (min_y s)).
Proof.
  intros disk fl NE H. destruct (speeds_general disk fl H) as (s & E & G). exists s. split; [exact E|].
  assert (Q : forall c, c < 2 -> (forall p, In p fl -> clean disk c p) ->
    (exists v, counted disk fl c v) /\ forall v, counted disk fl c v <-> found disk fl c v).
  { intros c Hc HC. split.
    - destruct fl as [|p fl]; [congruence|]. destruct (H p (or_introl eq_refl)) as [a Ha].
      destruct (has_component _ _ c Ha Hc) as [v Hv]. exists v, p, a. split; [left; auto|]. split; [apply Ha|].
      split; [apply (HC p (or_introl eq_refl)); apply Ha|exact Hv].
    - intros v. split; [intros (p & a & I & D & _ & V); exists p, a; auto|].
      intros (p & a & I & D & V). exists p, a. repeat split; auto. apply (HC p I a D). }
  split; intros HC.
  - destruct (Q 0 ltac:(lia) HC) as [V VE]. destruct (G 0 _ _ (or_introl (conj eq_refl (conj eq_refl eq_refl)))) as [G1 _].
    destruct (G1 V) as [[T1 T2] [T3 T4]]. split; (split; [apply VE; auto|intros v Hv]).
    + apply T2, VE, Hv.
    + apply T4, VE, Hv.
  - destruct (Q 1 ltac:(lia) HC) as [V VE]. destruct (G 1 _ _ (or_intror (conj eq_refl (conj eq_refl eq_refl)))) as [G1 _].
    destruct (G1 V) as [[T1 T2] [T3 T4]]. split; (split; [apply VE; auto|intros v Hv]).
    + apply T2, VE, Hv.
    + apply T4, VE, Hv.
Qed.

(** Anything else is refused. *)
Lemma speeds_refused : forall disk fl s0 s,
  (forall p a, In p fl -> disk p = HArr a -> List.length (f_data a) = size (f_shape a)) ->
  speeds_from disk fl s0 = Ok s -> forall p, In p fl -> exists a, flow_file (disk p) a.
Proof.
  intros disk fl; induction fl as [|q fl IH]; intros s0 s W H p I; [destruct I|].
  cbn [speeds_from] in H. destruct (file_speeds (disk q) s0) as [s1|e] eqn:E; [|discriminate]. cbn [bind] in H.
  destruct I as [<-|I]; [|eapply IH; eauto; intros; eapply W; eauto; right; auto].
  destruct (disk q) as [e| | |a] eqn:D; cbn [file_speeds] in E; try discriminate. exists a.
  split; [reflexivity|].
  destruct ((List.length (f_shape a) =? 4) || ((List.length (f_shape a) =? 3) && (last (f_shape a) 0 =? 2))) eqn:B; [|discriminate].
  unfold channel in E.
  destruct (0 <? last (f_shape a) 0) eqn:L0; [|discriminate]. destruct (1 <? last (f_shape a) 0) eqn:L1; [|discriminate].
  cbn [bind] in E. apply Nat.ltb_lt in L1.
  assert (L := W q a (or_introl eq_refl) D).
  split; [|split; [|exact L]].
  - apply orb_true_iff in B. destruct B as [B|B].
    + apply Nat.eqb_eq in B. left. destruct (f_shape a) as [|x1 [|x2 [|x3 [|x4 [|]]]]]; try discriminate. exists x1, x2, x3, x4. split; auto.
    + apply andb_true_iff in B. destruct B as [B1 B2]. apply Nat.eqb_eq in B1, B2. right.
      destruct (f_shape a) as [|x1 [|x2 [|x3 [|]]]]; try discriminate. cbn in B2. subst. eauto.
  - intros M. rewrite M in L. assert (NE : f_shape a <> []) by (intros Z; rewrite Z in L1; cbn in L1; lia).
    rewrite (size_split _ NE) in L. cbn in L. symmetry in L. apply Nat.mul_eq_0 in L. destruct L as [L|L]; [|lia].
    rewrite L in E. cbn in E. discriminate.
Qed.
