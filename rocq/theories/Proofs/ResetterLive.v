(** [reset] with concurrent readers: it returns, and afterwards batches arrive
    (C129). *)
From Coq Require Import List Arith Bool Lia.
From Verif Require Import Model.Prefetch Spec.PrefetchSpec Model.Readers Spec.ReadersSpec Model.Resetter Spec.ResetterSpec
  Proofs.PrefetchProofs Proofs.ReadersProofs Proofs.StopperProofs Proofs.ResetterProofs.
Import ListNotations.
Local Open Scope nat_scope.

Section P.
Variable sc : sched.
Variables B N : nat.
Hypothesis HN : 1 <= N.
Notation exc := (gexec sc B N).

(** Room for what the thread still puts once the stop event is set. *)
Definition room (p : pst sc) : Prop := List.length (p_queue p) + pend sc (p_worker p) <= N.

Lemma worker_room : forall p l e p', worker_label l = true -> p_stop p = true -> room p ->
  pstep sc B N p l = Some (e, p') -> p_stop p' = true /\ room p'.
Proof.
  intros [v q stp w sta t pc] l e p' WL S R H. cbn [p_stop] in S. subst stp. unfold room in *.
  cbn [p_queue p_worker] in R.
  destruct l; try discriminate WL; cbn [pstep p_worker p_stop p_queue] in H; destruct w; try discriminate H; cbn [pend] in R.
  - injection H as <- <-. cbn. split; [reflexivity|lia].
  - injection H as <- <-. unfold fetch. cbn [p_sched]. destruct (sc_get sc v) as [[b| | |] v']; cbn; try (split; [reflexivity|lia]).
    destruct (sc_len sc); [destruct (sc_next sc v')|]; cbn; split; reflexivity || lia.
  - destruct (Nat.ltb_spec (List.length q) N); [|discriminate]. injection H as <- <-. cbn. rewrite app_length. cbn. split; [reflexivity|lia].
  - destruct (Nat.ltb_spec (List.length q) N); [|discriminate]. injection H as <- <-. cbn. rewrite app_length. cbn. split; [reflexivity|lia].
  - destruct (List.length q <? N); [discriminate|]. injection H as <- <-. cbn. split; [reflexivity|lia].
  - unfold force in H. cbn [p_queue] in H. destruct q as [|x q]; injection H as <- <-; cbn; [split; [reflexivity|lia]|].
    cbn in R. rewrite app_length. cbn. split; [reflexivity|lia].
  - injection H as <- <-. cbn. split; [reflexivity|lia].
Qed.

(** What readers and background thread do to the stop event, and to the room. *)
Lemma rstep_stop : forall s l e s', rstep sc B N s l = Some (e, s') ->
  (p_stop (r_sh s) = true -> p_stop (r_sh s') = true) /\
  (p_stop (r_sh s) = true -> room (r_sh s) -> room (r_sh s')) /\
  (alive (p_worker (r_sh s)) = false -> p_stop (r_sh s') = p_stop (r_sh s)).
Proof.
  intros s l e s' H. destruct l as [i m|i|i|l]; cbn [rstep] in H.
  - destruct (r_pc s i); try discriminate. destruct (m =? B); injection H as <- <-; auto.
  - destruct (r_pc s i) as [| | | | | |x|x t|x] eqn:PC; try discriminate.
    + injection H as <- <-. auto.
    + injection H as <- <-. auto.
    + destruct (p_worker (r_sh s)) eqn:W; injection H as <- <-; unfold room; cbn; rewrite ?W; auto.
    + destruct (sc_len sc) as [L|]; [destruct (L <=? p_t (r_sh s))|]; injection H as <- <-; auto.
    + destruct (p_queue (r_sh s)) as [|x q] eqn:Q; [discriminate|]. injection H as <- <-. unfold room. rewrite Q. cbn.
      split; [auto|]. split; [intros; lia|auto].
    + injection H as <- <-. auto.
    + injection H as <- <-. auto.
    + destruct x; injection H as <- <-; auto.
  - destruct (r_pc s i); try discriminate. destruct (p_queue (r_sh s)) eqn:Q; [|discriminate]. injection H as <- <-. auto.
  - destruct (worker_label l) eqn:WL; [|discriminate].
    destruct (pstep sc B N (r_sh s) l) as [[e1 p']|] eqn:P; [|discriminate]. injection H as <- <-. cbn [r_sh].
    split; [|split].
    + intros S. destruct s as [[v q stp w sta t pc] rp]. cbn [r_sh p_stop] in S, P. subst stp.
      destruct l; try discriminate WL; cbn [pstep p_worker p_stop p_queue] in P; destruct w; try discriminate P.
      * injection P as <- <-. reflexivity.
      * injection P as <- <-. unfold fetch. cbn [p_sched]. destruct (sc_get sc v) as [[b| | |] v']; try reflexivity.
        destruct (sc_len sc); [destruct (sc_next sc v')|]; reflexivity.
      * destruct (_ <? _); [|discriminate]. injection P as <- <-. reflexivity.
      * destruct (_ <? _); [|discriminate]. injection P as <- <-. reflexivity.
      * destruct (_ <? _); [discriminate|]. injection P as <- <-. reflexivity.
      * unfold force in P. cbn [p_queue] in P. destruct q; injection P as <- <-; reflexivity.
      * injection P as <- <-. reflexivity.
    + intros S R. exact (proj2 (worker_room _ _ _ _ WL S R P)).
    + intros A. exfalso. destruct l; try discriminate WL; cbn [pstep] in P; destruct (p_worker (r_sh s)); discriminate.
Qed.

Record linv (s : gst sc) : Prop := mkLI {
  li_stop : (g_pc s = GPoll \/ g_pc s = GJoin) -> p_stop (r_sh (g_r s)) = true;
  li_room : g_pc s = GJoin -> room (r_sh (g_r s));
  li_unset : (g_pc s = GQueue \/ g_pc s = GThread) -> p_stop (r_sh (g_r s)) = false
}.

Lemma linv_exec : forall u ls es s, exc (ginit sc u) ls es s -> linv s.
Proof.
  intros u ls es s H. induction H as [|ls l es e s1 s2 H IH K].
  - constructor; cbn; intuition discriminate.
  - pose proof (ginv_exec sc B N _ _ _ _ HN H) as [(n & C & L & _) [A _] _ _].
    destruct IH as [S R U]. destruct l as [l| |]; cbn [gstep] in K.
    + destruct (greader sc B N s1 l) as [[e1 r']|] eqn:G; [|discriminate]. injection K as <- <-.
      assert (X : (p_stop (r_sh (g_r s1)) = true -> p_stop (r_sh r') = true) /\
        (p_stop (r_sh (g_r s1)) = true -> room (r_sh (g_r s1)) -> room (r_sh r')) /\
        (alive (p_worker (r_sh (g_r s1))) = false -> p_stop (r_sh r') = p_stop (r_sh (g_r s1)))).
      { destruct (greader_rstep sc B N _ _ _ _ G) as [G'|(i & _ & _ & E)]; [exact (rstep_stop _ _ _ _ G') | rewrite E; auto]. }
      destruct X as (X1 & X2 & X3). constructor; cbn [g_r g_pc].
      * auto.
      * intros P. apply X2; auto.
      * intros P. rewrite X3; [auto|]. apply A. destruct P as [-> | ->]; reflexivity.
    + destruct (g_pc s1) eqn:PC; try discriminate. injection K as <- <-. constructor; cbn; intuition discriminate.
    + destruct (g_pc s1) eqn:PC; try discriminate.
      * destruct (p_queue (r_sh (g_r s1))) as [|x q] eqn:QQ; injection K as <- <-; constructor; cbn; try (intuition discriminate);
          try (intros _; apply S; auto); intros _; unfold room;
          (assert (PL : pend sc (p_worker (r_sh (g_r s1))) <= 1) by apply pend_le).
        -- rewrite QQ. cbn. lia.
        -- cbn in L |- *. lia.
      * destruct (alive (p_worker (r_sh (g_r s1)))); [discriminate|]. injection K as <- <-. constructor; cbn; intuition discriminate.
      * injection K as <- <-. constructor; cbn; intuition discriminate.
      * injection K as <- <-. constructor; cbn; intuition discriminate.
      * injection K as <- <-. constructor; cbn; intuition discriminate.
      * injection K as <- <-. constructor; cbn; intuition discriminate.
      * injection K as <- <-. constructor; cbn; intuition discriminate.
      * injection K as <- <-. constructor; cbn; [intuition discriminate | discriminate | intros _; apply U; auto].
      * injection K as <- <-. constructor; cbn; intuition discriminate.
Qed.

(** The thread ends by itself. *)
Definition rank (w : wpc sc) : nat :=
  match w with WFetch => 6 | WEosPut => 5 | WForce => 4 | WSetStop => 3 | WPut _ => 2 | WCheck => 1 | _ => 0 end.

Lemma worker_goes : forall p, p_stop p = true -> room p -> alive (p_worker p) = true ->
  exists l e p', worker_label l = true /\ pstep sc B N p l = Some (e, p') /\ rank (p_worker p') < rank (p_worker p).
Proof.
  intros [v q stp w sta t pc] S R A. cbn [p_stop] in S. subst stp. unfold room in R. cbn [p_queue p_worker] in *.
  destruct w as [| | |b| | | | |]; try discriminate A; cbn [pend] in R.
  - exists LWCheck. eexists. eexists. split; [reflexivity|]. split; [reflexivity|]. cbn. lia.
  - exists LWFetch. eexists. eexists. split; [reflexivity|]. split; [reflexivity|]. unfold fetch. cbn [p_sched].
    destruct (sc_get sc v) as [[b| | |] v']; cbn; try lia. destruct (sc_len sc); [destruct (sc_next sc v')|]; cbn; lia.
  - exists LWPut. assert (F : List.length q <? N = true) by (apply Nat.ltb_lt; lia).
    eexists. eexists. split; [reflexivity|]. split; [cbn [pstep p_worker p_queue]; rewrite F; reflexivity|]. cbn. lia.
  - destruct (List.length q <? N) eqn:F.
    + exists LWEosPut. eexists. eexists. split; [reflexivity|]. split; [cbn [pstep p_worker p_queue]; rewrite F; reflexivity|]. cbn. lia.
    + exists LWEosFull. eexists. eexists. split; [reflexivity|]. split; [cbn [pstep p_worker p_queue]; rewrite F; reflexivity|]. cbn. lia.
  - exists LWForce. destruct q as [|x q]; eexists; eexists; (split; [reflexivity|]); (split; [reflexivity|]); cbn; lia.
  - exists LWSetStop. eexists. eexists. split; [reflexivity|]. split; [reflexivity|]. cbn. lia.
Qed.

Lemma g_ends : forall k s, rank (p_worker (r_sh (g_r s))) <= k -> p_stop (r_sh (g_r s)) = true -> room (r_sh (g_r s)) ->
  exists ls es s', exc s (map GR (map RWork ls)) es s' /\ alive (p_worker (r_sh (g_r s'))) = false /\ g_pc s' = g_pc s.
Proof.
  induction k as [|k IH]; intros s K S R; destruct (alive (p_worker (r_sh (g_r s)))) eqn:A;
    try (exists [], [], s; split; [constructor | auto]; fail).
  - destruct (p_worker (r_sh (g_r s))); try discriminate A; cbn in K; lia.
  - destruct (worker_goes _ S R A) as (l & e & p' & WL & P & D).
    set (r1 := mkR p' (r_pc (g_r s))).
    assert (ST : gstep sc B N s (GR (RWork l)) = Some (map GEv (map RWorker e), mkG r1 (g_pc s) (old_after sc s r1))).
    { cbn [gstep greader rstep]. rewrite WL, P. reflexivity. }
    destruct (worker_room _ _ _ _ WL S R P) as [S1 R1].
    destruct (IH (mkG r1 (g_pc s) (old_after sc s r1))) as (ls & es & s' & E & A' & PC); [cbn; lia | exact S1 | exact R1 |].
    exists (l :: ls). eexists. exists s'. split; [|split; [exact A' | exact PC]].
    change (map GR (map RWork (l :: ls))) with ([GR (RWork l)] ++ map GR (map RWork ls)).
    apply (gexec_app sc B N s _ _ _ _ _ _ (gexec_snoc sc B N s [] _ [] _ s _ (gexec_nil sc B N s) ST) E).
Qed.

Lemma g_returns : forall u ls es s, exc (ginit sc u) ls es s -> g_pc s = GJoin ->
  exists ls2 es2 s2, exc s (map GR (map RWork ls2)) es2 s2 /\ g_pc s2 = GJoin /\ gstep sc B N s2 GStep <> None.
Proof.
  intros u ls es s H PC. destruct (linv_exec _ _ _ _ H) as [S R _].
  destruct (g_ends _ s (le_n _) (S (or_intror PC)) (R PC)) as (ls2 & es2 & s2 & E & A & P).
  exists ls2, es2, s2. split; [exact E|]. rewrite PC in P. split; [exact P|]. cbn [gstep]. rewrite P, A. discriminate.
Qed.

Definition order (c : gpc) : nat :=
  match c with GSched => 0 | GCount => 1 | GFlag => 2 | GUnset => 3 | GQueue => 4 | GThread => 5 | _ => 6 end.

Definition fresh (v : sc_state sc) (s : gst sc) : Prop :=
  let p := r_sh (g_r s) in
  (joined (g_pc s) = true \/ g_pc s = GIdle) /\ g_pc s <> GClear /\ alive (p_worker p) = false /\ p_queue p = [] /\
  (p_sched p = if order (g_pc s) <=? 0 then v else sc_reset sc v) /\
  (2 <= order (g_pc s) -> p_t p = 0) /\ (3 <= order (g_pc s) -> p_started p = false) /\
  (4 <= order (g_pc s) -> p_stop p = false) /\ (6 <= order (g_pc s) -> p_worker p = WIdle).

Lemma g_fresh : forall s ls es s', fresh (p_sched (r_sh (g_r s))) s -> exc s ls es s' -> Forall undisturbed ls ->
  fresh (p_sched (r_sh (g_r s))) s'.
Proof.
  intros s ls es s' F H U. set (v := p_sched (r_sh (g_r s))) in *. clearbody v.
  induction H as [|ls l es e s1 s2 H IH K]; [exact F|].
  apply Forall_app in U as [U1 U2]. inversion U2 as [|? ? U _]. subst. specialize (IH U1). clear F U1 U2.
  destruct IH as (J & NC & A & Q & V & T & ST & SP & W). destruct l as [l| |]; cbn [gstep] in K; [|destruct U|].
  - destruct (greader sc B N s1 l) as [[e1 r']|] eqn:R; [|discriminate]. injection K as <- <-.
    assert (E : r_sh r' = r_sh (g_r s1)).
    { destruct l as [i m|i|i|l]; try destruct U; cbn [greader] in R.
      - destruct (now_waits (g_r s1) i && g_old s1 i); [injection R as <- <-; reflexivity|].
        cbn [rstep] in R. destruct (r_pc (g_r s1) i); try discriminate. rewrite Q in R. injection R as <- <-. reflexivity.
      - exfalso. cbn [rstep] in R. destruct (worker_label l) eqn:WL; [|discriminate].
        destruct (pstep sc B N (r_sh (g_r s1)) l) as [[e2 p']|] eqn:PS; [|discriminate].
        destruct l; try discriminate WL; cbn [pstep] in PS; destruct (p_worker (r_sh (g_r s1))); discriminate. }
    unfold fresh. cbn [g_r g_pc]. rewrite E. repeat (split; [assumption|]). assumption.
  - unfold fresh. destruct (g_pc s1) eqn:PC; try (destruct J; discriminate); try congruence; try discriminate K; cbn [order] in *; injection K as <- <-;
      cbn [g_r g_pc r_sh p_worker p_queue p_sched p_t p_started p_stop set_sched set_t clear_started clear_stop set_queue set_worker order joined alive];
      (split; [auto|]); (split; [discriminate|]); repeat (split; [solve [assumption | reflexivity | rewrite V; reflexivity | intros; lia | intros; auto; apply T; lia | intros; apply ST; lia | intros; apply SP; lia]|]);
      solve [intros; lia | reflexivity | intros; reflexivity].
Qed.

Lemma one : forall s l e s1, gstep sc B N s l = Some (e, s1) -> exc s [l] e s1.
Proof. intros s l e s1 K. exact (gexec_snoc sc B N s [] l [] e s s1 (gexec_nil sc B N s) K). Qed.

(** From the fresh state a call that finds nobody else gets the first batch. *)
Definition first_call (i : nat) : list glabel :=
  map GR [RCall i B; RStep i; RStep i; RStep i; RStep i; RWork LWCheck; RWork LWFetch; RWork LWPut; RStep i; RStep i; RStep i; RStep i].

Lemma g_delivers : forall v s i b v', fresh v s -> g_pc s = GIdle -> r_pc (g_r s) i = RIdle ->
  sc_get sc (sc_reset sc v) = (GBatch b, v') -> (forall L, sc_len sc = Some L -> 1 <= L) ->
  exists s', exc s (first_call i) [GEv (RTook i (Data b)); GEv (RCount i); GEv (RReturn i b)] s'.
Proof.
  intros v [[p rp] c o] i b v' F PC RI G LL. cbn [g_pc g_r r_pc] in PC, RI. subst c.
  destruct F as (_ & _ & _ & Q & V & T & ST & SP & W). cbn [g_r r_sh g_pc order] in *.
  specialize (T ltac:(lia)). specialize (ST ltac:(lia)). specialize (SP ltac:(lia)). specialize (W ltac:(lia)).
  destruct p as [v1 q stp w sta t pcc]. cbn in Q, V, T, ST, SP, W. subst.
  assert (NF : 0 <? N = true) by (apply Nat.ltb_lt; exact HN).
  set (P := fun v q w sta t => mkP (sc := sc) v q false w sta t pcc).
  assert (S1 : exists f o', exc (mkG (mkR (P (sc_reset sc v) [] WIdle false 0) rp) GIdle o)
      (map GR [RCall i B; RStep i; RStep i; RStep i; RStep i]) []
      (mkG (mkR (P (sc_reset sc v) [] WCheck true 0) f) GIdle o') /\ f i = RWait /\ o' i = false).
  { change (map GR [RCall i B; RStep i; RStep i; RStep i; RStep i]) with
      ([GR (RCall i B)] ++ [GR (RStep i)] ++ [GR (RStep i)] ++ [GR (RStep i)] ++ [GR (RStep i)]).
    assert (E1 : exists f o', exc (mkG (mkR (P (sc_reset sc v) [] WIdle false 0) rp) GIdle o) [GR (RCall i B)] []
       (mkG (mkR (P (sc_reset sc v) [] WIdle false 0) f) GIdle o') /\ f i = RFlag).
    { eexists. eexists. split; [apply one; cbn [gstep greader rstep g_r r_pc r_sh]; rewrite RI, Nat.eqb_refl; reflexivity|]. apply goes_self. }
    destruct E1 as (f1 & o1 & E1 & I1).
    assert (E2 : exists f o', exc (mkG (mkR (P (sc_reset sc v) [] WIdle false 0) f1) GIdle o1) [GR (RStep i)] []
       (mkG (mkR (P (sc_reset sc v) [] WIdle false 0) f) GIdle o') /\ f i = RSaw).
    { eexists. eexists. split; [apply one; cbn [gstep greader rstep g_r r_pc r_sh]; rewrite I1; reflexivity|]. apply goes_self. }
    destruct E2 as (f2 & o2 & E2 & I2).
    assert (E3 : exists f o', exc (mkG (mkR (P (sc_reset sc v) [] WIdle false 0) f2) GIdle o2) [GR (RStep i)] []
       (mkG (mkR (P (sc_reset sc v) [] WIdle true 0) f) GIdle o') /\ f i = RSet).
    { eexists. eexists. split; [apply one; cbn [gstep greader rstep g_r r_pc r_sh]; rewrite I2; reflexivity|]. apply goes_self. }
    destruct E3 as (f3 & o3 & E3 & I3).
    assert (E4 : exists f o', exc (mkG (mkR (P (sc_reset sc v) [] WIdle true 0) f3) GIdle o3) [GR (RStep i)] []
       (mkG (mkR (P (sc_reset sc v) [] WCheck true 0) f) GIdle o') /\ f i = RLen).
    { eexists. eexists. split; [apply one; cbn [gstep greader rstep g_r r_pc r_sh]; rewrite I3; reflexivity|]. apply goes_self. }
    destruct E4 as (f4 & o4 & E4 & I4).
    assert (E5 : exists f o', exc (mkG (mkR (P (sc_reset sc v) [] WCheck true 0) f4) GIdle o4) [GR (RStep i)] []
       (mkG (mkR (P (sc_reset sc v) [] WCheck true 0) f) GIdle o') /\ f i = RWait /\ o' i = false).
    { eexists. eexists. split; [apply one; cbn [gstep greader rstep g_r r_pc r_sh]; rewrite I4;
        destruct (sc_len sc) as [[|L]|] eqn:LE; [specialize (LL 0 eq_refl); lia | reflexivity | reflexivity]|].
      split; [apply goes_self|]. unfold old_after, now_waits. cbn [g_r r_pc g_old]. rewrite I4, andb_false_r. reflexivity. }
    destruct E5 as (f5 & o5 & E5 & I5 & O5).
    exists f5, o5. split; [|auto].
    exact (gexec_app sc B N _ _ _ _ _ _ _ E1 (gexec_app sc B N _ _ _ _ _ _ _ E2 (gexec_app sc B N _ _ _ _ _ _ _ E3
            (gexec_app sc B N _ _ _ _ _ _ _ E4 E5)))). }
  destruct S1 as (f & o1 & S1 & I1 & O1).
  assert (S2 : exists o', exc (mkG (mkR (P (sc_reset sc v) [] WCheck true 0) f) GIdle o1)
      (map GR [RWork LWCheck; RWork LWFetch; RWork LWPut]) [] (mkG (mkR (P v' [Data b] WCheck true 0) f) GIdle o') /\ o' i = false).
  { assert (OA : forall p o r', o i = false -> old_after sc (mkG (mkR p f) GIdle o) r' i = false).
    { intros p o0 r' E. unfold old_after. cbn [g_old]. rewrite E. reflexivity. }
    assert (E1 : exists o', exc (mkG (mkR (P (sc_reset sc v) [] WCheck true 0) f) GIdle o1) [GR (RWork LWCheck)] []
       (mkG (mkR (P (sc_reset sc v) [] WFetch true 0) f) GIdle o') /\ o' i = false).
    { eexists. split; [apply one; reflexivity | apply OA; exact O1]. }
    destruct E1 as (o2 & E1 & O2).
    assert (E2 : exists o', exc (mkG (mkR (P (sc_reset sc v) [] WFetch true 0) f) GIdle o2) [GR (RWork LWFetch)] []
       (mkG (mkR (P v' [] (WPut b) true 0) f) GIdle o') /\ o' i = false).
    { eexists. split; [apply one; unfold P; cbn [gstep greader rstep worker_label pstep p_worker r_sh g_r]; unfold fetch; cbn [p_sched]; rewrite G; reflexivity
                      | apply OA; exact O2]. }
    destruct E2 as (o3 & E2 & O3).
    assert (E3 : exists o', exc (mkG (mkR (P v' [] (WPut b) true 0) f) GIdle o3) [GR (RWork LWPut)] []
       (mkG (mkR (P v' [Data b] WCheck true 0) f) GIdle o') /\ o' i = false).
    { eexists. split; [apply one; unfold P; cbn [gstep greader rstep worker_label pstep p_worker r_sh g_r p_queue List.length]; rewrite NF; reflexivity
                      | apply OA; exact O3]. }
    destruct E3 as (o4 & E3 & O4).
    exists o4. split; [|exact O4].
    exact (gexec_app sc B N _ _ _ _ _ _ _ E1 (gexec_app sc B N _ _ _ _ _ _ _ E2 E3)). }
  destruct S2 as (o2 & S2 & O2).
  assert (S3 : exists s', exc (mkG (mkR (P v' [Data b] WCheck true 0) f) GIdle o2)
      (map GR [RStep i; RStep i; RStep i; RStep i]) [GEv (RTook i (Data b)); GEv (RCount i); GEv (RReturn i b)] s').
  { assert (E1 : exists f' o', exc (mkG (mkR (P v' [Data b] WCheck true 0) f) GIdle o2) [GR (RStep i)] [GEv (RTook i (Data b))]
       (mkG (mkR (P v' [] WCheck true 0) f') GIdle o') /\ f' i = RHas (Data b)).
    { eexists. eexists. split; [apply one; cbn [gstep greader rstep g_r r_pc r_sh]; rewrite I1; cbn [g_old]; rewrite O2; reflexivity|]. apply goes_self. }
    destruct E1 as (f1 & o3 & E1 & J1).
    assert (E2 : exists f' o', exc (mkG (mkR (P v' [] WCheck true 0) f1) GIdle o3) [GR (RStep i)] []
       (mkG (mkR (P v' [] WCheck true 0) f') GIdle o') /\ f' i = RAdd (Data b) 0).
    { eexists. eexists. split; [apply one; cbn [gstep greader rstep g_r r_pc r_sh]; rewrite J1; reflexivity|]. apply goes_self. }
    destruct E2 as (f2 & o4 & E2 & J2).
    assert (E3 : exists f' o', exc (mkG (mkR (P v' [] WCheck true 0) f2) GIdle o4) [GR (RStep i)] [GEv (RCount i)]
       (mkG (mkR (P v' [] WCheck true 1) f') GIdle o') /\ f' i = RGot (Data b)).
    { eexists. eexists. split; [apply one; cbn [gstep greader rstep g_r r_pc r_sh]; rewrite J2; reflexivity|]. apply goes_self. }
    destruct E3 as (f3 & o5 & E3 & J3).
    assert (E4 : exists s', exc (mkG (mkR (P v' [] WCheck true 1) f3) GIdle o5) [GR (RStep i)] [GEv (RReturn i b)] s').
    { eexists. apply one. cbn [gstep greader rstep g_r r_pc r_sh]. rewrite J3. reflexivity. }
    destruct E4 as (s4 & E4). exists s4.
    exact (gexec_app sc B N _ _ _ _ _ _ _ E1 (gexec_app sc B N _ _ _ _ _ _ _ E2 (gexec_app sc B N _ _ _ _ _ _ _ E3 E4))). }
  destruct S3 as (s' & S3). exists s'.
  exact (gexec_app sc B N _ _ _ _ _ _ _ S1 (gexec_app sc B N _ _ _ _ _ _ _ S2 S3)).
Qed.

Lemma g_again : forall u ls es s ls2 es2 s2 i b v', exc (ginit sc u) ls es s -> g_pc s = GSched ->
  exc s ls2 es2 s2 -> Forall undisturbed ls2 -> g_pc s2 = GIdle -> r_pc (g_r s2) i = RIdle ->
  sc_get sc (sc_reset sc (p_sched (r_sh (g_r s)))) = (GBatch b, v') -> (forall L, sc_len sc = Some L -> 1 <= L) ->
  exists s3, exc s2 (first_call i) [GEv (RTook i (Data b)); GEv (RCount i); GEv (RReturn i b)] s3.
Proof.
  intros u ls es s ls2 es2 s2 i b v' H PC H2 U PC2 RI G LL.
  destruct (ginv_exec sc B N _ _ _ _ HN H) as [_ [A Q] _ _]. rewrite PC in A, Q.
  apply (g_delivers (p_sched (r_sh (g_r s))) s2 i b v'); auto.
  apply (g_fresh s ls2 es2 s2); auto. unfold fresh. rewrite PC. cbn [order joined].
  repeat (split; [first [reflexivity | discriminate | left; reflexivity | discriminate | intros; lia | apply A; reflexivity | apply Q; [reflexivity|discriminate]]|]). intros; lia.
Qed.

End P.
