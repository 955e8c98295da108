(** Properties C66-C68, C83, C84: the configuration check. *)
From Coq Require Import List Arith ZArith QArith String Bool Ascii Lia.
From Verif Require Import Prelude Model.PyVal Model.Files Model.Loaders Model.Geometry Model.Make Model.Sanity Spec.SanitySpec
  Proofs.SanityText Proofs.SanitySpeeds Proofs.SanityPanel Properties.MakeProps.
Import ListNotations.
Local Open Scope string_scope.
Local Open Scope nat_scope.

(** ** C66 *)

(** Without NaN in component [c] the bounds are tight. *)
Theorem C66_tight : forall disk fl, fl <> [] -> (forall p, In p fl -> exists a, flow_file (disk p) a) ->
  exists s, calculate_speeds disk fl = Ok s /\
    ((forall p, In p fl -> clean disk 0 p) -> tight_max (found disk fl 0) (max_x s) /\ tight_min (found disk fl 0) (min_x s)) /\
    ((forall p, In p fl -> clean disk 1 p) -> tight_max (found disk fl 1) (max_y s) /\ tight_min (found disk fl 1) (min_y s)).
Proof. exact speeds_tight. Qed.
Print Assumptions C66_tight.

(** In general a file counts for a component only if it holds no NaN there;
    without any such file the bounds are minus and plus infinity. *)
Theorem C66_nan_files_ignored : forall disk fl, (forall p, In p fl -> exists a, flow_file (disk p) a) ->
  exists s, calculate_speeds disk fl = Ok s /\
    forall c hi lo, (c = 0 /\ hi = max_x s /\ lo = min_x s) \/ (c = 1 /\ hi = max_y s /\ lo = min_y s) ->
      let values v := exists p a, In p fl /\ disk p = HArr a /\ ~ component a c NaN /\ component a c v in
      ((exists v, values v) -> tight_max values hi /\ tight_min values lo) /\
      ((forall v, ~ values v) -> hi = Inf true /\ lo = Inf false).
Proof. exact speeds_general. Qed.
Print Assumptions C66_nan_files_ignored.

(** Only flow files are accepted. *)
Theorem C66_refuses : forall disk fl s,
  (forall p a, In p fl -> disk p = HArr a -> List.length (f_data a) = size (f_shape a)) ->
  calculate_speeds disk fl = Ok s -> forall p, In p fl -> exists a, flow_file (disk p) a.
Proof. intros disk fl s. exact (speeds_refused disk fl speeds0 s). Qed.
Print Assumptions C66_refuses.

(** Two fields of one vector each, and a field with a NaN next to a large value. *)
Definition exS_h5 (p : string) : h5num :=
  if String.eqb p "a.h5" then HArr (mkFarr [1; 1; 2] [Fin 1; Fin (-2)])
  else if String.eqb p "b.h5" then HArr (mkFarr [1; 1; 2; 2] [Fin 5; Fin 3; NaN; Fin 4])
  else if String.eqb p "c.h5" then HArr (mkFarr [1; 2; 2] [Fin 3; Fin 7; Fin (-1); Inf false])
  else HGroup.

Example exS_flow : forall p, In p ["a.h5"; "b.h5"; "c.h5"] -> exists a, flow_file (exS_h5 p) a.
Proof.
  intros p [<-|[<-|[<-|[]]]]; eexists; (split; [reflexivity|split; [|split; [discriminate|reflexivity]]]).
  - right. exists 1, 1. reflexivity.
  - left. exists 1, 1, 2, 2. split; [reflexivity|lia].
  - right. exists 1, 2. reflexivity.
Qed.

Example exS_speeds :
  calculate_speeds exS_h5 ["a.h5"; "b.h5"; "c.h5"] = Ok (mkSpeeds (Fin 3) (Inf false) (Fin (-1)) (Fin (-2))).
Proof. reflexivity. Qed.

(** So a value of the data may lie outside of the bounds. *)
Theorem C66_bounds_refuted : exists disk fl s v, fl <> [] /\ (forall p, In p fl -> exists a, flow_file (disk p) a) /\
  calculate_speeds disk fl = Ok s /\ found disk fl 0 v /\ num_ltb (max_x s) v = true.
Proof.
  exists exS_h5, ["a.h5"; "b.h5"; "c.h5"], (mkSpeeds (Fin 3) (Inf false) (Fin (-1)) (Fin (-2))), (Fin 5).
  split; [discriminate|]. split; [exact exS_flow|]. split; [reflexivity|]. split; [|reflexivity].
  exists "b.h5"%string. eexists. split; [right; left; reflexivity|]. split; [reflexivity|]. exists 0. reflexivity.
Qed.
Print Assumptions C66_bounds_refuted.

(** ** C67 *)

Theorem C67_rewritten : forall rd t d upd, NoDup (map fst d) -> NoDup (map fst upd) ->
  (forall k, has_key k d \/ has_key k upd -> plain_key k) ->
  (forall k v, k <> "file_list" -> or_else (value_of k upd) (value_of k d) = Some v -> read_back rd t v) ->
  (forall l v, or_else (value_of "file_list" upd) (value_of "file_list" d) = Some (PList l) -> In v l -> read_back rd t v) ->
  exists d', yaml_read rd (new_text t d upd) = Some d' /\
    (forall k, k <> "file_list" -> value_of k d' = or_else (value_of k upd) (value_of k d)) /\
    (forall l, l <> [] -> or_else (value_of "file_list" upd) (value_of "file_list" d) = Some (PList l) ->
       value_of "file_list" d' = Some (PList l)) /\
    ((forall l, l <> [] -> or_else (value_of "file_list" upd) (value_of "file_list" d) <> Some (PList l)) ->
       value_of "file_list" d' = None) /\
    exists last, map fst d' = (filter (fun k => negb (String.eqb "file_list" k)) (map fst d) ++
                              filter (fun k => negb (String.eqb "file_list" k) && absent d k) (map fst upd) ++ last)%list /\
                 (last = [] \/ last = ["file_list"]).
Proof. exact rewritten. Qed.
Print Assumptions C67_rewritten.

(** A null entry becomes the string "None", for every reader that takes the
    plain scalar None for a string, as YAML does. *)
Theorem C67_null_becomes_text : forall rd t d upd k, rd "None" = PStr "None" ->
  NoDup (map fst d) -> NoDup (map fst upd) ->
  (forall k, has_key k d \/ has_key k upd -> plain_key k) ->
  (forall k v, k <> "file_list" -> or_else (value_of k upd) (value_of k d) = Some v -> one_line (to_text t v)) ->
  (forall l v, or_else (value_of "file_list" upd) (value_of "file_list" d) = Some (PList l) -> In v l -> one_line (to_text t v)) ->
  k <> "file_list" -> value_of k upd = None -> value_of k d = Some PNone ->
  exists d', yaml_read rd (new_text t d upd) = Some d' /\ value_of k d' = Some (PStr "None").
Proof.
  intros rd t d upd k RN ND NU HK HV HL NF EU ED.
  destruct (rewritten_text rd t d upd ND NU HK HV HL) as (d' & Y & V & _). exists d'. split; [exact Y|].
  rewrite (V k NF), EU, ED. cbn. rewrite RN. reflexivity.
Qed.
Print Assumptions C67_null_becomes_text.

(** Example texts: floats as fractions; the scalars of a given list are read
    back, anything else is a string. *)
Definition exS_text : pytext :=
  mkPytext (fun x => match x with
                     | NaN => "nan" | Inf true => "-inf" | Inf false => "inf"
                     | Fin q => str_of_Z (Qnum q) ++ "/" ++ str_of_Z (Zpos (Qden q))
                     end)
           (fun s => "'" ++ s ++ "'").
Definition exS_rd (known : list pyval) (s : string) : pyval :=
  match find (fun v => String.eqb (to_text exS_text v) s) known with
  | Some PNone | None => PStr s
  | Some v => v
  end.

Example exS_rewritten :
  let d := [("a", PInt 3); ("file_list", PList [PStr "x.h5"; PStr "y.h5"]); ("b", PList [PFloat (Fin (1 # 2)); PBool true])] in
  let upd := [("c", PStr "t"); ("a", PInt 4)] in
  new_text exS_text d upd =
    "a: 4" ++ newline ++ "b: [1/2, True]" ++ newline ++ "c: t" ++ newline ++ "file_list:" ++ newline ++
    "  - x.h5" ++ newline ++ "  - y.h5" ++ newline /\
  yaml_read (exS_rd (map snd (d ++ upd))) (new_text exS_text d upd) =
    Some [("a", PInt 4); ("b", PList [PFloat (Fin (1 # 2)); PBool true]); ("c", PStr "t");
          ("file_list", PList [PStr "x.h5"; PStr "y.h5"])].
Proof. vm_compute. split; reflexivity. Qed.

(** A [file_list] given as a string is lost. *)
Theorem C67_file_list_lost_refuted : exists rd t d upd d',
  (forall k v, or_else (value_of k upd) (value_of k d) = Some v -> read_back rd t v) /\
  yaml_read rd (new_text t d upd) = Some d' /\
  value_of "file_list" d = Some (PStr "data") /\ value_of "file_list" upd = None /\ value_of "file_list" d' = None.
Proof.
  exists (exS_rd [PStr "data"; PInt 1]), exS_text, [("file_list", PStr "data"); ("a", PInt 1)], [], [("a", PInt 1)].
  split; [|vm_compute; auto]. intros k v. cbn [value_of or_else].
  destruct (String.eqb k "file_list"); [intros E; inversion E; split; [apply one_line_lit|]; reflexivity|].
  destruct (String.eqb k "a"); [intros E; inversion E; split; [apply one_line_lit|]; reflexivity|discriminate].
Qed.
Print Assumptions C67_file_list_lost_refuted.

(** A configuration that [make] accepts is rejected after the rewriting. *)
Theorem C67_null_refuted : exists rd t w d d' smp,
  rd "None" = PStr "None" /\ yaml_read rd (new_text t d []) = Some d' /\
  value_of "mask" d = Some PNone /\ (forall k, k <> "mask" -> value_of k d' = value_of k d) /\
  make w (PDict d) = Ok smp /\ make w (PDict d') = Err ValueError.
Proof.
  set (d := exM_dict ".npy" 3 2 0 0 (("mask", PNone) :: seed_is 7)).
  exists (exS_rd (map snd d)), exS_text, exM_world, d.
  destruct (make exM_world (PDict d)) as [smp|e] eqn:E; [|exfalso; vm_compute in E; discriminate].
  destruct (yaml_read (exS_rd (map snd d)) (new_text exS_text d [])) as [d'|] eqn:Y; [|exfalso; vm_compute in Y; discriminate].
  exists d', smp. split; [vm_compute; reflexivity|]. split; [reflexivity|]. split; [reflexivity|].
  vm_compute in Y. inversion Y as [Y']. split; [|split; [reflexivity|vm_compute; reflexivity]].
  intros k N. unfold d, exM_dict, seed_is. cbn [app value_of].
  destruct (String.eqb_spec k "mask"); [contradiction|].
  repeat match goal with |- context [String.eqb k ?x] => destruct (String.eqb_spec k x); [subst k; reflexivity|] end.
  reflexivity.
Qed.
Print Assumptions C67_null_refuted.

(** ** C68 *)

(** Whenever the process stops, the file holds the old text or a prefix of the
    new one. *)
Theorem C68_crash_states : forall t old d upd disk, shows t old d upd disk ->
  disk = old \/ exists rest, new_text t d upd = disk ++ rest.
Proof. exact shows_prefix. Qed.
Print Assumptions C68_crash_states.

(** Once everything is done it is the new text. *)
Theorem C68_complete : forall t old d upd,
  wsteps (mkWs old "" (rewrite_ops t d upd)) (mkWs (new_text t d upd) "" []) /\
  forall disk buf, wsteps (mkWs old "" (rewrite_ops t d upd)) (mkWs disk buf []) -> disk ++ buf = new_text t d upd.
Proof. intros. split; [apply completes|]. intros; eapply finished; eauto. Qed.
Print Assumptions C68_complete.

(** There is a moment at which nothing is left, whatever the configuration. *)
Theorem C68_everything_lost : forall rd t old d upd, shows t old d upd "" /\ yaml_read rd "" = Some [].
Proof. intros. split; [apply emptied|reflexivity]. Qed.
Print Assumptions C68_everything_lost.

(** And moments at which a part of the lines is there. *)
Theorem C68_partial_lines : forall t old d upd n, shows t old d upd (String.concat "" (firstn n (written t d upd))).
Proof. exact partial_shown. Qed.
Print Assumptions C68_partial_lines.

(** An existing key is lost and neither configuration is there. *)
Theorem C68_crash_safe_refuted : exists rd t old d upd disk d',
  yaml_read rd old = Some d /\ shows t old d upd disk /\ yaml_read rd disk = Some d' /\
  disk <> old /\ disk <> new_text t d upd /\ d' <> [] /\ has_key "b" d /\ ~ has_key "b" d'.
Proof.
  set (d := [("a", PInt 1); ("b", PInt 2)]).
  exists (exS_rd [PInt 1; PInt 2]), exS_text, (new_text exS_text d []), d, [("c", PInt 2)],
    (String.concat "" (firstn 1 (written exS_text d [("c", PInt 2)]))), [("a", PInt 1)].
  split; [vm_compute; reflexivity|]. split; [apply partial_shown|]. split; [vm_compute; reflexivity|].
  split; [vm_compute; discriminate|]. split; [vm_compute; discriminate|]. split; [discriminate|].
  split; [right; left; reflexivity|]. intros [E|[]]. discriminate.
Qed.
Print Assumptions C68_crash_safe_refuted.

(** ** C83 *)

(** The file changes only after the answer 1 to the question about missing
    speeds, if they can be computed; what is written is the old configuration
    with the computed speeds. *)
Theorem C83_untouched : forall w disk answers r disk', panel w disk answers = (r, disk') -> disk' <> disk ->
  exists d fl s rest, sw_load w disk = Ok d /\ listed_files w d fl /\ speed_missing d /\ answers = "1" :: rest /\
    calculate_speeds (sw_h5 w) fl = Ok s /\ disk' = new_text (sw_text w) d (speeds_dict s).
Proof. exact panel_untouched. Qed.
Print Assumptions C83_untouched.

(** The result is the four speeds of the file afterwards; a second run asks
    nothing and returns the same. *)
Theorem C83_result : forall w rd disk answers r disk', panel w disk answers = (Ok r, disk') -> reads_yaml w rd ->
  (forall d fl s, sw_load w disk = Ok d -> speed_missing d -> listed_files w d fl -> calculate_speeds (sw_h5 w) fl = Ok s ->
     rewritable rd (sw_text w) d s) ->
  (exists d', sw_load w disk' = Ok d' /\
     map (fun k => value_of k d') ["max_speed_x"; "max_speed_y"; "min_speed_x"; "min_speed_y"] = map Some r) /\
  forall answers', panel w disk' answers' = (Ok r, disk').
Proof. exact panel_result. Qed.
Print Assumptions C83_result.

(** Any other answer, or a failure, leaves the file alone; declining the
    computed values does not. *)
Theorem C83_answers : forall w disk d fl, sw_load w disk = Ok d -> listed_files w d fl -> speed_missing d ->
  (forall a rest, a <> "1" -> panel w disk (a :: rest) = (Err RuntimeError, disk)) /\
  (forall s b rest, calculate_speeds (sw_h5 w) fl = Ok s -> b <> "y" -> b <> "Y" ->
     panel w disk ("1" :: b :: rest) = (Err RuntimeError, new_text (sw_text w) d (speeds_dict s))) /\
  (forall e rest, calculate_speeds (sw_h5 w) fl = Err e -> panel w disk ("1" :: rest) = (Err e, disk)).
Proof. exact panel_answers. Qed.
Print Assumptions C83_answers.

(** Infinite speeds are written in a form that YAML reads as a string ("inf"
    instead of ".inf"): the next run finds them missing again. *)
Theorem C83_infinite_speeds_asked_again : forall w rd d fl s x answers,
  reads_yaml w rd -> listed_files w d fl -> NoDup (map fst d) -> (forall k, has_key k d -> plain_key k) ->
  (forall k v, value_of k d = Some v -> k <> "file_list" -> one_line (to_text (sw_text w) v)) ->
  (forall p, In p fl -> read_back rd (sw_text w) (PStr p)) -> (forall x, one_line (float_text (sw_text w) x)) ->
  calculate_speeds (sw_h5 w) fl = Ok s -> In x [max_x s; max_y s; min_x s; min_y s] ->
  is_number (rd (float_text (sw_text w) x)) = false ->
  forall a rest r disk', a <> "1" -> answers = a :: rest ->
  panel w (new_text (sw_text w) d (speeds_dict s)) answers = (r, disk') -> r = Err RuntimeError.
Proof.
  intros w rd d fl s x answers RY LF ND PK OL RB FT C IX NX a rest r disk' NA -> H.
  destruct (computed_missing w rd d fl s x RY LF ND PK OL RB FT IX NX) as (d' & L & LF' & M).
  destruct (panel_answers w _ d' fl L LF' M) as (A & _). rewrite (A a rest NA) in H. congruence.
Qed.
Print Assumptions C83_infinite_speeds_asked_again.

(** ** C84 *)

(** A run that ends with "valid" has asked and changed nothing. *)
Theorem C84_valid_asks_nothing : forall sw w disk answers disk', main sw w disk answers = (Valid, disk') ->
  disk' = disk /\ (exists d, sw_load sw disk = Ok d /\ ~ speed_missing d) /\
  forall answers', main sw w disk answers' = (Valid, disk).
Proof. exact main_valid. Qed.
Print Assumptions C84_valid_asks_nothing.

(** A configuration with one flow file, complete but for the speeds. *)
Definition exS_world : world :=
  mkWorld (fun _ => true)
    (mkFs (fun _ => false) (fun p => String.eqb p "a.h5") (fun _ _ => []))
    (fun _ => Ok (PList []))
    (fun p => if String.eqb p "a.h5" then H5Data (mkArr [8; 1; 8; 2] (repeat 0%Q 128)) else H5Fails IndexError)
    (fun _ => Err FileNotFoundError) (fun _ => Err FileNotFoundError)
    (mkMat (fun _ => Err ValueError) (fun _ => false) (fun _ => Err ValueError)) (fun _ _ _ => Err ValueError)
    exM_dirs exM_rng 2 (fun _ => Err FileNotFoundError) exact
    (fun x => match x with Fin q => q | _ => 0%Q end).
Definition exS_dict : list (string * pyval) :=
  filter (fun p => negb (existsb (String.eqb (fst p)) speed_keys))
    (map (fun p => if String.eqb (fst p) "file_list" then ("file_list", PList [PStr "a.h5"]) else p)
       (exM_dict ".h5" 3 2 0 0 (seed_is 7))).
Definition exS_sw : swld :=
  mkSwld (fun s => match yaml_read (exS_rd (PFloat (Fin 0) :: map snd exS_dict)) s with Some d => Ok d | None => Err ValueError end)
    (fun p => String.eqb p "a.h5") (fun _ => HArr (mkFarr [8; 1; 8; 2] (repeat (Fin 0) 128))) exS_text.
Definition exS_disk : string := new_text exS_text exS_dict [].

Example exS_load : exists d, sw_load exS_sw exS_disk = Ok d /\ listed_files exS_sw d ["a.h5"] /\ speed_missing d /\
  NoDup (map fst d) /\ (forall k, has_key k d -> plain_key k) /\
  (forall k v, value_of k d = Some v -> k <> "file_list" -> read_back (exS_rd (PFloat (Fin 0) :: map snd exS_dict)) exS_text v).
Proof.
  eexists. split; [vm_compute; reflexivity|]. split.
  { split; [reflexivity|]. split; [discriminate|]. intros p [<-|[]]. split; reflexivity. }
  split. { exists "max_speed_x". split; [left; reflexivity|]. intros v E. vm_compute in E. discriminate. }
  split. { cbn [map fst]. repeat constructor; cbn [In]; intuition discriminate. }
  split.
  { intros k K. unfold has_key in K. cbn [map fst In] in K.
    repeat match type of K with _ \/ _ => destruct K as [<-|K]; [split; [apply one_line_lit|split]; reflexivity|] | False => destruct K end. }
  intros k v E N. apply value_in' in E. cbn [In] in E.
  repeat match type of E with _ \/ _ => destruct E as [E|E];
    [inversion E; subst; first [contradiction (N eq_refl) | split; [apply one_line_lit|]; vm_compute; reflexivity]|] | False => destruct E end.
Qed.

Example exS_reads : reads_yaml exS_sw (exS_rd (PFloat (Fin 0) :: map snd exS_dict)).
Proof.
  intros d upd d' E.
  change (match yaml_read (exS_rd (PFloat (Fin 0) :: map snd exS_dict)) (new_text exS_text d upd) with
          | Some d => Ok d | None => Err ValueError end = Ok d').
  change (sw_text exS_sw) with exS_text in E. rewrite E. reflexivity.
Qed.

(** The run that computes the speeds reports an error for the completed
    configuration, which the next run accepts. *)
Theorem C84_stale_configuration_refuted : exists sw w disk disk',
  main sw w disk ["1"; "y"] = (Exit1, disk') /\ main sw w disk' [] = (Valid, disk').
Proof.
  exists exS_sw, exS_world, exS_disk. eexists. split; [vm_compute; reflexivity|vm_compute; reflexivity].
Qed.
Print Assumptions C84_stale_configuration_refuted.

Example exS_panel :
  fst (panel exS_sw exS_disk ["1"; "Y"]) = Ok [PFloat (Fin 0); PFloat (Fin 0); PFloat (Fin 0); PFloat (Fin 0)] /\
  panel exS_sw exS_disk ["2"] = (Err RuntimeError, exS_disk) /\
  panel exS_sw exS_disk ["1"; "n"] = (Err RuntimeError, snd (panel exS_sw exS_disk ["1"; "y"])) /\
  snd (panel exS_sw exS_disk ["1"; "y"]) <> exS_disk.
Proof. vm_compute. repeat split; discriminate. Qed.

(** The same with an infinite component: asked again. *)
Definition exS_inf : swld :=
  mkSwld (sw_load exS_sw) (sw_isfile exS_sw) (fun _ => HArr (mkFarr [1; 1; 2] [Inf false; Fin 0])) exS_text.
Example exS_infinite :
  let disk' := snd (panel exS_inf exS_disk ["1"; "y"]) in
  fst (panel exS_inf exS_disk ["1"; "y"]) = Ok [PFloat (Inf false); PFloat (Fin 0); PFloat (Inf false); PFloat (Fin 0)] /\
  panel exS_inf disk' ["2"] = (Err RuntimeError, disk').
Proof. vm_compute. split; reflexivity. Qed.
