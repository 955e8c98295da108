(** What the consumer of a sampler sees of the slices in the files. *)
From Coq Require Import List Arith ZArith String Bool QArith Permutation.
From Verif Require Import Prelude Model.Base Model.Sampler Spec.BaseSpec Spec.SamplerSpec.
Import ListNotations.
Local Open Scope nat_scope.

(** The slices a file scheduler goes through, one after the other ([None]: no
    slice left): whole passes over the files, each in some order, which is the
    given one unless shuffling is asked for; one pass, or passes for ever.
    Neighbouring equal entries count once. *)
Definition stream_of (randomize loop : bool) (C : string -> content) (fl : list string) (x : nat -> option SchedData) : Prop :=
  exists P : nat -> list string,
    (forall j, Permutation (P j) fl) /\ (randomize = false -> forall j, P j = fl) /\
    (loop = false -> forall i, x i = nth_error (epoch C (collapse (P 0))) i) /\
    (loop = true -> forall K i, i < K -> x i = nth_error (flat_map (fun j => epoch C (collapse (P j))) (seq 0 K)) i /\ x i <> None).

(** What is said about place [q] of a batch by its mask and its file names, when
    slice [o] or nothing is there. *)
Definition labelled (mask : option (list bool)) (files : option (list string)) (q : nat) (o : option SchedData) : Prop :=
  exists mk fs, mask = Some mk /\ files = Some fs /\
    match o with
    | Some x => nth_error mk q = Some true /\ exists p, sd_files x = Some [p] /\ nth_error fs q = Some p
    | None => nth_error mk q = Some false /\ nth_error fs q = Some EmptyString
    end.

(** Flow field [f] is that of the slice, or zero if there is none. *)
Definition field_of (o : option SchedData) (f : arr) : Prop :=
  match o with Some x => f = sd_flow x | None => forall v, In v (data f) -> v = 0%Q end.

(** Batch number [m] of a synthetic sampler over the slices [x]: entry [i] shows
    and reports the slice at place [source] of flow batch number [m / bpf], whose mask entry and file name are those of
    that slice. *)
Definition shows {oflow bflow img : Type} (nd B F bpf : nat) (seed : Z)
    (adapt : arr -> oflow) (bounds : arr -> bflow) (render : key -> nat -> bflow -> img)
    (x : nat -> option SchedData) (m : nat) (b : batch oflow img) : Prop :=
  List.length (ba_images b) = B /\ List.length (ba_flows b) = B /\
  forall i, i < B ->
    let q := source nd B F i in
    let o := x ((m / bpf) * F + q) in
    q < F /\ labelled (ba_mask b) (ba_files b) q o /\
    exists f, field_of o f /\ nth_error (ba_flows b) i = Some (adapt f) /\
      nth_error (ba_images b) i = Some (render (device_key seed m (i / (B / nd))) (i mod (B / nd)) (bounds f)).

(** The stream yields [J] batches of [n] slices, the last possibly incomplete. *)
Definition last_batch (n : nat) (x : nat -> option SchedData) (J : nat) : Prop :=
  1 <= J /\ forall j, j < J <-> x (j * n) <> None.

(** Everything a consumer of a synthetic sampler gets, call after call: for ever,
    or until the slices are used up, when StopIteration is raised. *)
Definition played {oflow bflow img : Type} (nd B F bpf : nat) (seed : Z)
    (adapt : arr -> oflow) (bounds : arr -> bflow) (render : key -> nat -> bflow -> img)
    (loop : bool) (x : nat -> option SchedData) (answer : nat -> option (@sobs oflow img)) : Prop :=
  let shown m := exists b, answer m = Some (SBatch b) /\ shows nd B F bpf seed adapt bounds render x m b in
  if loop then forall m, shown m
  else exists J, last_batch F x J /\ (forall m, m < J * bpf -> shown m) /\ answer (J * bpf) = Some (SRaise StopIteration).

(** Batch number [m] of a real-image sampler: entry [i] is slice number [m B + i]
    with its two images. *)
Definition shows_real (B : nat) (x : nat -> option SchedData) (m : nat) (b : batch arr (arr * arr)) : Prop :=
  List.length (ba_images b) = B /\ List.length (ba_flows b) = B /\
  forall i, i < B ->
    let o := x (m * B + i) in
    labelled (ba_mask b) (ba_files b) i o /\
    exists f a0 a1, field_of o f /\ nth_error (ba_flows b) i = Some f /\ nth_error (ba_images b) i = Some (a0, a1) /\
      match o with
      | Some s => sd_im1 s = Some a0 /\ sd_im2 s = Some a1
      | None => (forall v, In v (data a0) -> v = 0%Q) /\ (forall v, In v (data a1) -> v = 0%Q)
      end.

(** The same for a real-image sampler, which stays exhausted. *)
Definition played_real (B : nat) (loop : bool) (x : nat -> option SchedData)
    (answer : nat -> option (result (batch arr (arr * arr)))) : Prop :=
  let shown m := exists b, answer m = Some (Ok b) /\ shows_real B x m b in
  if loop then forall m, shown m
  else exists J, last_batch B x J /\ (forall m, m < J -> shown m) /\
    forall m, J <= m -> answer m = Some (Err StopIteration).

(** The files are in order: readable slice by slice, slices of one shape, at
    least one; and the loops of the model have enough steps. *)
Record usable (c : cfg) (C : string -> content) (fl : list string) (fuel : nat) : Prop := mkUsable {
  us_disk : disk (c_loader c) C;
  us_perm : c_randomize c = true -> perm_ok (c_rng c);
  us_faults : no_faults C fl;
  us_shapes : uniform C fl;
  us_some : epoch C fl <> [];
  us_fuel : 2 * List.length fl < fuel
}.

(** The consumer calls [next] and [next_episode] in any order, and the latter
    changes nothing: batch number [m] is made from flow batch number [m / bpf],
    and none is ever marked done. *)
Fixpoint unbroken {si : sif} {oflow bflow img : Type} (c : scfg si oflow bflow img)
    (D : nat -> fdata (si_flow si) (si_img si)) (m : nat) (ops : list sop) (obs : list (@sobs oflow img)) : Prop :=
  match ops, obs with
  | [], [] => True
  | SNext :: ops, o :: obs =>
      (exists b, o = SBatch b /\ made_from c m (D (m / sc_bpf c)) b /\ ba_done b = Some (repeat false (sc_B c))) /\
      unbroken c D (S m) ops obs
  | SNextEpisode :: ops, o :: obs => o = SUnit /\ unbroken c D m ops obs
  | _, _ => False
  end.

(** One call and its outcome over a scheduler that has no episodes. *)
Definition without_episodes {oflow img : Type} (o : sop) (r : @sobs oflow img) : Prop :=
  match o with
  | SNext => match r with SBatch b => ba_done b = None | SUnit => False | SRaise _ => True end
  | SReset _ => r = SUnit
  | SNextEpisode => r = SRaise AttributeError
  end.

(** The same when the consumer is led to believe in an episode that never ends. *)
Definition looks_episodic {oflow img : Type} (B : nat) (o : sop) (r : @sobs oflow img) : Prop :=
  match o with
  | SNext => match r with SBatch b => ba_done b = Some (repeat false B) | SUnit => False | SRaise e => e <> EpisodeEnd end
  | SReset _ => r = SUnit
  | SNextEpisode => r = SUnit
  end.

(** Step [t] of an episode, shown as batch number [m]: entry [i] shows and
    reports file [t] of window [source i]. *)
Definition shows_step {oflow bflow img : Type} (nd B F : nat) (seed : Z)
    (adapt : arr -> oflow) (bounds : arr -> bflow) (render : key -> nat -> bflow -> img)
    (C : string -> content) (files : string -> list string) (ws : list (string * nat)) (t m : nat) (b : batch oflow img) : Prop :=
  List.length (ba_images b) = B /\ List.length (ba_flows b) = B /\
  forall i, i < B ->
    exists d s p x, nth_error ws (source nd B F i) = Some (d, s) /\ nth_error (files d) (s + t) = Some p /\ C p = Slices [x] /\
      labelled (ba_mask b) (ba_files b) (source nd B F i) (Some x) /\
      nth_error (ba_flows b) i = Some (adapt (sd_flow x)) /\
      nth_error (ba_images b) i = Some (render (device_key seed m (i / (B / nd))) (i mod (B / nd)) (bounds (sd_flow x))).

(** What a consumer that calls [next] and [next_episode] in any order observes,
    if batch number [m] shows step [t] of episode [e]; a batch is marked done
    exactly when its step is the last one. *)
Fixpoint plays_as {oflow img : Type} (shown : nat -> nat -> nat -> batch oflow img -> Prop) (B L e t m : nat)
    (ops : list sop) (obs : list (@sobs oflow img)) : Prop :=
  match ops, obs with
  | [], [] => True
  | SNext :: ops, o :: obs =>
      if t <? L then
        (exists b, o = SBatch b /\ shown e t m b /\ ba_done b = Some (repeat (S t =? L) B)) /\
        plays_as shown B L e (S t) (S m) ops obs
      else o = SRaise EpisodeEnd /\ plays_as shown B L e t m ops obs
  | SNextEpisode :: ops, o :: obs => o = SUnit /\ plays_as shown B L (S e) 0 m ops obs
  | _, _ => False
  end.
