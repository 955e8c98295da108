(** Vocabulary for the sampler properties, independent of the sampler model. *)
From Coq Require Import List Arith ZArith String Bool.
From Verif Require Import Prelude Model.Sampler.
Import ListNotations.

(** Which of [F] input flow fields belongs to entry [i] of a batch of [B] made
    on [nd] devices: device [i / (B/nd)] holds [F/nd] consecutive fields and
    cycles through them. *)
Definition source (nd B F i : nat) : nat :=
  let b := B / nd in
  let f := F / nd in
  (i / b) * f + (i mod b) mod f.

(** The scheduler, asked for [F] fields at a time starting in [u], delivers
    [D 0], [D 1], ... ; [S j] is its state after [j] calls. *)
Definition delivers (si : sif) (F : nat) (u : si_state si)
    (D : nat -> fdata (si_flow si) (si_img si)) (S : nat -> si_state si) : Prop :=
  S 0 = u /\ forall j, si_get si F (S j) = (Ok (D j), S (j + 1)).

(** It delivers [J] batches and then raises StopIteration for ever. *)
Definition delivers_upto (si : sif) (F J : nat) (u : si_state si)
    (D : nat -> fdata (si_flow si) (si_img si)) (S : nat -> si_state si) : Prop :=
  S 0 = u /\ (forall j, j < J -> si_get si F (S j) = (Ok (D j), S (j + 1))) /\
  (forall j, J <= j -> si_get si F (S j) = (Err StopIteration, S (j + 1))).

(** An episodic scheduler asked for [F] fields at a time: step [t] of episode
    [e] carries the data [D e t]. *)
Record episodic (si : sif) (F L : nat) (D : nat -> nat -> fdata (si_flow si) (si_img si))
    (at_ : si_state si -> nat -> nat -> Prop) : Prop := mkEpisodic {
  ep_proto : si_protocol si = true;
  ep_range : forall u e t, at_ u e t -> t <= L /\ si_steps si u = (Z.of_nat L - Z.of_nat t)%Z;
  ep_step : forall u e t, at_ u e t -> t < L ->
    exists u', si_get si F u = (Ok (D e t), u') /\ at_ u' e (S t);
  ep_next : forall u e t, at_ u e t ->
    exists u', si_next si u = (Ok tt, u') /\ at_ u' (S e) 0
}.

(** The random keys: [chain k m] is the key after [m] batches. *)
Fixpoint chain (k : key) (m : nat) : key :=
  match m with 0 => k | S m => Child (chain k m) 0 end.

(** The key handed to device [d] for batch number [m] since reset. *)
Definition device_key (seed : Z) (m d : nat) : key := Child (Child (chain (Seed seed) m) 1) d.

Section Batches.
Context {si : sif} {oflow bflow img : Type}.
Variable c : scfg si oflow bflow img.

(** [b] is batch number [m] since reset (by the random keys) made from the
    scheduler batch [d]: every entry comes from its source field, and mask and
    files are those of [d]. *)
Definition made_from (m : nat) (d : fdata (si_flow si) (si_img si)) (b : batch oflow img) : Prop :=
  let F := List.length (fd_flows d) in
  List.length (ba_images b) = sc_B c /\ List.length (ba_flows b) = sc_B c /\
  (forall i, i < sc_B c ->
     exists f, nth_error (fd_flows d) (source (sc_nd c) (sc_B c) F i) = Some f /\
       nth_error (ba_flows b) i = Some (sc_adapt c f) /\
       nth_error (ba_images b) i =
         Some (sc_render c (device_key (sc_seed c) m (i / (sc_B c / sc_nd c)))
                         (i mod (sc_B c / sc_nd c)) (sc_bounds c f))) /\
  ba_mask b = fd_mask d /\ ba_files b = fd_files d.

(** What the constructor guarantees (synthetic.py:145, 160-182). *)
Definition sizes_ok : Prop :=
  1 <= sc_nd c /\ 1 <= sc_bpf c /\ 1 <= sc_F c /\ sc_F c <= sc_B c /\ 1 <= sc_B c /\
  sc_B c mod sc_nd c = 0.

(** A scheduler batch that can be sharded. *)
Definition shardable (d : fdata (si_flow si) (si_img si)) : Prop :=
  List.length (fd_flows d) = sc_F c /\ sc_F c mod sc_nd c = 0.

(** A sampler that has just been constructed or reset. *)
Definition fresh (s : sst si oflow bflow) : Prop :=
  y_cur s = CurNone /\ y_rng s = Seed (sc_seed c) /\ y_gen s = 0.
End Batches.

Section Episodes.
Context {si : sif} {oflow bflow img : Type}.
Variable c : scfg si oflow bflow img.

(** What a consumer that calls [next] and [next_episode] in any order must
    observe: [e] is the current episode, [t] the steps already taken in it, [m]
    the number of batches since reset; step [t] of episode [e] is made from [D
    e t] and is marked done exactly when it is the last one. *)
Fixpoint plays (L : nat) (D : nat -> nat -> fdata (si_flow si) (si_img si)) (e t m : nat)
    (ops : list sop) (obs : list (@sobs oflow img)) : Prop :=
  match ops, obs with
  | [], [] => True
  | SNext :: ops, o :: obs =>
      if t <? L then
        (exists b, o = SBatch b /\ made_from c m (D e t) b /\
           ba_done b = Some (repeat (S t =? L) (sc_B c))) /\
        plays L D e (S t) (S m) ops obs
      else o = SRaise EpisodeEnd /\ plays L D e t m ops obs
  | SNextEpisode :: ops, o :: obs => o = SUnit /\ plays L D (S e) 0 m ops obs
  | _, _ => False
  end.
End Episodes.

(** [n] calls of [next] on the real-image sampler. *)
Fixpoint real_run (si : sif) (B n : nat) (u : si_state si)
  : list (result (batch (si_flow si) (si_img si * si_img si))) * si_state si :=
  match n with
  | 0 => ([], u)
  | S n => let (r, u1) := real_next si B u in
           let (rs, u2) := real_run si B n u1 in (r :: rs, u2)
  end.
