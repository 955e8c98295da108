(** Model of Sampler (src/synthpix/sampler/base.py), RealImageSampler
    (src/synthpix/sampler/real.py) and of the batch loop of
    SyntheticImageSampler (src/synthpix/sampler/synthetic.py:449-512). *)
From Coq Require Import List Arith ZArith String Bool.
From Verif Require Import Prelude.
Import ListNotations.

(** SchedulerData, src/synthpix/types.py:130-155: one entry per slice.  The
    images are only looked at by the real-image sampler. *)
Record fdata (flow img : Type) : Type := mkFdata {
  fd_flows : list flow;
  fd_images1 : option (list img);
  fd_images2 : option (list img);
  fd_mask : option (list bool);
  fd_files : option (list string)
}.
Arguments mkFdata {flow img}.
Arguments fd_flows {flow img}.
Arguments fd_images1 {flow img}.
Arguments fd_images2 {flow img}.
Arguments fd_mask {flow img}.
Arguments fd_files {flow img}.

(** A scheduler as the sampler sees it (scheduler/protocol.py:1-105): a state
    machine.  [si_protocol] is [isinstance(_, EpisodicSchedulerProtocol)],
    [si_class] is [isinstance(_, EpisodicFlowFieldScheduler)].  A scheduler
    whose answers depend on thread timing is covered by putting the timing in
    the state. *)
Record sif : Type := mkSif {
  si_state : Type;
  si_flow : Type;
  si_img : Type;
  si_get : nat -> si_state -> result (fdata si_flow si_img) * si_state;
  si_protocol : bool;
  si_class : bool;
  si_steps : si_state -> Z;
  si_next : si_state -> result unit * si_state;
  si_reset : si_state -> si_state
}.

(** SynthpixBatch, src/synthpix/types.py:63-127 ([params] is part of the
    generated images here). *)
Record batch (oflow img : Type) : Type := mkBatch {
  ba_images : list img;              (* (images1[i], images2[i], params[i]) *)
  ba_flows : list oflow;
  ba_done : option (list bool);
  ba_mask : option (list bool);
  ba_files : option (list string)
}.
Arguments mkBatch {oflow img}.
Arguments ba_images {oflow img}.
Arguments ba_flows {oflow img}.
Arguments ba_done {oflow img}.
Arguments ba_mask {oflow img}.
Arguments ba_files {oflow img}.

(** [batch.update(done=...)], types.py:104-127, for this one field. *)
Definition set_done {o i} (b : batch o i) (d : list bool) : batch o i :=
  mkBatch (ba_images b) (ba_flows b) (Some d) (ba_mask b) (ba_files b).

(** [Sampler.__next__], base.py:73-94, around a [_get_next]; [sched] projects
    the scheduler's state out of the sampler's, [B] is [self.batch_size]. *)
Definition sampler_next (si : sif) {S o i : Type} (sched : S -> si_state si)
    (get_next : S -> result (batch o i) * S) (B : nat) (s : S)
    : result (batch o i) * S :=
  if andb (si_protocol si) (si_steps si (sched s) =? 0)%Z then (Err EpisodeEnd, s)
  else
    match get_next s with
    | (Err e, s') => (Err e, s')
    | (Ok b, s') =>
        (Ok (if si_protocol si
             then set_done b (repeat (si_steps si (sched s') =? 0)%Z B)
             else b), s')
    end.

(** * Real images *)

(** [RealImageSampler._get_next], real.py:42-59: the scheduler's batch with
    the images cast ([jnp.array(None)] raises TypeError). *)
Definition real_get_next (si : sif) (B : nat) (s : si_state si)
    : result (batch (si_flow si) (si_img si * si_img si)) * si_state si :=
  match si_get si B s with
  | (Err e, s') => (Err e, s')
  | (Ok d, s') =>
      (match fd_images1 d, fd_images2 d with
       | Some a, Some b => Ok (mkBatch (combine a b) (fd_flows d) None (fd_mask d) (fd_files d))
       | _, _ => Err TypeError
       end, s')
  end.

Definition real_next (si : sif) (B : nat) (s : si_state si) :=
  sampler_next si (fun s => s) (real_get_next si B) B s.

(** The shape of the wrapper stack: what [RealImageSampler.__init__]
    (real.py:29-38) looks through. *)
Inductive stack : Type :=
| Plain (include_images : bool)
| Wrapped (inner : stack).        (* Episodic or Prefetching: no attribute include_images *)

Fixpoint real_init_ok (t : stack) : result unit :=
  match t with
  | Plain true => Ok tt
  | Plain false => Err ValueError
  | Wrapped t => real_init_ok t
  end.

(** * Synthetic images *)

(** What the constructor fixed (synthetic.py:103-447): devices, sizes, and
    the two compiled functions, kept abstract: [adapt] and [bounds] are the two
    outputs of [process_single] (utils.py:245-323) for one flow field, [render k
    j f] is the [j]-th iteration of the scan of [generate_images_from_flow] (data_generate.py:102-311)
    run with device key [k] on the cropped flow field [f]. *)
Record scfg (si : sif) (oflow bflow img : Type) : Type := mkScfg {
  sc_nd : nat;                 (* ndevices *)
  sc_B : nat;                  (* batch_size, rounded up to a multiple of ndevices *)
  sc_F : nat;                  (* flow_fields_per_batch *)
  sc_bpf : nat;                (* batches_per_flow_batch *)
  sc_seed : Z;
  sc_adapt : si_flow si -> oflow;
  sc_bounds : si_flow si -> bflow;
  sc_render : key -> nat -> bflow -> img
}.
Arguments sc_nd {si oflow bflow img}.
Arguments sc_B {si oflow bflow img}.
Arguments sc_F {si oflow bflow img}.
Arguments sc_bpf {si oflow bflow img}.
Arguments sc_seed {si oflow bflow img}.
Arguments sc_adapt {si oflow bflow img}.
Arguments sc_bounds {si oflow bflow img}.
Arguments sc_render {si oflow bflow img}.

(** The part of the constructor that fixes the sizes (synthetic.py:104,
    160-182).  [BS] is the batch size asked for. *)
Definition round_batch (BS nd : nat) : nat :=
  if BS mod nd =? 0 then BS else (BS / nd + 1) * nd.

Definition make_scfg (si : sif) {oflow bflow img} (nd BS F bpf : nat) (seed : Z)
    (adapt : si_flow si -> oflow) (bounds : si_flow si -> bflow)
    (render : key -> nat -> bflow -> img) : result (scfg si oflow bflow img) :=
  if nd =? 0 then Err ValueError
  else if BS =? 0 then Err ValueError
  else if bpf =? 0 then Err ValueError
  else if F =? 0 then Err ValueError
  else if BS <? F then Err ValueError
  else Ok (mkScfg si oflow bflow img nd (round_batch BS nd) F
             (if si_class si then 1 else bpf) seed adapt bounds render).

(** [_current_flows] (synthetic.py:452, 473, 482-486): nothing, the scheduler's
    flow fields when sharding or adapting them raised, or the adapted ones
    (together with [output_flow_fields]). *)
Inductive current (oflow bflow : Type) : Type :=
| CurNone
| CurRaw
| CurFlows (outs : list oflow) (bounds : list bflow).
Arguments CurNone {oflow bflow}.
Arguments CurRaw {oflow bflow}.
Arguments CurFlows {oflow bflow}.

Record sst (si : sif) (oflow bflow : Type) : Type := mkSst {
  y_sched : si_state si;
  y_rng : key;
  y_cur : current oflow bflow;
  y_gen : nat;                         (* _batches_generated *)
  y_mask : option (list bool);         (* _mask_scheduler *)
  y_files : option (list string)       (* _files_scheduler *)
}.
Arguments mkSst {si oflow bflow}.
Arguments y_sched {si oflow bflow}.
Arguments y_rng {si oflow bflow}.
Arguments y_cur {si oflow bflow}.
Arguments y_gen {si oflow bflow}.
Arguments y_mask {si oflow bflow}.
Arguments y_files {si oflow bflow}.

Section Syn.
Context {si : sif} {oflow bflow img : Type}.
Variable c : scfg si oflow bflow img.
Notation st := (sst si oflow bflow).

(** Sharding along the first axis: [nd] consecutive pieces of equal length;
    a length that [nd] does not divide raises ValueError.
    (jnp.array(..., device=NamedSharding), jax.shard_map) *)
Definition shard {A} (nd : nat) (l : list A) : result (list (list A)) :=
  if List.length l mod nd =? 0 then
    Ok (map (fun d => firstn (List.length l / nd) (skipn (d * (List.length l / nd)) l)) (seq 0 nd))
  else Err ValueError.

(** [flow_field_adapter] on one device, utils.py:325-331: the reported flows
    tiled up to the per-device batch size [b]. *)
Definition tile_flows {A} (b : nat) (l : list A) : list A :=
  let n := List.length l in
  firstn b (List.concat (repeat l ((b + n - 1) / n))).

(** [generate_images_from_flow] on one device, data_generate.py:72-73, 139,
    313-323: [b] images, the [j]-th from flow field [j mod n]. *)
Definition gen_images {A} (render : key -> nat -> A -> img) (k : key) (b : nat) (l : list A) (dflt : A)
  : list img :=
  map (fun j => render k j (nth (j mod List.length l) l dflt)) (seq 0 b).

(** [_reset], synthetic.py:449-453.  [_mask_scheduler] and [_files_scheduler]
    keep their values. *)
Definition syn_clear (s : st) : st :=
  mkSst (y_sched s) (Seed (sc_seed c)) CurNone 0 (y_mask s) (y_files s).

(** A sampler just constructed over a scheduler in state [u]. *)
Definition syn_init (u : si_state si) : st :=
  mkSst u (Seed (sc_seed c)) CurNone 0 None None.

(** synthetic.py:465-488: fetch and adapt new flow fields if needed. *)
Definition syn_fetch (s : st) : result unit * st :=
  if match y_cur s with CurNone => true | _ => sc_bpf c <=? y_gen s end then
    match si_get si (sc_F c) (y_sched s) with
    | (Err e, u) => (Err e, mkSst u (y_rng s) (y_cur s) 0 (y_mask s) (y_files s))
    | (Ok d, u) =>
        match shard (sc_nd c) (fd_flows d) with
        | Err e => (Err e, mkSst u (y_rng s) CurRaw 0 (fd_mask d) (fd_files d))
        | Ok shards =>
            (Ok tt,
             mkSst u (y_rng s)
               (CurFlows
                  (flat_map (fun l => tile_flows (sc_B c / sc_nd c) (map (sc_adapt c) l)) shards)
                  (map (sc_bounds c) (fd_flows d)))
               0 (fd_mask d) (fd_files d))
        end
    end
  else (Ok tt, s).

(** synthetic.py:490-512: split the key, generate the images. *)
Definition syn_generate (s : st) : result (batch oflow img) * st :=
  let rng' := Child (y_rng s) 0 in
  let subkey := Child (y_rng s) 1 in
  let s1 := mkSst (y_sched s) rng' (y_cur s) (y_gen s) (y_mask s) (y_files s) in
  match y_cur s with
  | CurFlows outs bounds =>
      match bounds, shard (sc_nd c) bounds with
      | dflt :: _, Ok shards =>
          (Ok (mkBatch
                 (flat_map (fun p => gen_images (sc_render c) (Child subkey (fst p))
                                       (sc_B c / sc_nd c) (snd p) dflt)
                           (combine (seq 0 (sc_nd c)) shards))
                 outs None (y_mask s) (y_files s)),
           mkSst (y_sched s) rng' (y_cur s) (S (y_gen s)) (y_mask s) (y_files s))
      | _, _ => (Err ValueError, s1)
      end
  | _ => (Err ValueError, s1)
  end.

(** [_get_next], synthetic.py:455-512. *)
Definition syn_get_next (s : st) : result (batch oflow img) * st :=
  match syn_fetch s with
  | (Err e, s') => (Err e, s')
  | (Ok _, s') => syn_generate s'
  end.

(** [__next__], base.py:73-94. *)
Definition syn_next (s : st) : result (batch oflow img) * st :=
  sampler_next si y_sched syn_get_next (sc_B c) s.

(** [reset], base.py:96-104. *)
Definition set_sched (s : st) (u : si_state si) : st :=
  mkSst u (y_rng s) (y_cur s) (y_gen s) (y_mask s) (y_files s).

Definition syn_reset (scheduler_reset : bool) (s : st) : st :=
  let s := syn_clear s in
  if scheduler_reset then set_sched s (si_reset si (y_sched s)) else s.

(** [next_episode], base.py:106-116. *)
Definition syn_next_episode (s : st) : result unit * st :=
  if si_protocol si then
    let (r, u) := si_next si (y_sched s) in (r, set_sched s u)
  else (Err AttributeError, s).

(** A consumer's calls. *)
Inductive sop : Type := SNext | SReset (scheduler_reset : bool) | SNextEpisode.

Inductive sobs : Type := SBatch (b : batch oflow img) | SUnit | SRaise (e : exn).

Definition do_sop (o : sop) (s : st) : sobs * st :=
  match o with
  | SNext => match syn_next s with (Ok b, s') => (SBatch b, s') | (Err e, s') => (SRaise e, s') end
  | SReset r => (SUnit, syn_reset r s)
  | SNextEpisode =>
      match syn_next_episode s with (Ok _, s') => (SUnit, s') | (Err e, s') => (SRaise e, s') end
  end.

Fixpoint srun (ops : list sop) (s : st) : list sobs * st :=
  match ops with
  | [] => ([], s)
  | o :: ops =>
      let (r, s1) := do_sop o s in
      let (rs, s2) := srun ops s1 in
      (r :: rs, s2)
  end.
End Syn.
