(** Debug mode, DEBUG_JIT = True in src/synthpix/utils.py:11: the synthetic
    sampler checks its arguments on a first batch of flow fields and runs the
    adapter and the generator uncompiled and unsharded. *)
From Coq Require Import List Arith ZArith QArith Bool.
From Verif Require Import Prelude Model.Interp Model.Hist Model.DataGen Model.Geometry Model.Sampler Model.Synthetic.
Import ListNotations.
Local Open Scope nat_scope.

(** [input_check_gen_img_from_flow], data_generate.py:343-454.  [fshape] is the
    shape of the flow batch.  The type tests hold for what is passed by the
    sampler; a mask is a two-dimensional array and a histogram a list here.  The
    rest of the function logs. *)
Definition check_generate (fshape : list nat) (sp : gspec) (pb : Z * Z) (rx ry : Q) (mask : option image)
    (hist : option (list Q)) : result unit :=
  let (h, w) := sp_image sp in
  (* 372-376 *)
  if negb match fshape with [_; _; _; ch] => (ch =? 2)%nat | _ => false end then Err ValueError else
  (* 377-382 *)
  if negb ((0 <? fst pb)%Z && (0 <? snd pb)%Z) then Err ValueError else
  (* 384-387 *)
  if negb (negb (Qle_bool rx 0)) then Err ValueError else
  if negb (negb (Qle_bool ry 0)) then Err ValueError else
  (* 388-397 *)
  if (fst pb <? h + fst (sp_offset sp))%Z then Err ValueError else
  if (snd pb <? w + snd (sp_offset sp))%Z then Err ValueError else
  (* 399-404 *)
  if negb match mask with Some m => (rows m =? h)%Z && (cols m =? w)%Z | None => true end then Err ValueError else
  (* 405-418 *)
  if negb match hist with
          | Some l => (List.length l =? 256)%nat && isclose (fold_left Qplus l 0%Q) (inject_Z (h * w))
          | None => true
          end then Err ValueError
  else Ok tt.

(** [input_check_flow_field_adapter], utils.py:334-448, again without the type
    tests. *)
Definition check_adapter (fshape : list nat) (a : adapter_args) : result unit :=
  let both (p : Z -> bool) (x : Z * Z) := p (fst x) && p (snd x) in
  (* 373-382 *)
  if negb match fshape with [_; _; _; ch] => (ch =? 2)%nat | _ => false end then Err ValueError else
  (* 384-397 *)
  if negb (both (Z.ltb 0) (ad_new a)) then Err ValueError else
  if negb (both (Z.ltb 0) (ad_image a)) then Err ValueError else
  (* 399-402 *)
  if negb (both (Z.leb 0) (ad_off a)) then Err ValueError else
  (* 404-411 *)
  if Qle_bool (ad_res a) 0 then Err ValueError else
  if Qle_bool (ad_rx a) 0 then Err ValueError else
  if Qle_bool (ad_ry a) 0 then Err ValueError else
  (* 413-416 *)
  if negb (both (Z.ltb 0) (ad_pb a)) then Err ValueError else
  (* 418-428 *)
  if negb (Qle_bool 0 (fst (ad_pbo a)) && Qle_bool 0 (snd (ad_pbo a))) then Err ValueError else
  (* 430-431; the units are one of the two, 433-439 *)
  if (ad_batch a =? 0)%nat then Err ValueError else
  (* 441-442 *)
  if Qle_bool (ad_dt a) 0 then Err ValueError else
  (* 444-449 *)
  if negb (both (Z.leb 0) (ad_pad a)) then Err ValueError
  else Ok tt.

(** The shape of the flow fields of a batch stacked; [dim] is the shape of one. *)
Definition batch_shape {A} (dim : A -> list nat) (l : list A) : list nat :=
  match l with [] => [0] | f :: _ => List.length l :: dim f end.

Section Debug.
Variables (ex sq : Q -> Q) (g : generator) (a : syn_args).
Variables (si : sif) (dec : si_flow si -> flow) (dim : si_flow si -> list nat).

(** The constructor over a scheduler in state [u]: lines 362-391 come after all
    its other checks. *)
Definition debug_synthetic (u : si_state si) : result (scfg si flow flow pair_out * si_state si) :=
  bind (synthetic ex sq g a si dec) (fun c =>
  bind (construct exact (geometry_args a)) (fun geo =>
  match si_get si (a_F a) u with
  | (Err e, _) => Err e
  | (Ok d, u') =>
      let fshape := batch_shape dim (fd_flows d) in
      bind (check_generate fshape (device_spec a geo) (o_pb geo) (snd (o_res geo)) (fst (o_res geo)) (a_mask a) (a_hist a)) (fun _ =>
      bind (check_adapter fshape (device_adapter a geo)) (fun _ => Ok (c, u')))
  end)).

Variable geo : geom exact.
Variable c : scfg si flow flow pair_out.
Notation st := (sst si flow flow).

(** synthetic.py:465-488 with the adapter called on all flow fields at once;
    [jnp.array(..., device=self.sharding)] still wants a multiple of [ndevices]. *)
Definition debug_fetch (s : st) : result unit * st :=
  if match y_cur s with CurNone => true | _ => sc_bpf c <=? y_gen s end then
    match si_get si (sc_F c) (y_sched s) with
    | (Err e, u) => (Err e, mkSst u (y_rng s) (y_cur s) 0 (y_mask s) (y_files s))
    | (Ok d, u) =>
        match shard (sc_nd c) (fd_flows d) with
        | Err e => (Err e, mkSst u (y_rng s) CurRaw 0 (fd_mask d) (fd_files d))
        | Ok _ =>
            (Ok tt,
             mkSst u (y_rng s)
               (CurFlows (tile_flows (sc_B c / sc_nd c) (map (sc_adapt c) (fd_flows d))) (map (sc_bounds c) (fd_flows d)))
               0 (fd_mask d) (fd_files d))
        end
    end
  else (Ok tt, s).

(** The shape (N, H, W, 2) of the cropped flow fields, utils.py:297-323. *)
Definition cropped_shape (l : list flow) : list nat :=
  batch_shape (fun f => [Z.to_nat (fH f); Z.to_nat (fW f); 2]) l.

(** synthetic.py:490-512 with [generate_images_from_flow] called once: it checks
    its arguments without the position bounds and resolutions, so with their
    defaults (data_generate.py:60-63, 346-348), and takes the first of the keys
    (73). *)
Definition debug_generate (s : st) : result (batch flow pair_out) * st :=
  let rng' := Child (y_rng s) 0 in
  let subkey := Child (y_rng s) 1 in
  let s1 := mkSst (y_sched s) rng' (y_cur s) (y_gen s) (y_mask s) (y_files s) in
  match y_cur s with
  | CurFlows outs bounds =>
      match check_generate (cropped_shape bounds) (device_spec a geo) (512, 512)%Z 1 1 (a_mask a) (a_hist a), bounds with
      | Ok _, dflt :: _ =>
          (Ok (mkBatch (gen_images (sc_render c) (Child subkey 0) (sc_B c / sc_nd c) bounds dflt)
                 outs None (y_mask s) (y_files s)),
           mkSst (y_sched s) rng' (y_cur s) (S (y_gen s)) (y_mask s) (y_files s))
      | _, _ => (Err ValueError, s1)
      end
  | _ => (Err ValueError, s1)
  end.

Definition debug_get_next (s : st) : result (batch flow pair_out) * st :=
  match debug_fetch s with
  | (Err e, s') => (Err e, s')
  | (Ok _, s') => debug_generate s'
  end.

(** base.py:73-116 around it, as in Model/Sampler.v. *)
Definition debug_next (s : st) : result (batch flow pair_out) * st :=
  sampler_next si y_sched debug_get_next (sc_B c) s.

Definition debug_op (o : sop) (s : st) : sobs (oflow := flow) (img := pair_out) * st :=
  match o with
  | SNext => match debug_next s with (Ok b, s') => (SBatch b, s') | (Err e, s') => (SRaise e, s') end
  | SReset r => (SUnit, syn_reset c r s)
  | SNextEpisode =>
      match syn_next_episode s with (Ok _, s') => (SUnit, s') | (Err e, s') => (SRaise e, s') end
  end.

Fixpoint debug_run (ops : list sop) (s : st) : list (sobs (oflow := flow) (img := pair_out)) * st :=
  match ops with
  | [] => ([], s)
  | o :: ops =>
      let (r, s1) := debug_op o s in
      let (rs, s2) := debug_run ops s1 in
      (r :: rs, s2)
  end.
End Debug.
