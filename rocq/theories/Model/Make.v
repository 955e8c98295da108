(** Model of [make] (src/synthpix/make.py), of the [from_config] methods it
    calls, and of the argument checks of the sampler constructors
    (src/synthpix/sampler/synthetic.py:103-447, real.py:19-40). *)
From Coq Require Import List Arith ZArith QArith Qabs String Bool Ascii.
From Verif Require Import Prelude Model.PyVal Model.Types Model.Base Model.Files Model.Loaders Model.Episodic
  Model.Prefetch Model.Sampler Model.Stack Model.Geometry.
Import ListNotations.
Local Open Scope string_scope.
Local Open Scope nat_scope.

(** Everything outside the code: the file system and what the readers say
    about its files, the random number generator, the devices, and the
    arithmetic of floats.  [w_npload] is [np.load] of a mask or histogram file
    (values are rationals: no NaN, no dtype). *)
Record world : Type := mkWorld {
  w_exists : string -> bool;
  w_fs : fs;
  w_yaml : string -> result pyval;
  w_h5 : string -> h5_file;
  w_npy : string -> result arr;
  w_jpg : string -> result arr;
  w_mat : mat_disk;
  w_pil : pil;
  w_dirs : dirs;
  w_rng : rng;
  w_devices : nat;
  w_npload : string -> result arr;
  w_num : num;
  w_conv : pynum -> carrier w_num
}.

(** * Python helpers *)

Definition int_of (v : pyval) : option Z :=
  match v with PInt z => Some z | PBool b => Some (int_of_bool b) | _ => None end.

(** Iterating over a value. *)
Definition py_iter (v : pyval) : result (list pyval) :=
  match v with
  | PList l | PTuple l => Ok l
  | PStr s => Ok (map (fun a => PStr (String a EmptyString)) (list_ascii_of_string s))
  | PDict d => Ok (map (fun p => PStr (fst p)) d)
  | _ => Err TypeError
  end.
(** [tuple(v)], [[tuple(t) for t in v]] *)
Definition py_tuple (v : pyval) : result pyval := bind (py_iter v) (fun l => Ok (PTuple l)).
Fixpoint mapM {A B} (f : A -> result B) (l : list A) : result (list B) :=
  match l with
  | [] => Ok []
  | x :: l => bind (f x) (fun y => bind (mapM f l) (fun l => Ok (y :: l)))
  end.
Definition tuples (v : pyval) : result pyval := bind (py_iter v) (fun l => bind (mapM py_tuple l) (fun l => Ok (PList l))).

(** [str(v)]; the text of a value that is not a string is never compared equal
    to anything by the code, so it is left out. *)
Definition py_str (v : pyval) : string := match v with PStr s => s | _ => "" end.

Definition is_str (v : pyval) : bool := match v with PStr _ => true | _ => false end.
Definition is_bool (v : pyval) : bool := match v with PBool _ => true | _ => false end.

(** A value can be looked up in a dictionary: not a list or dictionary, nor a
    tuple containing one. *)
Fixpoint hashable (v : pyval) : bool :=
  match v with
  | PList _ | PDict _ => false
  | PTuple l => forallb hashable l
  | _ => true
  end.

(** [not isinstance(v, int) or v <= 0: raise ValueError], and [v < 0]. *)
Definition pos_int (v : pyval) : result nat :=
  match int_of v with
  | Some z => if (0 <? z)%Z then Ok (Z.to_nat z) else Err ValueError
  | None => Err ValueError
  end.
Definition nonneg_int (v : pyval) : result nat :=
  match int_of v with
  | Some z => if (0 <=? z)%Z then Ok (Z.to_nat z) else Err ValueError
  | None => Err ValueError
  end.

(** [if c: raise ValueError] *)
Definition check (c : bool) : result unit := if c then Ok tt else Err ValueError.

(** * Schedulers *)

Inductive fclass : Type := H5 | Mat | Npy.

(** What a file scheduler remembers about its class: [include_images] and
    [output_shape] (only .mat has the latter). *)
Record fattrs : Type := mkFattrs { fa_class : fclass; fa_images : bool; fa_shape : nat * nat }.

Inductive scheduler : Type :=
| SFile (a : fattrs) (c : cfg) (s : st)
| SEpisodic (a : fattrs) (ec : ecfg) (s : est)
| SPrefetch (B N : nat) (inner : scheduler).

(** make.py:24-28 and 44-50. *)
Definition get_base_scheduler (v : pyval) : result fclass :=
  if negb (hashable v) then Err TypeError else
  match v with
  | PStr s =>
      if String.eqb s ".h5" then Ok H5
      else if String.eqb s ".mat" then Ok Mat
      else if String.eqb s ".npy" then Ok Npy
      else Err ValueError
  | _ => Err ValueError
  end.

Fixpoint strings (l : list pyval) : option (list string) :=
  match l with
  | [] => Some []
  | PStr s :: l => option_map (cons s) (strings l)
  | _ :: _ => None
  end.

Definition loader_for (w : world) (a : fattrs) : loader :=
  match fa_class a with
  | H5 => h5_loader (w_h5 w)
  | Mat => mat_loader (w_pil w) (w_mat w) (fa_images a) (fst (fa_shape a)) (snd (fa_shape a))
  | Npy => npy_loader (fa_images a) (w_npy w) (w_jpg w)
  end.

(** The three [from_config] methods (hdf5.py:104-119, mat.py:212-229,
    numpy.py:127-143) and the constructors: none of them reads the entry "key",
    so the key is the default [PRNGKey(0)] of base.py:97-102.  (Every check of
    the arguments raises ValueError, so their order does not show.) *)
Definition file_scheduler (w : world) (a : fattrs) (kw : list (string * pyval)) : result scheduler :=
  match dict_get kw "file_list" (PList []) with
  | PList l =>
      match strings l with
      | None => Err ValueError
      | Some fl =>
          match dict_get kw "randomize" (PBool false), dict_get kw "loop" (PBool true) with
          | PBool rand, PBool loop =>
              let c := mkCfg (loader_for w a) (w_rng w) rand loop in
              bind (match fa_class a with
                    | H5 => construct_h5 (w_fs w) c fl (Seed 0)
                    | Mat => construct_mat (w_fs w) c fl (Seed 0)
                    | Npy => construct_npy (w_fs w) (fa_images a) c fl (Seed 0)
                    end) (fun s => Ok (SFile a c s))
          | _, _ => Err ValueError
          end
      end
  | _ => Err ValueError
  end.

(** [scheduler.get_flow_fields_shape()], passed on by the wrappers
    (episodic.py:219-225, prefetch.py:123-129). *)
Definition file_flow_shape (w : world) (a : fattrs) (s : st) : result (list nat) :=
  match fa_class a with
  | H5 => h5_flow_shape (w_h5 w) s
  | Mat => Ok (mat_flow_shape (fst (fa_shape a)) (snd (fa_shape a)))
  | Npy => npy_flow_shape (w_npy w) s
  end.
Fixpoint flow_shape (w : world) (sch : scheduler) : result (list nat) :=
  match sch with
  | SFile a _ s => file_flow_shape w a s
  | SEpisodic a _ s => file_flow_shape w a (e_base s)
  | SPrefetch _ _ inner => flow_shape w inner
  end.

(** The wrappers as [RealImageSampler.__init__] sees them. *)
Fixpoint stack_of (sch : scheduler) : stack :=
  match sch with
  | SFile a _ _ => Plain (fa_images a)
  | SEpisodic a _ _ => Wrapped (Plain (fa_images a))
  | SPrefetch _ _ inner => Wrapped (stack_of inner)
  end.
(** [isinstance(scheduler, EpisodicFlowFieldScheduler)] *)
Definition is_episodic_class (sch : scheduler) : bool := match sch with SEpisodic _ _ _ => true | _ => false end.

(** * The synthetic image sampler *)

Record synthetic (w : world) : Type := mkSynthetic {
  sy_devices : list nat;              (* the devices of the mesh *)
  sy_batch : nat;                     (* batch_size, rounded up *)
  sy_F : nat;                         (* flow_fields_per_batch *)
  sy_bpf : nat;                       (* batches_per_flow_batch *)
  sy_seed : Z;
  sy_spec : ispec;                    (* the specification the generator is compiled with *)
  sy_geom : geom (w_num w);
  sy_ffsize : list pyval;
  sy_res : pyval;
  sy_vpp : pyval;
  sy_units : string;
  sy_mask : option arr;
  sy_hist : option arr
}.
Arguments mkSynthetic {w}. Arguments sy_devices {w}. Arguments sy_batch {w}. Arguments sy_F {w}. Arguments sy_bpf {w}.
Arguments sy_seed {w}. Arguments sy_spec {w}. Arguments sy_geom {w}. Arguments sy_ffsize {w}. Arguments sy_res {w}.
Arguments sy_vpp {w}. Arguments sy_units {w}. Arguments sy_mask {w}. Arguments sy_hist {w}.

Inductive sampler (w : world) : Type :=
| RealSampler (B : nat) (sch : scheduler)
| SyntheticSampler (p : synthetic w) (sch : scheduler).
Arguments RealSampler {w}. Arguments SyntheticSampler {w}.

(** [config.get(k)] as the path of an array file, synthetic.py:537-563. *)
Definition array_file (w : world) (v : pyval) (ok : arr -> bool) : result (option arr) :=
  match v with
  | PNone => Ok None
  | PStr p =>
      if fs_isfile (w_fs w) p then
        bind (w_npload w p) (fun a => if ok a then Ok (Some a) else Err ValueError)
      else Err ValueError
  | _ => Err ValueError
  end.
(** [np.isin(a, [0, 1]).all()] *)
Definition binary (a : arr) : bool := forallb (fun x => Qeq_bool x 0 || Qeq_bool x 1) (data a).

(** The specification built from the configuration, synthetic.py:566-583
    (arguments are evaluated in this order). *)
Definition spec_of_config (d : list (string * pyval)) : result ispec :=
  let item := dict_item d in
  bind (item "batch_size") (fun batch =>
  bind (bind (item "image_shape") py_tuple) (fun shape =>
  bind (bind (item "img_offset") py_tuple) (fun offset =>
  bind (bind (item "seeding_density_range") py_tuple) (fun density =>
  bind (item "p_hide_img1") (fun h1 =>
  bind (item "p_hide_img2") (fun h2 =>
  bind (bind (item "diameter_ranges") tuples) (fun dia =>
  bind (item "diameter_var") (fun diav =>
  bind (bind (item "intensity_ranges") tuples) (fun int =>
  bind (item "intensity_var") (fun intv =>
  bind (bind (item "rho_ranges") tuples) (fun rho =>
  bind (item "rho_var") (fun rhov =>
  bind (item "dt") (fun dt =>
  bind (item "noise_uniform") (fun nu =>
  bind (item "noise_gaussian_mean") (fun ngm =>
  bind (item "noise_gaussian_std") (fun ngs =>
  make_spec (mkIspec batch shape offset density h1 h2 dia diav int intv rho rhov dt nu ngm ngs))))))))))))))))).

(** [[all_devices[i] for i in device_ids if i < len(all_devices)]],
    synthetic.py:133-145: negative numbers count from the end. *)
Definition device (n : nat) (v : pyval) : result nat :=
  match int_of v with
  | None => Err TypeError
  | Some z =>
      if (0 <=? z)%Z then Ok (Z.to_nat z)
      else if (0 <=? z + Z.of_nat n)%Z then Ok (Z.to_nat (z + Z.of_nat n))
      else Err IndexError
  end.
Fixpoint devices_from (n : nat) (l : list pyval) : result (list nat) :=
  match l with
  | [] => Ok []
  | v :: l =>
      bind (py_lt v (PInt (Z.of_nat n))) (fun b =>
      if b then bind (device n v) (fun i => bind (devices_from n l) (fun r => Ok (i :: r)))
      else devices_from n l)
  end.
Definition select_devices (n : nat) (v : pyval) : result (list nat) :=
  match v with
  | PNone => Ok (seq 0 n)
  | _ => bind (py_iter v) (fun l => bind (devices_from n l) (fun r => match r with [] => Err ValueError | _ => Ok r end))
  end.

(** [jnp.isclose(a, b)] with the default tolerances. *)
Definition isclose (a b : Q) : bool := Qle_bool (Qabs (a - b)) ((1 # 100000000) + (1 # 100000) * Qabs b).
Definition qsum (l : list Q) : Q := fold_right Qplus 0%Q l.

(** [isinstance(v, (int, float))], then [v <= 0] is false. *)
Definition not_le_zero (v : pyval) : result pynum :=
  match num_of v with
  | Some x => if num_leb x (Fin 0) then Err ValueError else Ok x
  | None => Err ValueError
  end.
Definition a_number (v : pyval) : result pynum := match num_of v with Some x => Ok x | None => Err ValueError end.
(** [isinstance(s, (int, float)) and s > 0] *)
Definition positive_number (v : pyval) : bool :=
  match num_of v with Some x => num_ltb (Fin 0) x | None => false end.

Definition num_eqb (a b : pynum) : bool := num_leb a b && num_leb b a.
(** [max(r[1] for r in ranges)] *)
Definition upper_ends (v : pyval) : list pynum :=
  match v with
  | PList l => flat_map (fun r => match r with PTuple [_; b] => match num_of b with Some x => [x] | None => [] end | _ => [] end) l
  | _ => []
  end.
Definition num_max (l : list pynum) : pynum :=
  match l with [] => Fin 0 | x :: l => fold_left (fun m y => if num_ltb m y then y else m) l x end.
Definition pair_nums (v : pyval) : pynum * pynum :=
  match v with
  | PTuple [a; b] =>
      (match num_of a with Some x => x | None => NaN end, match num_of b with Some x => x | None => NaN end)
  | _ => (NaN, NaN)
  end.
Definition pair_ints (v : pyval) : Z * Z :=
  match v with
  | PTuple [a; b] =>
      (match int_of a with Some x => x | None => 0 end, match int_of b with Some x => x | None => 0 end)%Z
  | _ => (0, 0)%Z
  end.
Definition conv2 (w : world) (p : pynum * pynum) : carrier (w_num w) * carrier (w_num w) :=
  (w_conv w (fst p), w_conv w (snd p)).
Definition the_num (v : pyval) : pynum := match num_of v with Some x => x | None => NaN end.

(** The constructor, synthetic.py:49-447, on a validated specification.  [d]
    supplies the arguments as [from_config] passes them.  (The specification
    has been validated, so [pair_nums] and the like find what they look for.
    DEBUG_JIT is false: lines 362-393 do not run.) *)
Definition synthetic_constructor (w : world) (d : list (string * pyval)) (gs : ispec) (sch : scheduler)
    (mask hist : option arr) : result (synthetic w) :=
  let item := dict_item d in
  (* 585-601: the arguments *)
  bind (item "batches_per_flow_batch") (fun v_bpf =>
  bind (item "flow_fields_per_batch") (fun v_F =>
  bind (bind (item "flow_field_size") py_iter) (fun ffsize =>
  bind (item "resolution") (fun v_res =>
  bind (item "velocities_per_pixel") (fun v_vpp =>
  bind (item "seed") (fun v_seed =>
  bind (item "max_speed_x") (fun v_maxx =>
  bind (item "max_speed_y") (fun v_maxy =>
  bind (item "min_speed_x") (fun v_minx =>
  bind (item "min_speed_y") (fun v_miny =>
  bind (bind (item "output_units") (fun v => Ok (py_str v))) (fun units =>
  let v_dev := dict_get d "device_ids" PNone in
  let '(H, W) := pair_ints (i_image_shape gs) in
  (* 109: Sampler.__init__, base.py:31-41 *)
  bind (pos_int (i_batch_size gs)) (fun BS =>
  (* 112-127 *)
  bind (match mask with
        | None => Ok tt
        | Some m => check (if list_eq_dec Z.eq_dec (map Z.of_nat (shape m)) [H; W] then true else false)
        end) (fun _ =>
  bind (match hist with
        | None => Ok tt
        | Some h => check ((if list_eq_dec Nat.eq_dec (shape h) [256] then true else false)
                           && isclose (qsum (data h)) (inject_Z (H * W)))
        end) (fun _ =>
  (* 133-150 *)
  bind (select_devices (w_devices w) v_dev) (fun devs =>
  let nd := List.length devs in
  (* 160-168 *)
  bind (pos_int v_bpf) (fun bpf =>
  (* 170-174 *)
  bind (pos_int v_F) (fun F =>
  bind (check (F <=? BS)) (fun _ =>
  (* 177-182 *)
  let B := round_batch BS nd in
  (* 184-190 *)
  bind (check (forallb positive_number ffsize)) (fun _ =>
  (* 193-205 *)
  bind (flow_shape w sch) (fun fshape =>
  match fshape with
  | [fy; fx; fc] =>
      bind (check (((fc =? 2) || (fc =? 3)) && (0 <? fy) && (0 <? fx))) (fun _ =>
      (* 207-215 *)
      bind (not_le_zero v_res) (fun res =>
      bind (not_le_zero v_vpp) (fun vpp =>
      (* 223-231 *)
      bind (check (String.eqb units "pixels" || String.eqb units "measure units per second")) (fun _ =>
      bind (match int_of v_seed with Some z => if (0 <=? z)%Z then Ok z else Err ValueError | None => Err ValueError end) (fun seed =>
      (* 242-253 *)
      bind (a_number v_maxx) (fun maxx =>
      bind (a_number v_maxy) (fun maxy =>
      bind (a_number v_minx) (fun minx =>
      bind (a_number v_miny) (fun miny =>
      bind (check (negb (num_ltb maxx minx))) (fun _ =>
      bind (check (negb (num_ltb maxy miny))) (fun _ =>
      (* 216-221, 258-354 *)
      match ffsize with
      | sy :: sx :: _ =>
          let dens := pair_nums (i_seeding_density_range gs) in
          let hide := num_ltb (Fin 0) (the_num (i_p_hide_img1 gs)) || num_ltb (Fin 0) (the_num (i_p_hide_img2 gs))
                      || negb (num_eqb (fst dens) (snd dens)) in
          let conv := w_conv w in
          bind (construct (w_num w)
                  (mkGcfg (w_num w) (H, W) (conv2 w (pair_nums (i_img_offset gs))) (conv (the_num (i_dt gs)))
                     (conv (the_num sy), conv (the_num sx)) (Z.of_nat fy, Z.of_nat fx) (conv res) (conv vpp)
                     (conv (num_max (upper_ends (i_diameter_ranges gs)))) (conv maxy, conv maxx) (conv miny, conv minx) hide))
               (fun g =>
          (* 357-360 *)
          bind (update [("batch_size", PInt (Z.of_nat (B / nd)));
                        ("img_offset", PTuple [PInt (fst (o_off g)); PInt (snd (o_off g))])] gs) (fun gs' =>
          Ok (mkSynthetic devs B F (if is_episodic_class sch then 1 else bpf) seed gs' g ffsize v_res v_vpp units mask hist)))
      | _ => Err IndexError
      end)))))))))))
  | _ => Err ValueError
  end)))))))))))))))))))).

(** [SyntheticImageSampler.from_config], synthetic.py:515-607 (a KeyError is
    raised again as KeyError). *)
Definition synthetic_from_config (w : world) (d : list (string * pyval)) (sch : scheduler) : result (synthetic w) :=
  bind (array_file w (dict_get d "mask" PNone) binary) (fun mask =>
  bind (array_file w (dict_get d "histogram" PNone) (fun _ => true)) (fun hist =>
  bind (spec_of_config d) (fun gs =>
  synthetic_constructor w d gs sch mask hist))).

(** [jax.random.PRNGKey(seed)]: a 64-bit integer. *)
Definition prng_key (v : pyval) : result key :=
  match int_of v with
  | Some z => if ((-(2 ^ 63) <=? z) && (z <? 2 ^ 63))%Z then Ok (Seed z) else Err (OtherExn 1)
  | None => Err TypeError
  end.

(** make.py:113-132: the configuration dictionary.  (Keys that are not strings
    are never asked for.) *)
Definition load_config (w : world) (config : pyval) : result (list (string * pyval)) :=
  match config with
  | PStr p =>
      if negb (ends_with p ".yaml") then Err ValueError
      else if negb (w_exists w p) then Err FileNotFoundError
      else if negb (fs_isfile (w_fs w) p) then Err ValueError
      else bind (w_yaml w p) (fun v => match v with PDict d => Ok d | _ => Err TypeError end)
  | PDict d => Ok d
  | _ => Err TypeError
  end.

(** make.py:133-230.  (The entry "key" of the keyword arguments, a random key, is
    left out: nothing reads it.) *)
Definition make_dict (w : world) (d : list (string * pyval)) : result (sampler w) :=
  if negb (dict_in d "scheduler_class") then Err ValueError else
  bind (get_base_scheduler (dict_get d "scheduler_class" PNone)) (fun cls =>
  if negb (dict_in d "batch_size") then Err ValueError else
  bind (pos_int (dict_get d "batch_size" PNone)) (fun B =>
  match dict_get d "include_images" (PBool false) with
  | PBool inc =>
      bind (nonneg_int (dict_get d "buffer_size" (PInt 0))) (fun N =>
      bind (nonneg_int (dict_get d "episode_length" (PInt 0))) (fun L =>
      if negb (dict_in d "flow_fields_per_batch") then Err ValueError else
      bind (prng_key (dict_get d "seed" (PInt 0))) (fun k0 =>
      let (k, sched_key) := split2 k0 in
      let kwargs := [("file_list", dict_get d "file_list" (PList [])); ("randomize", dict_get d "randomize" (PBool false));
                     ("loop", dict_get d "loop" (PBool true)); ("include_images", PBool inc)] in
      (* 172-181, mat.py:56-63 *)
      bind (if inc then
              match cls with
              | Mat =>
                  bind (py_iter (dict_get d "image_shape" (PTuple [PInt 256; PInt 256]))) (fun l =>
                  match l with
                  | [a; b] => bind (pos_int a) (fun h => bind (pos_int b) (fun x => Ok (h, x)))
                  | _ => Err ValueError
                  end)
              | _ => Err ValueError
              end
            else Ok (256, 256)) (fun shape =>
      (* 184 *)
      bind (file_scheduler w (mkFattrs cls inc shape) kwargs) (fun file =>
      (* 187-194 *)
      bind (if 0 <? L then
              match file with
              | SFile a c s =>
                  let (_, epi_key) := split2 k in
                  bind (ep_construct (w_dirs w) c (w_rng w) s B L epi_key) (fun r => Ok (SEpisodic a (fst r) (snd r)))
              | _ => Ok file
              end
            else Ok file) (fun sch =>
      (* 197-202 *)
      let sch := if 0 <? N then SPrefetch B N sch else sch in
      (* 204-226 *)
      if inc then bind (real_init_ok (stack_of sch)) (fun _ => Ok (RealSampler B sch))
      else
        match dict_get d "batches_per_flow_batch" PNone with
        | PNone => Err ValueError
        | v =>
            bind (if 0 <? L then py_lt one v else Ok false) (fun _ =>
            bind (synthetic_from_config w d sch) (fun p => Ok (SyntheticSampler p sch)))
        end))))))
  | _ => Err TypeError
  end)).

(** [make], make.py:53-230. *)
Definition make (w : world) (config : pyval) : result (sampler w) := bind (load_config w config) (make_dict w).

(** * What the sampler reads from *)

(** The scheduler's answers: [fuel] bounds the search for a usable file,
    [tm] is the timing of the background thread, if there is one.  ([make] never
    nests two prefetchers.) *)
Definition episode_len (sch : scheduler) : option nat :=
  match sch with SEpisodic _ ec _ => Some (ec_L ec) | _ => None end.
Fixpoint sif_of (fuel : nat) (sch : scheduler) : sif :=
  match sch with
  | SFile _ c _ => base_sif c fuel
  | SEpisodic _ ec _ => episodic_sif ec fuel
  | SPrefetch B N inner => prefetch_sif (sif_of fuel inner) (episode_len inner) B N
  end.
Fixpoint start_of (fuel : nat) (tm : timing) (sch : scheduler) : si_state (sif_of fuel sch) :=
  match sch return si_state (sif_of fuel sch) with
  | SFile _ _ s => s
  | SEpisodic _ _ s => s
  | SPrefetch B _ inner => mkTst (pinit (sched_of (sif_of fuel inner) (episode_len inner) B) (start_of fuel tm inner)) tm
  end.

(** The sampler's batch loop (Model/Sampler.v) with the sizes fixed by the
    constructor and any two compiled functions. *)
Definition scfg_of {w : world} (fuel : nat) (p : synthetic w) (sch : scheduler) {oflow bflow img : Type}
    (adapt : si_flow (sif_of fuel sch) -> oflow) (bounds : si_flow (sif_of fuel sch) -> bflow)
    (render : key -> nat -> bflow -> img) : scfg (sif_of fuel sch) oflow bflow img :=
  mkScfg (sif_of fuel sch) oflow bflow img (List.length (sy_devices p)) (sy_batch p) (sy_F p) (sy_bpf p) (sy_seed p)
    adapt bounds render.
