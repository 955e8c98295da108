(** What a configuration asks for, read off the dictionary, and what the
    sampler built from it consists of. *)
From Coq Require Import List Arith ZArith QArith Qabs String Bool.
From Verif Require Import Prelude Model.PyVal Model.Types Spec.TypesSpec Model.Base Model.Files Spec.FilesSpec
  Model.Loaders Model.Episodic Model.Prefetch Model.Sampler Model.Stack Model.Geometry Model.Make.
Import ListNotations.
Local Open Scope string_scope.
Local Open Scope nat_scope.

(** The value of an optional entry. *)
Definition setting (d : list (string * pyval)) (k : string) (default v : pyval) : Prop :=
  given k d = Some v \/ given k d = None /\ v = default.
(** A required positive integer; an optional non-negative integer, default 0. *)
Definition positive_setting (d : list (string * pyval)) (k : string) (n : nat) : Prop :=
  exists v, given k d = Some v /\ integer v (Z.of_nat n) /\ 0 < n.
Definition size_setting (d : list (string * pyval)) (k : string) (n : nat) : Prop :=
  exists v, setting d k (PInt 0) v /\ integer v (Z.of_nat n).
(** A required number. *)
Definition number_setting (d : list (string * pyval)) (k : string) (x : pynum) : Prop :=
  exists v, given k d = Some v /\
    match v with
    | PInt z => x = Fin (inject_Z z)
    | PBool b => x = Fin (if b then 1 else 0)
    | PFloat y => x = y
    | _ => False
    end.

Definition extension (c : fclass) : string := match c with H5 => ".h5" | Mat => ".mat" | Npy => ".npy" end.
(** Which files of a directory belong to a class. *)
Definition search (c : fclass) : string := match c with H5 => "**/*.h5" | Mat => "**/*.mat" | Npy => "flow_*.npy" end.

(** The configured list of files, and the file scheduler freshly built on it:
    everything listed exists and has the right extension, directories stand for
    their files, and the random key is that of seed 0. *)
Definition file_settings (d : list (string * pyval)) (fl : list string) (rand loop : bool) : Prop :=
  setting d "file_list" (PList []) (PList (map PStr fl)) /\
  setting d "randomize" (PBool false) (PBool rand) /\ setting d "loop" (PBool true) (PBool loop).
(** The shape of the flow fields delivered by a .mat scheduler. *)
Definition image_setting (d : list (string * pyval)) (inc : bool) (shape : nat * nat) : Prop :=
  if inc then
    exists v a b, setting d "image_shape" (PTuple [PInt 256; PInt 256]) v /\
      (v = PTuple [a; b] \/ v = PList [a; b]) /\
      integer a (Z.of_nat (fst shape)) /\ integer b (Z.of_nat (snd shape)) /\ 0 < fst shape /\ 0 < snd shape
  else shape = (256, 256).
Record file_stage (w : world) (d : list (string * pyval)) (a : fattrs) (c : cfg) (s : st) : Prop := mkFileStage {
  fst_shape : image_setting d (fa_images a) (fa_shape a);
  fst_loader : c_loader c = loader_for w a /\ c_rng c = w_rng w;
  fst_files : exists fl segs, file_settings d fl (c_randomize c) (c_loop c) /\
    Forall2 (stands_for (w_fs w) (search (fa_class a))) fl segs /\
    List.concat segs <> [] /\ (forall p, In p (List.concat segs) -> fs_isfile (w_fs w) p = true) /\
    s = init c (List.concat segs) (Seed 0) /\
    match fa_class a with
    | H5 => forall p, In p fl -> has_suffix p ".h5"
    | Mat => forall p, In p (s_files s) -> has_suffix p ".mat"
    | Npy => forall p, In p (s_files s) -> has_suffix p ".npy"
    end
}.

(** The wrappers: episodes inside, prefetching outside. *)
Definition wrapped (w : world) (B N L : nat) (k : key) (a : fattrs) (c : cfg) (s : st) (sch : scheduler) : Prop :=
  exists core,
    (L = 0 /\ core = SFile a c s \/
     0 < L /\ exists ec es, ep_construct (w_dirs w) c (w_rng w) s B L k = Ok (ec, es) /\ core = SEpisodic a ec es) /\
    (N = 0 /\ sch = core \/ 0 < N /\ sch = SPrefetch B N core).

(** The seed entry as make reads it: default 0, a 64-bit integer. *)
Definition seed_setting (d : list (string * pyval)) (z : Z) : Prop :=
  exists v, setting d "seed" (PInt 0) v /\ integer v z /\ (- 2 ^ 63 <= z < 2 ^ 63)%Z.

Definition scheduler_of {w : world} (smp : sampler w) : scheduler :=
  match smp with RealSampler _ sch | SyntheticSampler _ sch => sch end.

(** The whole configuration, as far as the schedulers are concerned. *)
Record stack_settings (d : list (string * pyval)) (cls : fclass) (B N L : nat) (inc : bool) (seed : Z) : Prop := mkStackSettings {
  ss_class : given "scheduler_class" d = Some (PStr (extension cls));
  ss_batch : positive_setting d "batch_size" B;
  ss_buffer : size_setting d "buffer_size" N;
  ss_episode : size_setting d "episode_length" L;
  ss_images : setting d "include_images" (PBool false) (PBool inc);
  ss_flows : given "flow_fields_per_batch" d <> None;
  ss_seed : seed_setting d seed;
  ss_supported : inc = true -> cls = Mat
}.

(** Equal up to the seed. *)
Definition same_but_seed (d1 d2 : list (string * pyval)) : Prop := forall k, k <> "seed" -> given k d1 = given k d2.

(** Inside the wrappers there is a file scheduler. *)
Fixpoint file_config (sch : scheduler) : cfg :=
  match sch with
  | SFile _ c _ => c
  | SEpisodic _ ec _ => ec_base ec
  | SPrefetch _ _ inner => file_config inner
  end.

(** Why a dictionary is rejected whatever else it holds. *)
Inductive invalid (d : list (string * pyval)) : Prop :=
| inv_no_class : given "scheduler_class" d = None -> invalid d
| inv_class : forall v, given "scheduler_class" d = Some v -> (forall c, v <> PStr (extension c)) -> invalid d
| inv_batch : (forall n, ~ positive_setting d "batch_size" n) -> invalid d
| inv_images : forall v, given "include_images" d = Some v -> (forall b, v <> PBool b) -> invalid d
| inv_buffer : (forall n, ~ size_setting d "buffer_size" n) -> invalid d
| inv_episode : (forall n, ~ size_setting d "episode_length" n) -> invalid d
| inv_no_flows : given "flow_fields_per_batch" d = None -> invalid d
| inv_images_class : given "include_images" d = Some (PBool true) -> given "scheduler_class" d <> Some (PStr ".mat") -> invalid d
| inv_no_batches : setting d "include_images" (PBool false) (PBool false) ->
    setting d "batches_per_flow_batch" PNone PNone -> invalid d.

(** * The synthetic image sampler *)

(** The number a value stands for, NaN included. *)
Definition is_num (v : pyval) (x : pynum) : Prop :=
  match v with
  | PInt z => x = Fin (inject_Z z)
  | PBool b => x = Fin (if b then 1 else 0)
  | PFloat y => x = y
  | _ => False
  end.

(** Lists and tuples are interchangeable in a configuration. *)
Definition sequence (c : pyval) (l : list pyval) : Prop := c = PList l \/ c = PTuple l.
Definition as_pair (c v : pyval) : Prop := exists a b, sequence c [a; b] /\ v = PTuple [a; b].
Definition as_pairs (c v : pyval) : Prop := exists cs vs, sequence c cs /\ v = PList vs /\ Forall2 as_pair cs vs.
Definition read_field (name : string) (c v : pyval) : Prop :=
  if existsb (String.eqb name) ["image_shape"; "img_offset"; "seeding_density_range"] then as_pair c v
  else if existsb (String.eqb name) ["diameter_ranges"; "intensity_ranges"; "rho_ranges"] then as_pairs c v
  else v = c.
(** Every field of the specification is the entry of that name. *)
Definition spec_settings (d : list (string * pyval)) (gs : ispec) : Prop :=
  forall name v, field gs name = Some v -> exists c, given name d = Some c /\ read_field name c v.

(** The chosen devices: all [n] of them, or the listed numbers below [n], those
    below zero counting from the end. *)
Definition device_number (n : nat) (v : pyval) (i : nat) : Prop :=
  exists z, integer v z /\ (z < Z.of_nat n)%Z /\
    ((0 <= z)%Z /\ Z.of_nat i = z \/ (z < 0)%Z /\ Z.of_nat i = (z + Z.of_nat n)%Z).
Inductive chosen (n : nat) : list pyval -> list nat -> Prop :=
| chosen_nil : chosen n [] []
| chosen_take : forall v l i r, device_number n v i -> chosen n l r -> chosen n (v :: l) (i :: r)
| chosen_skip : forall v l r a, number v a -> le (Num (inject_Z (Z.of_nat n))) a -> chosen n l r -> chosen n (v :: l) r
| chosen_nan : forall l r, chosen n l r -> chosen n (nan :: l) r.
Definition device_settings (d : list (string * pyval)) (n : nat) (r : list nat) : Prop :=
  setting d "device_ids" PNone PNone /\ r = seq 0 n \/
  exists v l, given "device_ids" d = Some v /\ sequence v l /\ chosen n l r /\ r <> [].

(** The optional arrays. *)
Definition array_setting (w : world) (d : list (string * pyval)) (k : string) (m : option arr) : Prop :=
  match m with
  | None => setting d k PNone PNone
  | Some a => exists p, given k d = Some (PStr p) /\ fs_isfile (w_fs w) p = true /\ w_npload w p = Ok a
  end.

Definition at_most (x y : pynum) : Prop := forall a b, number (PFloat x) a -> number (PFloat y) b -> le a b.

(** The numbers the geometry is computed from.  Pairs are (y, x), so speeds are
    given in the opposite order of their names' alphabetical order. *)
Record geometry_settings (w : world) (d : list (string * pyval)) (gs : ispec) (shape : list nat) (c : gcfg (w_num w)) : Prop :=
  mkGeometrySettings {
  ge_image : pair_of integer (i_image_shape gs) (g_image c);
  ge_off : exists p, pair_of is_num (i_img_offset gs) p /\ g_off c = (w_conv w (fst p), w_conv w (snd p));
  ge_dt : exists x, is_num (i_dt gs) x /\ g_dt c = w_conv w x;
  ge_size : exists v sy sx rest y x, given "flow_field_size" d = Some v /\ sequence v (sy :: sx :: rest) /\
    is_num sy y /\ is_num sx x /\ g_ffsize c = (w_conv w y, w_conv w x);
  ge_shape : exists fy fx fc, shape = [fy; fx; fc] /\ g_ffshape c = (Z.of_nat fy, Z.of_nat fx);
  ge_res : exists x, number_setting d "resolution" x /\ g_res c = w_conv w x;
  ge_vpp : exists x, number_setting d "velocities_per_pixel" x /\ g_vpp c = w_conv w x;
  ge_diameter : exists l r, list_of (pair_of is_num) (i_diameter_ranges gs) l /\ In r l /\
    (forall r', In r' l -> at_most (snd r') (snd r)) /\ g_maxd c = w_conv w (snd r);
  ge_max : exists x y, number_setting d "max_speed_x" x /\ number_setting d "max_speed_y" y /\ g_max c = (w_conv w y, w_conv w x);
  ge_min : exists x y, number_setting d "min_speed_x" x /\ number_setting d "min_speed_y" y /\ g_min c = (w_conv w y, w_conv w x);
  ge_hide : exists h1 h2 r, number (i_p_hide_img1 gs) h1 /\ number (i_p_hide_img2 gs) h2 /\
    pair_of number (i_seeding_density_range gs) r /\
    (g_hide c = true <-> lt (Num 0) h1 \/ lt (Num 0) h2 \/ lt (fst r) (snd r))
}.

Definition units_setting (d : list (string * pyval)) (u : string) : Prop :=
  given "output_units" d = Some (PStr u) /\ (u = "pixels" \/ u = "measure units per second").

(** The sampler built on a scheduler. *)
Record synthetic_settings (w : world) (d : list (string * pyval)) (sch : scheduler) (p : synthetic w) : Prop := mkSyntheticSettings {
  sn_devices : device_settings d (w_devices w) (sy_devices p);
  sn_batch : exists B, positive_setting d "batch_size" B /\ sy_F p <= B /\
    B <= sy_batch p < B + List.length (sy_devices p) /\ Nat.divide (List.length (sy_devices p)) (sy_batch p);
  sn_flows : positive_setting d "flow_fields_per_batch" (sy_F p);
  sn_repeat : exists b, positive_setting d "batches_per_flow_batch" b /\
    match sch with SEpisodic _ _ _ => sy_bpf p = 1 | _ => sy_bpf p = b end;
  sn_seed : exists v, given "seed" d = Some v /\ integer v (sy_seed p) /\ (0 <= sy_seed p)%Z;
  sn_units : units_setting d (sy_units p);
  sn_spec : exists gs sh gc, spec_settings d gs /\ post_init gs = Ok tt /\ post_init (sy_spec p) = Ok tt /\
    flow_shape w sch = Ok sh /\ geometry_settings w d gs sh gc /\ construct (w_num w) gc = Ok (sy_geom p) /\
    (forall name v, field (sy_spec p) name = Some v ->
       if String.eqb name "batch_size" then v = PInt (Z.of_nat (sy_batch p / List.length (sy_devices p)))
       else if String.eqb name "img_offset" then v = PTuple [PInt (fst (o_off (sy_geom p))); PInt (snd (o_off (sy_geom p)))]
       else field gs name = Some v) /\
    match sy_mask p with
    | Some m => map Z.of_nat (shape m) = [fst (g_image gc); snd (g_image gc)] /\ Forall (fun x => x == 0 \/ x == 1)%Q (data m)
    | None => True
    end /\
    match sy_hist p with
    | Some h => shape h = [256] /\
        (Qabs (qsum (data h) - inject_Z (fst (g_image gc) * snd (g_image gc)))
         <= (1 # 100000000) + (1 # 100000) * Qabs (inject_Z (fst (g_image gc) * snd (g_image gc))))%Q
    | None => True
    end;
  sn_mask : array_setting w d "mask" (sy_mask p);
  sn_hist : array_setting w d "histogram" (sy_hist p);
  sn_flow_shape : exists fy fx fc, flow_shape w sch = Ok [fy; fx; fc] /\ 0 < fy /\ 0 < fx /\ (fc = 2 \/ fc = 3)
}.
