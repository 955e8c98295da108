(** The constructors of the schedulers called directly, for arguments of any
    type: BaseFlowFieldScheduler (src/synthpix/scheduler/base.py:52-118),
    HDF5FlowFieldScheduler (hdf5.py:23-41), MATFlowFieldScheduler
    (mat.py:36-69), NumpyFlowFieldScheduler (numpy.py:32-77),
    EpisodicFlowFieldScheduler (episodic.py:68-112),
    PrefetchingFlowFieldScheduler (prefetch.py:28-75), and the three
    [from_config] methods.  Model/Files.v has the first four on arguments of the
    right types. *)
From Coq Require Import List Arith ZArith QArith String Bool.
From Verif Require Import Prelude Model.PyVal Model.Types Model.Base Model.Files Model.Loaders Model.Episodic
  Model.Prefetch Model.Sampler Model.Stack Model.Geometry Model.Make.
Import ListNotations.
Local Open Scope string_scope.
Local Open Scope nat_scope.

(** base.py:97-102 *)
Definition key_or_default (k : option key) : key := match k with Some k => k | None => Seed 0 end.

(** BaseFlowFieldScheduler.__init__, base.py:66-118, for a subclass with the
    search pattern [pat] and the file format [ld]. *)
Definition init_base (w : world) (pat : string) (ld : loader) (fl rand loop : pyval) (k : option key) : result (cfg * st) :=
  match fl with
  | PList l =>
      match strings l with
      | None => Err ValueError
      | Some entries =>
          (* 73-82 *)
          let files := expand (w_fs w) pat entries in
          if List.length files =? 0 then Err ValueError else
          (* 87-91 *)
          if negb (forallb (fs_isfile (w_fs w)) files) then Err ValueError else
          (* 93-107 *)
          match rand with
          | PBool r =>
              match loop with
              | PBool b => let c := mkCfg ld (w_rng w) r b in Ok (c, init c files (key_or_default k))
              | _ => Err ValueError
              end
          | _ => Err ValueError
          end
      end
  | _ => Err ValueError
  end.

Definition h5_attrs : fattrs := mkFattrs H5 false (256, 256).
Definition npy_attrs (inc : bool) : fattrs := mkFattrs Npy inc (256, 256).

(** hdf5.py:39-41; the argument is a list of strings by then. *)
Definition init_h5 (w : world) (fl rand loop : pyval) (k : option key) : result scheduler :=
  bind (init_base w "**/*.h5" (loader_for w h5_attrs) fl rand loop k) (fun r =>
  match fl with
  | PList l => if forallb (fun v => ends_with (py_str v) ".h5") l then Ok (SFile h5_attrs (fst r) (snd r)) else Err ValueError
  | _ => Err ValueError
  end).

(** mat.py:56-69 *)
Definition init_mat (w : world) (fl rand loop inc shape : pyval) (k : option key) : result scheduler :=
  match inc with
  | PBool i =>
      match shape with
      | PTuple [u; v] =>
          (* 62-63 *)
          bind (pos_int u) (fun h => bind (pos_int v) (fun x =>
          let a := mkFattrs Mat i (h, x) in
          bind (init_base w "**/*.mat" (loader_for w a) fl rand loop k) (fun r =>
          if forallb (fun p => ends_with p ".mat") (s_files (snd r)) then Ok (SFile a (fst r) (snd r)) else Err ValueError)))
      | _ => Err ValueError
      end
  | _ => Err ValueError
  end.

(** numpy.py:54-77 *)
Definition init_npy (w : world) (fl rand loop inc : pyval) (k : option key) : result scheduler :=
  match inc with
  | PBool i =>
      let a := npy_attrs i in
      bind (init_base w "flow_*.npy" (loader_for w a) fl rand loop k) (fun r =>
      if negb (forallb (fun p => ends_with p ".npy") (s_files (snd r))) then Err ValueError else
      bind (if i then check_images (w_fs w) (s_files (snd r)) else Ok tt) (fun _ => Ok (SFile a (fst r) (snd r))))
  | _ => Err ValueError
  end.

(** hdf5.py:104-119, mat.py:212-229, numpy.py:127-143.  (The default of "loop"
    is not the same in the three.) *)
Definition h5_from_config (w : world) (d : list (string * pyval)) : result scheduler :=
  init_h5 w (dict_get d "file_list" (PList [])) (dict_get d "randomize" (PBool false)) (dict_get d "loop" (PBool true)) None.
Definition mat_from_config (w : world) (d : list (string * pyval)) : result scheduler :=
  bind (py_tuple (dict_get d "output_shape" (PTuple [PInt 256; PInt 256]))) (fun shape =>
  init_mat w (dict_get d "file_list" (PList [])) (dict_get d "randomize" (PBool false)) (dict_get d "loop" (PBool false))
    (dict_get d "include_images" (PBool false)) shape None).
Definition npy_from_config (w : world) (d : list (string * pyval)) : result scheduler :=
  init_npy w (dict_get d "file_list" (PList [])) (dict_get d "randomize" (PBool false)) (dict_get d "loop" (PBool true))
    (dict_get d "include_images" (PBool false)) None.

(** EpisodicFlowFieldScheduler.__init__, episodic.py:92-112.  The first argument
    is a file scheduler, or ([None]) something that is no scheduler.  (Other
    schedulers inside are not modelled.) *)
Definition init_episodic (w : world) (sch : option (fattrs * cfg * st)) (B L : pyval) (k : option key) : result scheduler :=
  match sch with
  | None => Err TypeError
  | Some (a, c, s) =>
      bind (pos_int B) (fun B => bind (pos_int L) (fun L =>
      bind (ep_construct (w_dirs w) c (w_rng w) s B L (key_or_default k)) (fun r => Ok (SEpisodic a (fst r) (snd r)))))
  end.

(** [if not isinstance(v, (int, float)) or v <= 0: raise ValueError],
    prefetch.py:65-71. *)
Definition timeout_ok (v : pyval) : result unit :=
  if is_number v then bind (py_le v zero) (fun b => if b then Err ValueError else Ok tt) else Err ValueError.

(** PrefetchingFlowFieldScheduler.__init__, prefetch.py:49-75.  (The type of the
    scheduler is not tested.  The timeouts are kept out of the result: the
    background thread's timing is a parameter of the model, Model/Stack.v.) *)
Definition init_prefetch (inner : scheduler) (B N startup steady : pyval) : result scheduler :=
  bind (pos_int B) (fun B => bind (pos_int N) (fun N =>
  bind (timeout_ok startup) (fun _ => bind (timeout_ok steady) (fun _ => Ok (SPrefetch B N inner))))).
