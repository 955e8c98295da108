(** Model of EpisodicFlowFieldScheduler (src/synthpix/scheduler/episodic.py)
    wrapped around a file scheduler (Model/Base.v). *)
From Coq Require Import List Arith ZArith String Bool.
From Verif Require Import Prelude Model.Base Model.Files.
Import ListNotations.

(** Outcome of [os.scandir(d)] in src/synthpix/utils.py:466-475: no
    sub-directory, some sub-directory, or one of the three caught errors. *)
Inductive scan_res : Type := ScanLeaf | ScanHasSubdir | ScanFails.

(** What the code asks of the operating system and of the interpreter.
    [d_key p] is [os.path.normpath(os.path.dirname(p))]; [d_enum l] lists the
    elements of [set(l)] in the interpreter's iteration order (a set of
    strings: it differs between processes); [d_glob d] is the unordered result
    of [glob.glob(os.path.join(d, "*.mat"))]. *)
Record dirs : Type := mkDirs {
  d_key : string -> string;
  d_enum : list string -> list string;
  d_scan : string -> scan_res;
  d_glob : string -> list string
}.

(** [discover_leaf_dirs], src/synthpix/utils.py:451-477 (follow_symlinks is
    never passed). *)
Definition leaf_dirs (D : dirs) (paths : list string) : list string :=
  filter (fun d => match d_scan D d with ScanLeaf => true | _ => false end)
         (d_enum D (map (d_key D) paths)).

(** [dir2files[d]], episodic.py:237. *)
Definition dir_files (D : dirs) (d : string) : list string := sorted (d_glob D d).

(** What never changes after construction: episodic.py:102-111. *)
Record ecfg : Type := mkEcfg {
  ec_base : cfg;
  ec_rng : rng;
  ec_B : nat;                          (* batch_size *)
  ec_L : nat;                          (* _episode_length *)
  ec_files : string -> list string;    (* dir2files *)
  ec_starts : list (string * nat)      (* _starts *)
}.

(** episodic.py:107-108 and the wrapped scheduler. *)
Record est : Type := mkEst {
  e_base : st;
  e_key : key;
  e_t : nat
}.

(** [_calculate_starts], episodic.py:227-252. *)
Definition calculate_starts (D : dirs) (L : nat) (fl : list string)
  : result (list (string * nat)) :=
  let ds := leaf_dirs D fl in
  if forallb (fun d => L <=? List.length (dir_files D d)) ds then
    Ok (flat_map
          (fun d => map (fun s => (d, s))
                        (seq 0 (List.length (dir_files D d) - L + 1))) ds)
  else Err ValueError.

(** [dir2files[d][s : s + L]], episodic.py:272. *)
Definition window_files (ec : ecfg) (w : string * nat) : list string :=
  firstn (ec_L ec) (skipn (snd w) (ec_files ec (fst w))).

(** episodic.py:275-279.  The defaults of [nth] stand for IndexError, which
    the length check of [_calculate_starts] excludes. *)
Definition interleave (B L : nat) (eps : list (list string)) : list string :=
  flat_map (fun t => map (fun e => nth t (nth e eps []) EmptyString) (seq 0 B)) (seq 0 L).

(** [_sample_new_episodes], episodic.py:254-290: [jax.random.choice] raises
    ValueError on an empty range; otherwise the new order is installed and the
    wrapped scheduler reset. *)
Definition drawn (ec : ecfg) (k : key) : list (string * nat) :=
  map (fun i => nth i (ec_starts ec) (EmptyString, 0))
      (rchoice (ec_rng ec) (Child k 1) (List.length (ec_starts ec)) (ec_B ec)).

Definition sample (ec : ecfg) (s : est) : result est :=
  match ec_starts ec with
  | [] => Err ValueError
  | _ =>
      let order := interleave (ec_B ec) (ec_L ec)
                     (map (window_files ec) (drawn ec (e_key s))) in
      Ok (mkEst (reset (ec_base ec) (set_files (e_base s) order))
                (Child (e_key s) 0) (e_t s))
  end.

(** [__init__], episodic.py:68-112, on a scheduler whose current state is
    [base] (argument type checks: simplified to positivity). *)
Definition ep_construct (D : dirs) (c : cfg) (g : rng) (base : st) (B L : nat) (k : key)
  : result (ecfg * est) :=
  if B =? 0 then Err ValueError
  else if L =? 0 then Err ValueError
  else
    bind (calculate_starts D L (s_files base)) (fun starts =>
    let ec := mkEcfg c g B L (dir_files D) starts in
    bind (sample ec (mkEst base k 0)) (fun s => Ok (ec, s))).

(** [next_episode] = [reset_episode] = [reset], episodic.py:187-217.  After
    construction [sample] cannot fail (the starts are non-empty and constant);
    in the impossible case the state is kept. *)
Definition next_episode (ec : ecfg) (s : est) : est :=
  match sample ec s with
  | Ok s' => mkEst (e_base s') (e_key s') 0
  | Err _ => s
  end.

(** [get_batch], episodic.py:137-168. *)
Definition ep_get (ec : ecfg) (fuel n : nat) (s : est) : call_res * est :=
  if n =? ec_B ec then
    if ec_L ec <=? e_t s then (CRaise EpisodeEnd, s)
    else
      let (r, b) := get_batch (ec_base ec) fuel n (e_base s) in
      (r, mkEst b (e_key s) (S (e_t s)))
  else (CRaise ValueError, s).

(** [steps_remaining], episodic.py:202-208 (an integer difference; never
    negative, Properties/EpisodicProps.v). *)
Definition steps_remaining (ec : ecfg) (s : est) : Z :=
  (Z.of_nat (ec_L ec) - Z.of_nat (e_t s))%Z.

(** [__iter__], episodic.py:114-117. *)
Definition ep_iter (s : est) : est := mkEst (e_base s) (e_key s) 0.

(** A consumer's calls. *)
Inductive eop : Type := EGet (n : nat) | ENext | EReset | EIter.

Definition do_eop (ec : ecfg) (fuel : nat) (o : eop) (s : est) : obs * est :=
  match o with
  | EGet n => let (r, s') := ep_get ec fuel n s in (ORes r, s')
  | ENext | EReset => (OUnit, next_episode ec s)
  | EIter => (OUnit, ep_iter s)
  end.

Fixpoint erun (ec : ecfg) (fuel : nat) (ops : list eop) (s : est) : list obs * est :=
  match ops with
  | [] => ([], s)
  | o :: ops =>
      let (r, s1) := do_eop ec fuel o s in
      let (rs, s2) := erun ec fuel ops s1 in
      (r :: rs, s2)
  end.
