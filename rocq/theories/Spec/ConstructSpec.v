(** What the constructors of the schedulers are documented to accept:
    vocabulary for C125. *)
From Coq Require Import List Arith ZArith QArith String Bool.
From Verif Require Import Prelude Model.PyVal Model.Types Spec.TypesSpec Model.Base Model.Files Spec.FilesSpec
  Model.Loaders Model.Episodic Spec.EpisodicSpec Model.Make Spec.MakeSpec.
Import ListNotations.
Local Open Scope string_scope.
Local Open Scope nat_scope.

(** A list of paths that stand, in order, for the files [files], of which there
    is at least one and all exist; two switches [r] and [b]. *)
Record file_args (w : world) (cls : fclass) (fl rand loop : pyval) (entries files : list string) (r b : bool) : Prop := mkFileArgs {
  fg_list : fl = PList (map PStr entries);
  fg_files : exists segs, Forall2 (stands_for (w_fs w) (search cls)) entries segs /\ files = List.concat segs;
  fg_some : files <> [];
  fg_exist : forall p, In p files -> fs_isfile (w_fs w) p = true;
  fg_rand : rand = PBool r;
  fg_loop : loop = PBool b
}.

(** The scheduler on these files: shuffled by the given key, or by that of
    seed 0. *)
Definition fresh_file (w : world) (a : fattrs) (r b : bool) (files : list string) (k : option key) : scheduler :=
  let c := mkCfg (loader_for w a) (w_rng w) r b in
  SFile a c (init c files (match k with Some k => k | None => Seed 0 end)).
Definition in_order (w : world) (a : fattrs) (r b : bool) (files : list string) (k : option key) : list string :=
  match fresh_file w a r b files k with SFile _ _ s => s_files s | _ => [] end.

(** A decimal number, leading zeros allowed; the usual notation of an integer. *)
Inductive decimal : string -> nat -> Prop :=
| decimal_one : forall d, d < 10 -> decimal (String (Ascii.ascii_of_nat (48 + d)) "") d
| decimal_more : forall s n d, decimal s n -> d < 10 -> decimal (s ++ String (Ascii.ascii_of_nat (48 + d)) "") (10 * n + d).
Definition plain_decimal (s : string) (n : nat) : Prop := decimal s n /\ forall r, s = "0" ++ r -> r = "".
Definition notation_of (s : string) (z : Z) : Prop :=
  (exists n, z = Z.of_nat n /\ plain_decimal s n) \/
  (exists n r, 0 < n /\ z = (- Z.of_nat n)%Z /\ s = "-" ++ r /\ plain_decimal r n).

(** A path is a directory (nothing, or something ending in a slash) and a name.
    The path of another file in the same directory: the slashes in the middle
    collapse to one. *)
Inductive slashes : string -> Prop :=
| slashes_one : slashes "/"
| slashes_more : forall s, slashes s -> slashes ("/" ++ s).
Inductive same_dir : string -> string -> Prop :=
| same_none : same_dir "" ""
| same_root : forall s, slashes s -> same_dir s s
| same_named : forall d s, d <> "" -> ~ has_suffix d "/" -> slashes s -> same_dir (d ++ s) (d ++ "/").

(** flow_<t>.npy in the directory [dir], and the image number [z] beside it. *)
Definition flow_name (p dir : string) (t : nat) : Prop :=
  (dir = "" \/ has_suffix dir "/") /\ exists ds, p = dir ++ "flow_" ++ ds ++ ".npy" /\ decimal ds t.
Definition numbered (p : string) (t : nat) : Prop := exists dir, flow_name p dir t.
Definition picture (p : string) (t : nat) (z : Z) (q : string) : Prop :=
  exists dir dir' zs, flow_name p dir t /\ same_dir dir dir' /\ notation_of zs z /\ q = dir' ++ "img_" ++ zs ++ ".jpg".
Definition has_images (w : world) (p : string) : Prop :=
  exists t q1 q2, picture p t (Z.of_nat t - 1) q1 /\ picture p t (Z.of_nat t) q2 /\
    fs_isfile (w_fs w) q1 = true /\ fs_isfile (w_fs w) q2 = true.
Definition lacks_images (w : world) (p : string) : Prop :=
  exists t q1 q2, picture p t (Z.of_nat t - 1) q1 /\ picture p t (Z.of_nat t) q2 /\
    (fs_isfile (w_fs w) q1 = false \/ fs_isfile (w_fs w) q2 = false).

(** A size; a positive number of seconds, or NaN. *)
Definition size (v : pyval) (n : nat) : Prop := integer v (Z.of_nat n) /\ 0 < n.
Definition seconds (v : pyval) : Prop := v = PFloat NaN \/ exists x, number v x /\ lt (Num 0) x.

(** Enough files for episodes of length [L]. *)
Definition episodes_fit (w : world) (files : list string) (L : nat) : Prop :=
  (exists d, leaf (w_dirs w) files d) /\ forall d, leaf (w_dirs w) files d -> L <= List.length (dir_files (w_dirs w) d).
