(** What a user of episodes may rely on. *)
From Coq Require Import List Arith String Bool Permutation.
From Verif Require Import Prelude Model.Base Spec.BaseSpec Model.Files Model.Episodic.
Import ListNotations.

(** A set is enumerated without repetition, in any order. *)
Definition enum_ok (D : dirs) : Prop :=
  forall l, NoDup (d_enum D l) /\ forall x, In x (d_enum D l) <-> In x l.

(** [jax.random.choice(key, n, (m,))] returns [m] indices below [n]. *)
Definition choice_ok (g : rng) : Prop :=
  forall k n m, 0 < n -> List.length (rchoice g k n m) = m /\
    forall i, In i (rchoice g k n m) -> i < n.

(** [d] is a readable directory without sub-directories that holds one of the
    listed files. *)
Definition leaf (D : dirs) (fl : list string) (d : string) : Prop :=
  (exists p, In p fl /\ d_key D p = d) /\ d_scan D d = ScanLeaf.

(** [L] consecutive files of a leaf directory, from number [s] on. *)
Definition window (D : dirs) (fl : list string) (L : nat) (w : string * nat) : Prop :=
  leaf D fl (fst w) /\ snd w + L <= List.length (dir_files D (fst w)).

(** [order] lists the windows [ws] side by side, one time step after the
    other. *)
Definition time_major (files : string -> list string) (L : nat)
           (ws : list (string * nat)) (order : list string) : Prop :=
  List.length order = L * List.length ws /\
  forall t e d s, t < L -> nth_error ws e = Some (d, s) ->
    nth_error order (t * List.length ws + e) = nth_error (files d) (s + t).

(** Row [e] of the batch is file number [t] of window [e]. *)
Definition step_of (C : string -> content) (files : string -> list string)
           (ws : list (string * nat)) (t : nat) (r : option obs) : Prop :=
  exists b l, r = Some (ORes (CReturn b)) /\ batch_of (List.length ws) l b /\
    List.length l = List.length ws /\
    forall e d s, nth_error ws e = Some (d, s) ->
      exists p x, nth_error (files d) (s + t) = Some p /\ C p = Slices [x] /\
                  nth_error l e = Some x.

(** Every file of every leaf directory holds one slice; all slices can be put
    in one batch. *)
Definition single_slices (C : string -> content) (D : dirs) (fl : list string) : Prop :=
  exists F I1 I2, forall d p, leaf D fl d -> In p (dir_files D d) ->
    exists x, C p = Slices [x] /\ stackable F I1 I2 x.

(** A path names one file of one directory. *)
Definition distinct_files (D : dirs) (fl : list string) : Prop :=
  forall d d' i j p, leaf D fl d -> leaf D fl d' ->
    nth_error (dir_files D d) i = Some p -> nth_error (dir_files D d') j = Some p ->
    d = d' /\ i = j.

(** No two neighbouring windows are equal, and the last one is not the first
    one shifted by one step (which matters from two steps on). *)
Definition spread (L : nat) (ws : list (string * nat)) : Prop :=
  (forall e w, nth_error ws e = Some w -> nth_error ws (S e) <> Some w) /\
  (2 <= L -> forall d s, nth_error ws 0 = Some (d, s) ->
     nth_error ws (List.length ws - 1) <> Some (d, S s)).

(** Steps taken since the episode (or its counter) was last restarted. *)
Fixpoint taken_from (B L t : nat) (ops : list eop) : nat :=
  match ops with
  | [] => t
  | EGet n :: ops =>
      taken_from B L (if (n =? B) && (t <? L) then S t else t) ops
  | _ :: ops => taken_from B L 0 ops
  end.

Definition taken (B L : nat) (ops : list eop) : nat := taken_from B L 0 ops.

(** Episodes started by the calls of a consumer, the one of the construction
    excluded. *)
Fixpoint restarts (ops : list eop) : nat :=
  match ops with
  | [] => 0
  | ENext :: ops | EReset :: ops => S (restarts ops)
  | _ :: ops => restarts ops
  end.
