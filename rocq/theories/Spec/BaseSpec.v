(** What a consumer of a file scheduler may rely on, stated on file contents
    and returned batches only. *)
From Coq Require Import List Arith String Bool Permutation.
From Verif Require Import Prelude Model.Base.
Import ListNotations.

(** What is on disk at a path: nothing usable, a list of slices, or a list of
    slices followed by data whose extraction raises [e]. *)
Inductive content : Type :=
| Unreadable
| Slices (l : list SchedData)
| Faulty (l : list SchedData) (e : exn).

(** [disk ld C]: reading through the loader [ld] reveals the contents [C]. *)
Definition disk (ld : loader) (C : string -> content) : Prop :=
  forall p,
    match C p with
    | Unreadable => exists e, load_file ld p = Err e
    | Slices l =>
        exists d, load_file ld p = Ok d /\
          forall i, get_next_slice ld (Some d) (Some p) i =
                    match nth_error l i with Some x => SItem x | None => SEnded end
    | Faulty l e =>
        exists d, load_file ld p = Ok d /\
          (forall i, i < List.length l ->
             get_next_slice ld (Some d) (Some p) i =
               match nth_error l i with Some x => SItem x | None => SEnded end) /\
          get_next_slice ld (Some d) (Some p) (List.length l) = SRaise e
    end.

(** The slices a path contributes. *)
Definition slices_of (C : string -> content) (p : string) : list SchedData :=
  match C p with Unreadable => [] | Slices l => l | Faulty l _ => l end.

(** The slices of a list of files, in list order, each once. *)
Definition epoch (C : string -> content) (fl : list string) : list SchedData :=
  flat_map (slices_of C) fl.

Definition no_adjacent_equal (fl : list string) : Prop :=
  forall i p q, nth_error fl i = Some p -> nth_error fl (S i) = Some q -> p <> q.

(** Runs of equal neighbours collapsed to one. *)
Fixpoint collapse (fl : list string) : list string :=
  match fl with
  | [] => []
  | p :: l =>
      match l with
      | [] => [p]
      | q :: _ => if String.eqb p q then collapse l else p :: collapse l
      end
  end.

Definition no_faults (C : string -> content) (fl : list string) : Prop :=
  forall p l e, In p fl -> C p <> Faulty l e.

(** Slices that can be put in one batch: flows of one shape, images (where
    present) of one shape, one file name each. *)
Record stackable (F I1 I2 : list nat) (x : SchedData) : Prop := {
  stk_flow : wf_arr (sd_flow x) /\ shape (sd_flow x) = F;
  stk_im1 : forall a, sd_im1 x = Some a -> wf_arr a /\ shape a = I1;
  stk_im2 : forall a, sd_im2 x = Some a -> wf_arr a /\ shape a = I2;
  stk_file : exists f, sd_files x = Some [f]
}.

Definition same_shapes (C : string -> content) (fl : list string) : Prop :=
  exists F I1 I2, forall x, In x (epoch C fl) -> stackable F I1 I2 x.

(** As above, flows having three axes and images two: what [get_batch] can pad
    when it runs out of slices. *)
Definition uniform (C : string -> content) (fl : list string) : Prop :=
  exists F I1 I2, List.length F = 3 /\ List.length I1 = 2 /\ List.length I2 = 2 /\
    forall x, In x (epoch C fl) -> stackable F I1 I2 x.

(** Batch [b] of [n] rows holds exactly the slices [l] (at most [n]) in its
    first rows and nothing in the others. *)
Record batch_of (n : nat) (l : list SchedData) (b : SchedData) : Prop := {
  bo_len : List.length l <= n;
  bo_rows : nrows (sd_flow b) = n;
  bo_mask : exists m, sd_mask b = Some m /\ List.length m = n /\
      forall i, i < n -> (nth_error m i = Some true <-> i < List.length l);
  bo_flow : forall i x, nth_error l i = Some x -> row i (sd_flow b) = sd_flow x;
  bo_flow_pad : forall i, List.length l <= i < n ->
      row i (sd_flow b) = zeros (tl (shape (sd_flow b)));
  bo_files : exists fs, sd_files b = Some fs /\ List.length fs = n /\
      (forall i x, nth_error l i = Some x ->
         exists f, sd_files x = Some [f] /\ nth_error fs i = Some f) /\
      (forall i, List.length l <= i < n -> nth_error fs i = Some EmptyString);
  bo_im1_none : sd_im1 b = None <-> exists x, In x l /\ sd_im1 x = None;
  bo_im1 : forall a, sd_im1 b = Some a -> nrows a = n /\
      (forall i x, nth_error l i = Some x -> sd_im1 x = Some (row i a)) /\
      (forall i, List.length l <= i < n -> row i a = zeros (tl (shape a)));
  bo_im2_none : sd_im2 b = None <-> exists x, In x l /\ sd_im2 x = None;
  bo_im2 : forall a, sd_im2 b = Some a -> nrows a = n /\
      (forall i x, nth_error l i = Some x -> sd_im2 x = Some (row i a)) /\
      (forall i, List.length l <= i < n -> row i a = zeros (tl (shape a)))
}.

(** The valid rows of a result, as a consumer reads them: flow and file name
    of every row whose mask entry is [true]. *)
Definition valid_rows (r : call_res) : list (arr * string) :=
  match r with
  | CReturn b =>
      match sd_mask b, sd_files b with
      | Some m, Some fs =>
          map (fun i => (row i (sd_flow b), nth i fs EmptyString))
              (filter (fun i => nth i m false) (seq 0 (nrows (sd_flow b))))
      | _, _ => []
      end
  | _ => []
  end.

Definition slice_row (x : SchedData) : arr * string :=
  (sd_flow x, match sd_files x with Some (f :: _) => f | _ => EmptyString end).

Definition sum (ns : list nat) : nat := fold_right Nat.add 0 ns.

(** A sequence of [get_batch] calls. *)
Definition gets (ns : list nat) : list op := map OGet ns.

(** The rows a consumer has received over a sequence of calls. *)
Definition received (rs : list obs) : list (arr * string) :=
  flat_map (fun o => match o with ORes r => valid_rows r | OUnit => [] end) rs.

(** Slice extraction signals the end of a file with FileEndedError, never with
    StopIteration (true of the three loaders, Proofs/LoaderProofs.v). *)
Definition slice_never_stops (ld : loader) : Prop :=
  forall d f i, get_next_slice ld d f i <> SRaise StopIteration.

(** What [jax.random.permutation] guarantees. *)
Definition perm_ok (g : rng) : Prop :=
  forall k n, Permutation (rperm g k n) (seq 0 n).

(** A loader that simply exposes given contents (for examples). *)
Definition loader_of (C : string -> content) : loader :=
  mkLoader
    (fun p => match C p with
              | Unreadable => Err (OtherExn 0)
              | _ => Ok (mkSD (zeros []) None None None None) end)
    (fun _ f i =>
       match f with
       | None => SRaise RuntimeError
       | Some p =>
           match C p with
           | Unreadable => SRaise RuntimeError
           | Slices l => match nth_error l i with Some x => SItem x | None => SEnded end
           | Faulty l e => match nth_error l i with Some x => SItem x | None => SRaise e end
           end
       end).

(** The entries of [src] at the positions [idx], in that order. *)
Definition taken_at {A} (src : list A) (idx : list nat) (dst : list A) : Prop :=
  Forall2 (fun i x => nth_error src i = Some x) idx dst.
