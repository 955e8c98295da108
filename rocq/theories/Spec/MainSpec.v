(** What the user of the command-line program relies on. *)
From Coq Require Import List Arith ZArith String Bool.
From Verif Require Import Prelude Model.Files Model.Sampler Model.Main.
Import ListNotations.
Local Open Scope string_scope.
Local Open Scope nat_scope.

(** Calling [next] returns the batches [bs] one after the other. *)
Inductive gives {S o i : Type} (next : S -> result (batch o i) * S) : S -> list (batch o i) -> S -> Prop :=
| gv_none : forall s, gives next s [] s
| gv_more : forall s b s1 bs s2, next s = (Ok b, s1) -> gives next s1 bs s2 -> gives next s (b :: bs) s2.

(** As many flow fields as images. *)
Definition paired {o i : Type} (b : batch o i) : Prop := List.length (ba_flows b) = List.length (ba_images b).

(** The files that show sample [j] of batch [k]. *)
Definition files_of {o i : Type} (dir : string) (k j : nat) (x : i) (f : o) : list (string * drawing o i) :=
  let stem := "batch_" ++ str_of_nat k ++ "_sample_" ++ str_of_nat j in
  [(path_join dir (stem ++ "_image1.png"), Image1 x); (path_join dir (stem ++ "_image2.png"), Image2 x);
   (path_join dir (stem ++ "_quiver.png"), Arrows f)].

(** The files for the first [num] samples of each batch, numbered from [k]. *)
Fixpoint gallery {o i : Type} (dir : string) (num : Z) (k : nat) (bs : list (batch o i)) : list (string * drawing o i) :=
  match bs with
  | [] => []
  | b :: bs =>
      (flat_map (fun q => files_of dir k (fst q) (fst (snd q)) (snd (snd q)))
         (firstn (Z.to_nat num) (combine (seq 0 (List.length (ba_images b))) (combine (ba_images b) (ba_flows b)))) ++
       gallery dir num (S k) bs)%list
  end.

Definition wrote {o i : Type} (l : list (act o i)) : list (string * drawing o i) :=
  flat_map (fun a => match a with Wrote p d => [(p, d)] | _ => [] end) l.
Definition calls_of {o i : Type} (l : list (act o i)) : nat :=
  List.length (filter (fun a => match a with Called => true | _ => false end) l).

(** Nobody was asked to stop after batch [k], or the answer was yes. *)
Definition went_on (W : outside) (num : Z) (k : nat) : Prop :=
  (num <= 0)%Z \/ x_say W k = Ok "y" \/ x_say W k = Ok "Y".

(** The directory or a file could not be written. *)
Definition disk_raised (W : outside) (e : exn) : Prop := (exists k j, x_folder W k j = Some e) \/ (exists p, x_write W p = Some e).

(** Everything can be written and every answer is yes. *)
Definition willing (W : outside) (num : Z) : Prop :=
  (forall k j, x_folder W k j = None) /\ (forall p, x_write W p = None) /\ forall k, went_on W num k.
