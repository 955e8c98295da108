(** Model of the command-line program, src/main.py: the loop that draws batches,
    writes pictures and asks whether to go on.

    Not modelled: the pixels written by matplotlib, the log and the printed
    line, the argument parser (the option --devices is parsed and never used). *)
From Coq Require Import List Arith ZArith String Ascii Bool.
From Verif Require Import Prelude Model.Files Model.Sampler.
Import ListNotations.
Local Open Scope string_scope.
Local Open Scope nat_scope.

(** What a file shows: the first or the second image of a pair, or the arrows
    of a flow field (main.py:38-62). *)
Inductive drawing (o i : Type) : Type := Image1 (x : i) | Image2 (x : i) | Arrows (f : o).
Arguments Image1 {o i}. Arguments Image2 {o i}. Arguments Arrows {o i}.

(** What the program does to the world, in order: a call of [next(sampler)], a
    file written, a question asked, [sampler.shutdown()]. *)
Inductive act (o i : Type) : Type := Called | Wrote (path : string) (d : drawing o i) | Asked | Off.
Arguments Called {o i}. Arguments Wrote {o i}. Arguments Asked {o i}. Arguments Off {o i}.

(** The rest of the world: [os.makedirs] before sample [j] of batch [k], writing
    a file (no path is written twice, C106), and the line typed after batch [k]
    (an exception if the input is closed or interrupted). *)
Record outside : Type := mkOutside {
  x_folder : nat -> nat -> option exn;
  x_write : string -> option exn;
  x_say : nat -> result string
}.

(** [str.lower()], for ASCII text. *)
Definition lower_char (a : ascii) : ascii :=
  let n := nat_of_ascii a in if (65 <=? n) && (n <=? 90) then ascii_of_nat (n + 32) else a.
Fixpoint lower (s : string) : string :=
  match s with EmptyString => EmptyString | String a s => String (lower_char a) (lower s) end.

Section Main.
Context {S o i : Type}.
Variable next : S -> result (batch o i) * S.
Variable off : S -> S.
Variable W : outside.
Variable dir : string.      (* output_dir *)
Variable num : Z.           (* num_images_to_display *)

(** Files written one after the other, up to the first that fails. *)
Fixpoint write_all (l : list (string * drawing o i)) : list (act o i) * option exn :=
  match l with
  | [] => ([], None)
  | (p, d) :: l =>
      match x_write W p with
      | Some e => ([], Some e)
      | None => let (a, r) := write_all l in (Wrote p d :: a, r)
      end
  end.

(** [visualize_and_save], main.py:21-64, called for sample [j] of batch [k]. *)
Definition visualize (k j : nat) (x : i) (f : o) : list (act o i) * option exn :=
  let name := "batch_" ++ str_of_nat k ++ "_sample_" ++ str_of_nat j in
  match x_folder W k j with
  | Some e => ([], Some e)
  | None => write_all [(path_join dir (name ++ "_image1.png"), Image1 x); (path_join dir (name ++ "_image2.png"), Image2 x);
                       (path_join dir (name ++ "_quiver.png"), Arrows f)]
  end.

(** main.py:86-97: the samples [js] of batch [k]. *)
Fixpoint samples (k : nat) (b : batch o i) (js : list nat) : list (act o i) * option exn :=
  match js with
  | [] => ([], None)
  | j :: js =>
      match nth_error (ba_images b) j, nth_error (ba_flows b) j with
      | Some x, Some f =>
          let (a, r) := visualize k j x f in
          match r with
          | Some e => (a, Some e)
          | None => let (a', r') := samples k b js in ((a ++ a')%list, r')
          end
      | _, _ => ([], Some IndexError)
      end
  end.

(** main.py:84-104, for at most [fuel] batches: [None] is still running. *)
Fixpoint main_loop (fuel k : nat) (s : S) : list (act o i) * option (result unit) * S :=
  match fuel with
  | 0 => ([], None, s)
  | Datatypes.S fuel =>
      match next s with
      | (Err StopIteration, s') => ([Called], Some (Ok tt), s')
      | (Err e, s') => ([Called], Some (Err e), s')
      | (Ok b, s') =>
          let (a, r) := samples k b (seq 0 (Z.to_nat (Z.min num (Z.of_nat (List.length (ba_images b)))))) in
          match r with
          | Some e => (Called :: a, Some (Err e), s')
          | None =>
              if (0 <? num)%Z then
                match x_say W k with
                | Err e => ((Called :: a ++ [Asked])%list, Some (Err e), s')
                | Ok c =>
                    if String.eqb (lower c) "y" then
                      let '(l, v, s2) := main_loop fuel (Datatypes.S k) s' in ((Called :: a ++ Asked :: l)%list, v, s2)
                    else ((Called :: a ++ [Asked])%list, Some (Ok tt), s')
                end
              else let '(l, v, s2) := main_loop fuel (Datatypes.S k) s' in ((Called :: a ++ l)%list, v, s2)
          end
      end
  end.

(** main.py:74-107 once [make] has returned: [finally: sampler.shutdown()]. *)
Definition session (fuel : nat) (start : S) : list (act o i) * option (result unit) * S :=
  let '(l, v, s) := main_loop fuel 0 start in
  match v with
  | None => (l, None, s)
  | Some v => ((l ++ [Off])%list, Some v, off s)
  end.
End Main.
