(** [match_histogram], utils.py:17-63, in binary32 as JAX runs it.

    The order in which the library adds up is left open: a cumulative sum is any
    list whose entries are sums of the prefixes, each bracketed in any way. *)
From Coq Require Import List Arith ZArith QArith Qround Bool.
From Flocq Require Import IEEE754.BinarySingleNaN.
From Verif Require Import Prelude Model.Interp Model.Geometry Model.Render Model.InterpFloat Model.Hist.
Import ListNotations.
Local Open Scope Z_scope.

Definition plus32 : f32 -> f32 -> f32 := @Bplus 24 128 p32 l32 mode_NE.
Definition div32 : f32 -> f32 -> f32 := @Bdiv 24 128 p32 l32 mode_NE.

(** Comparisons of floats are exact, so they are made on the values. *)
Definition fvalue (x : f32) : Q := match f_val x with Some q => q | None => 0%Q end.
Definition fravel (im : fimage) : list Q :=
  flat_map (fun r => map (fun c => fvalue (g_at im (Z.of_nat r) (Z.of_nat c))) (seq 0 (Z.to_nat (g_cols im)))) (seq 0 (Z.to_nat (g_rows im))).

(** [jnp.histogram]: an array of zeros, to which 1.0 is added once per pixel of
    the bin (utils.py:35). *)
Definition count32 (flat : list Q) (i : nat) : f32 :=
  Nat.iter (List.length (filter (in_bin i) flat)) (fun x => plus32 x (f32_ofZ 1)) (f32_ofZ 0).
Definition counts32 (flat : list Q) : list f32 := map (count32 flat) (seq 0 256).

(** A sum of the entries, in order, bracketed somehow. *)
Inductive sum32 : list f32 -> f32 -> Prop :=
  | sum_one : forall x, sum32 [x] x
  | sum_two : forall l l' a b, sum32 l a -> sum32 l' b -> sum32 (l ++ l') (plus32 a b).

(** [jnp.cumsum(l, dtype=float32)], utils.py:38, 42. *)
Definition cumsum32 (l c : list f32) : Prop :=
  List.length c = List.length l /\
  forall j, (j < List.length l)%nat -> sum32 (firstn (S j) l) (nth j c (f32_ofZ 0)).

(** [c / c[-1]], utils.py:39, 43. *)
Definition cdf32 (c : list f32) : list f32 := map (fun x => div32 x (last c (f32_ofZ 0))) c.

(** [jnp.searchsorted(a, q, side="left")] on a sorted array, utils.py:56. *)
Fixpoint searchsorted32 (a : list f32) (q : f32) : nat :=
  match a with
  | [] => 0%nat
  | x :: a => if f32_leb q x then 0%nat else S (searchsorted32 a q)
  end.

(** The new level of the pixel at (r, c), utils.py:49-60, given the two
    cumulative sums. *)
Definition level32 (im : fimage) (cs ct : list f32) (r c : Z) : Z :=
  let idx := digitize (fvalue (g_at im r c)) in
  let quantile := nth (Z.to_nat idx) (cdf32 cs) (f32_ofZ 0) in
  clipZ 0 255 (Z.of_nat (searchsorted32 (cdf32 ct) quantile)).

(** utils.py:28-63; [matched32 im template out]: [out] is a possible result. *)
Definition matched32 (im : fimage) (template : list f32) (out : fimage) : Prop :=
  exists cs ct, cumsum32 (counts32 (fravel im)) cs /\ cumsum32 template ct /\
    g_rows out = g_rows im /\ g_cols out = g_cols im /\
    forall r c, g_at out r c = f32_ofZ (level32 im cs ct r c).
