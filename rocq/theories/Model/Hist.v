(** Model of [match_histogram], src/synthpix/utils.py:17-63, over exact
    rationals. *)
From Coq Require Import List Arith ZArith QArith Qround Bool.
From Verif Require Import Prelude Model.Interp.
Import ListNotations.
Local Open Scope Z_scope.

(** The pixels in row-major order, [source.ravel()]. *)
Definition ravel (im : image) : list Q :=
  flat_map (fun r => map (fun c => at_ im (Z.of_nat r) (Z.of_nat c)) (seq 0 (Z.to_nat (cols im)))) (seq 0 (Z.to_nat (rows im))).

(** [jnp.histogram(flat, bins=arange(257))]: bin [i] counts i <= x < i+1, the
    last one 255 <= x <= 256. *)
Definition in_bin (i : nat) (x : Q) : bool :=
  Qle_bool (inject_Z (Z.of_nat i)) x &&
  (negb (Qle_bool (inject_Z (Z.of_nat i + 1)) x) || (Nat.eqb i 255 && Qle_bool x 256)).
Definition s_counts (flat : list Q) : list Q :=
  map (fun i => inject_Z (Z.of_nat (List.length (filter (in_bin i) flat)))) (seq 0 256).

(** [jnp.cumsum] *)
Fixpoint cumsum_from (acc : Q) (l : list Q) : list Q :=
  match l with
  | [] => []
  | x :: l => let acc := (acc + x)%Q in acc :: cumsum_from acc l
  end.
(** cumulative sum divided by its last entry.  (Division by zero, a NaN in the
    code, is 0 here; the theorems assume a positive sum.) *)
Definition cdf (l : list Q) : list Q :=
  let c := cumsum_from 0 l in map (fun x => (x / last c 0)%Q) c.

(** [jnp.clip(jnp.digitize(flat, bins) - 1, 0, 255)] *)
Definition digitize (x : Q) : Z := clipZ 0 255 (clipZ (-1) 256 (Qfloor x)).

(** [jnp.searchsorted(a, q, side="left")] on a sorted array: the number of
    leading entries below [q].  (On an unsorted array, which a histogram with
    negative entries gives, the library's answer is unspecified.) *)
Fixpoint searchsorted (a : list Q) (q : Q) : nat :=
  match a with
  | [] => 0%nat
  | x :: a => if Qle_bool q x then 0%nat else S (searchsorted a q)
  end.

(** utils.py:28-63. *)
Definition match_histogram (source : image) (template : list Q) : image :=
  let flat := ravel source in
  let s_cdf := cdf (s_counts flat) in
  let t_cdf := cdf template in
  mkImage (rows source) (cols source) (fun r c =>
    let quantile := nth (Z.to_nat (digitize (at_ source r c))) s_cdf 0%Q in
    inject_Z (clipZ 0 255 (Z.of_nat (searchsorted t_cdf quantile)))).
