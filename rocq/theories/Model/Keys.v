(** Which random keys one call of [generate_images_from_flow] draws from
    (src/synthpix/data_generate.py:72-311, src/synthpix/generate.py:50-80), and the
    keys [make] hands out (src/synthpix/make.py:156-194).

    [jax.random.fold_in k i] is identified with the [i]-th child of [k]; this
    holds of JAX's partitionable threefry and can only make more keys equal.
    For the same reason the children of [split(k, n)] do not depend on [n]. *)
From Coq Require Import List Arith ZArith.
From Verif Require Import Prelude.
Import ListNotations.

(** What a draw is for.  [i] is the image's index on its device. *)
Inductive use : Type :=
| UDensity                                    (* data_generate.py:91-96, all images at once *)
| UDiameterIdx (i : nat) | UIntensityIdx (i : nat) | URhoIdx (i : nat)   (* :122-124 *)
| UHide1 (i : nat) | UHide2 (i : nat)                                    (* :142-147 *)
| UPositions (i : nat)                                                   (* :151-153 *)
| UDx (i : nat) | UDy (i : nat) | URho (i : nat) | UIn (i : nat)         (* :168-200 *)
| UNoiseDx (i : nat) | UNoiseDy (i : nat) | UNoiseRho (i : nat) | UNoiseIn (i : nat)  (* :203-214 *)
| UNoise1Uniform (i : nat) | UNoise1Gauss (i : nat)                      (* :284-290, generate.py:69-77 *)
| UNoise2Uniform (i : nat) | UNoise2Gauss (i : nat).                     (* :291-297 *)

(** [add_noise_to_image], generate.py:69-77: the two keys drawn from. *)
Definition noise_draws (k : key) : key * key := split2 k.

(** [scan_body], data_generate.py:102-311, iteration [i] with carry [k], in
    program order. *)
Definition scan_draws (k : key) (i : nat) : list (use * key) :=
  let key_i := Child k i in
  let sub n := Child key_i (n - 1) in             (* subkey1 .. subkey9 *)
  let par n := Child (sub 4) n in                 (* the eight keys split from subkey4 *)
  let (u1, g1) := noise_draws (sub 5) in
  let (u2, g2) := noise_draws (sub 6) in
  [ (UDiameterIdx i, sub 7); (UIntensityIdx i, sub 8); (URhoIdx i, sub 9);
    (UHide1 i, sub 1); (UHide2 i, sub 2); (UPositions i, sub 3);
    (UDx i, par 0); (UDy i, par 1); (URho i, par 2); (UIn i, par 3);
    (UNoiseDx i, par 4); (UNoiseDy i, par 5); (UNoiseRho i, par 6); (UNoiseIn i, par 7);
    (UNoise1Uniform i, u1); (UNoise1Gauss i, g1);
    (UNoise2Uniform i, u2); (UNoise2Gauss i, g2) ].

(** [generate_images_from_flow], data_generate.py:90-96, 312-323: [b] images
    from device key [k]; the carry never changes. *)
Definition draws (k : key) (b : nat) : list (use * key) :=
  let (k', density_key) := split2 k in
  (UDensity, density_key) :: flat_map (scan_draws k') (seq 0 b).

(** make.py:158-162, 187-188: the keys given to the file scheduler and the
    episodic wrapper. *)
Definition make_keys (seed : Z) : key * key :=
  let (key, sched_key) := split2 (Seed seed) in
  let (_, epi_key) := split2 key in
  (sched_key, epi_key).
