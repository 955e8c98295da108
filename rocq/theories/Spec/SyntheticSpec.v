(** Vocabulary for what the images of a synthetic sampler depend on. *)
From Coq Require Import List Arith ZArith QArith.
From Verif Require Import Prelude Model.Interp Model.Keys Model.DataGen Spec.SamplerSpec Spec.RenderSpec Spec.LoaderSpec.
Import ListNotations.

(** Two generators give the same answers for key [k]. *)
Definition agree (g g' : generator) (k : key) : Prop :=
  (forall n i, g_unit g k n i = g_unit g' k n i) /\ (forall n i, g_normal g k n i = g_normal g' k n i) /\
  (forall n, g_randint g k n = g_randint g' k n).

(** Which image pair of its device a draw is for; the densities of all pairs of
    a device are drawn at once. *)
Definition pair_of (p : use) : option nat :=
  match p with
  | UDensity => None
  | UDiameterIdx i | UIntensityIdx i | URhoIdx i | UHide1 i | UHide2 i | UPositions i
  | UDx i | UDy i | URho i | UIn i | UNoiseDx i | UNoiseDy i | UNoiseRho i | UNoiseIn i
  | UNoise1Uniform i | UNoise1Gauss i | UNoise2Uniform i | UNoise2Gauss i => Some i
  end.

(** Draws that concern only the first image of a pair, or only the second. *)
Definition only_first (p : use) : bool :=
  match p with UHide1 _ | UNoise1Uniform _ | UNoise1Gauss _ => true | _ => false end.
Definition only_second (p : use) : bool :=
  match p with
  | UHide2 _ | UNoiseDx _ | UNoiseDy _ | UNoiseRho _ | UNoiseIn _ | UNoise2Uniform _ | UNoise2Gauss _ => true
  | _ => false
  end.

(** [k] is a key drawn from for the pair [j] of device [d] in batch [m], for a
    per-device batch size [b]. *)
Definition key_of_pair (seed : Z) (b m d j : nat) (k : key) : Prop :=
  exists p, In (p, k) (draws (device_key seed m d) b) /\ pair_of p = Some j.

(** The same picture, pixel by pixel; the same pair with the same parameters. *)
Definition same_picture (a b : image) : Prop :=
  rows a = rows b /\ cols a = cols b /\ forall r c, at_ a r c = at_ b r c.
Definition same_pair (o o' : pair_out) : Prop :=
  same_picture (out1 o) (out1 o') /\ same_picture (out2 o) (out2 o') /\ out_density o = out_density o' /\
  out_diameters o = out_diameters o' /\ out_intensities o = out_intensities o' /\ out_rhos o = out_rhos o'.

(** The consecutive part of [l] that device [d] of [nd] gets. *)
Definition device_part {A} (nd : nat) (l : list A) (d : nat) : list A :=
  firstn (List.length l / nd) (skipn (d * (List.length l / nd)) l).

(** The same velocity everywhere on the grid. *)
Definition steady (u v : Q) (f : flow) : Prop :=
  (1 <= fH f)%Z /\ (1 <= fW f)%Z /\
  forall r c, (0 <= r < fH f)%Z -> (0 <= c < fW f)%Z -> (fu f r c == u)%Q /\ (fv f r c == v)%Q.

(** An array of rows, columns and channels with [u] in channel 0 and [v] in
    channel 1 everywhere. *)
Definition everywhere (u v : Q) (x : arr) : Prop :=
  exists h w ch, shape x = [h; w; ch]%nat /\ (1 <= h)%nat /\ (1 <= w)%nat /\
  forall r k, (r < h)%nat -> (k < w)%nat -> (elt x [r; k; 0%nat] == u)%Q /\ (elt x [r; k; 1%nat] == v)%Q.

(** An entry of a batch that reports a displacement of [dy] rows and [dx]
    columns everywhere and shows it: on pixels that are far enough from the
    borders of the simulated area of [pb] pixels, in which the image starts at
    [off], the second image is the first one displaced. *)
Definition shows_displacement (pb off : Z * Z) (rad dy dx : Z) (o : pair_out) (reported : flow) : Prop :=
  let inside r k := deep (fst pb) rad (r + fst off) /\ deep (snd pb) rad (k + snd off) in
  (forall y x, (fu reported y x == inject_Z dx)%Q /\ (fv reported y x == inject_Z dy)%Q) /\
  forall r k, inside r k -> inside (r + dy)%Z (k + dx)%Z -> (at_ (out2 o) (r + dy) (k + dx) == at_ (out1 o) r k)%Q.
