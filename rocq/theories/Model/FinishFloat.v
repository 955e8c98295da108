(** What follows the drawing, and the whole generator, in binary32:
    generate.py:50-80 and data_generate.py:19-340. *)
From Coq Require Import List Arith ZArith QArith Bool.
From Flocq Require Import IEEE754.BinarySingleNaN.
From Verif Require Import Prelude Model.Interp Model.Geometry Model.Render Model.DataGen Model.InterpFloat Model.HistFloat Model.DrawFloat Model.MoveFloat Model.SampleFloat.
Import ListNotations.
Local Open Scope Z_scope.

(** [add_noise_to_image] at one pixel, generate.py:70-80: [w] the uniform noise,
    [z] the normal draw. *)
Definition noise32 (fused : bool) (mean std w z x : f32) : f32 :=
  f32_clip (f32_ofZ 0) (f32_ofZ 255) (madd32 fused z std (plus32 (plus32 x w) mean)).

(** Python slicing with non-negative bounds, data_generate.py:274-281. *)
Definition crop32 (off shape : Z * Z) (im : fimage) : fimage :=
  @mkGimage binary32 (slice_len (g_rows im) (fst off) (fst shape)) (slice_len (g_cols im) (snd off) (snd shape))
    (fun r c => g_at im (r + fst off) (c + snd off)).

(** The other arguments: the fields of ImageGenerationSpecification that matter
    after the drawing, the number of pairs, the range of densities, the largest
    upper end of a range of diameters (data_generate.py:70), mask and histogram. *)
Record rest32 : Type := mkRest32 {
  v_batch : nat;
  v_image : Z * Z; v_offset : Z * Z;
  v_density : f64 * f64;
  v_max_diameter : Q;
  v_uniform : f32; v_mean : f32; v_std : f32;
  v_mask : option fimage;
  v_histogram : option (list f32)
}.

Section Finish.
Variables (fused : bool) (g : source32) (re : rest32).

(** Crop and noise, data_generate.py:273-297; [k] is subkey5 or subkey6. *)
Definition noisy32 (k : key) (im : fimage) : fimage :=
  let im := crop32 (v_offset re) (v_image re) im in
  let n := Z.to_nat (g_rows im * g_cols im) in
  let at_index r c := Z.to_nat (r * g_cols im + c) in
  @mkGimage binary32 (g_rows im) (g_cols im) (fun r c =>
    noise32 fused (v_mean re) (v_std re)
      (draw32 fused (f32_ofZ 0) (v_uniform re) (s_bits g (Child k 0) n (at_index r c)))
      (s_normal g (Child k 1) n (at_index r c)) (g_at im r c)).

(** data_generate.py:300-302. *)
Definition masked32 (im : fimage) : fimage :=
  match v_mask re with
  | Some m => @mkGimage binary32 (g_rows im) (g_cols im) (fun r c => mult32 (g_at im r c) (g_at m r c))
  | None => im
  end.

(** data_generate.py:273-307: [out] is a possible result. *)
Definition finished32 (k : key) (im out : fimage) : Prop :=
  match v_histogram re with
  | Some h => matched32 (masked32 (noisy32 k im)) h out
  | None => out = masked32 (noisy32 k im)
  end.
End Finish.

Section Generate.
Variables (ex : f32 -> f32) (fused recip : bool) (g : source32) (sp : spec32) (re : rest32) (pb : Z * Z) (rx ry : f32).

(** [scan_body], data_generate.py:102-311, for [n] particles: a possible pair. *)
Definition pair32 (n : nat) (key_i : key) (d : f32) (f : flow32) (o : fimage * fimage) : Prop :=
  exists im1 im2,
    drawn32 ex (firsts32 fused g sp pb n key_i d) (fst pb) (snd pb) (v_max_diameter re) false im1 /\
    drawn32 ex (seconds32 fused recip g sp pb n rx ry key_i d f) (fst pb) (snd pb) (v_max_diameter re) false im2 /\
    finished32 fused g re (Child key_i 4) im1 (fst o) /\ finished32 fused g re (Child key_i 5) im2 (snd o).

(** [generate_images_from_flow], data_generate.py:19-340: a possible list of pairs. *)
Definition generated32 (k : key) (flows : list flow32) (outs : list (fimage * fimage)) : Prop :=
  let (k', density_key) := split2 k in
  exists n, num64 pb (snd (v_density re)) = Some n /\ List.length outs = v_batch re /\
  forall i o, nth_error outs i = Some o ->
    exists f, nth_error flows (i mod List.length flows) = Some f /\
      pair32 (Z.to_nat n) (Child k' i) (density32 fused (v_density re) (s_bits g density_key (v_batch re) i)) f o.
End Generate.
