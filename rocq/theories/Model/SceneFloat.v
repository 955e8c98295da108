(** One batch of the synthetic sampler, on one device, in the arithmetic that
    runs: synthetic.py:356-360, 393-421 and 478-500. *)
From Coq Require Import List Arith ZArith QArith Bool.
From Flocq Require Import IEEE754.BinarySingleNaN.
From Verif Require Import Prelude Model.Interp Model.Geometry Model.DataGen Model.Render Model.InterpFloat Model.HistFloat Model.DrawFloat Model.MoveFloat Model.SampleFloat Model.FinishFloat Model.AdaptFloat.
Import ListNotations.

(** Adapter and generator get the same number of pairs, image shape, offset,
    resolutions, area and time step, synthetic.py:356-360 and 393-421; the
    generator uses the last as a single. *)
Definition spec_for (a : adapter64) (sp : spec32) : spec32 :=
  mkSpec32 (t_hide1 sp) (t_hide2 sp) (t_diameters sp) (t_diameter_std sp) (t_intensities sp) (t_intensity_std sp) (t_rhos sp) (t_rho_std sp)
    (to_f32 (b_dt a)).
Definition rest_for (a : adapter64) (re : rest32) : rest32 :=
  mkRest32 (b_batch a) (b_image a) (b_off a) (v_density re) (v_max_diameter re) (v_uniform re) (v_mean re) (v_std re) (v_mask re) (v_histogram re).

(** The flows [fs] of a device go through the adapter, and what it returns for
    the particles goes into the generator, synthetic.py:480-500: [pairs] are
    possible images and [reps] the flows reported with them. *)
Definition scene32 (ex : f32 -> f32) (w : ways) (fused recip : bool) (g : source32) (sp : spec32) (re : rest32) (a : adapter64)
    (k : key) (fs : list flow32) (pairs : list (fimage * fimage)) (reps : list flow32) : Prop :=
  exists crops, adapter32 w a fs = Ok (reps, crops) /\
    generated32 ex fused recip g (spec_for a sp) (rest_for a re) (b_pb a) (to_f32 (b_rx a)) (to_f32 (b_ry a)) k crops pairs.
