(** What the consumer of a real-image sampler relies on. *)
From Coq Require Import List Arith ZArith String Bool QArith.
From Verif Require Import Prelude Model.Base Model.Sampler Model.Make Spec.BaseSpec Spec.PipelineSpec.
Import ListNotations.
Local Open Scope nat_scope.

(** The file scheduler inside the wrappers was told to load images. *)
Inductive loads_images : scheduler -> Prop :=
| li_file : forall a c s, fa_images a = true -> loads_images (SFile a c s)
| li_episodic : forall a ec s, fa_images a = true -> loads_images (SEpisodic a ec s)
| li_prefetch : forall B N sch, loads_images sch -> loads_images (SPrefetch B N sch).

(** Step [t] of an episode with real images: entry [i] is file [t] of window [i],
    with its flow field, its two images and its name. *)
Definition shows_real_step (B : nat) (C : string -> content) (files : string -> list string) (ws : list (string * nat))
    (t : nat) (b : batch arr (arr * arr)) : Prop :=
  List.length (ba_images b) = B /\ List.length (ba_flows b) = B /\
  forall i, i < B ->
    exists d s p x a0 a1, nth_error ws i = Some (d, s) /\ nth_error (files d) (s + t) = Some p /\ C p = Slices [x] /\
      labelled (ba_mask b) (ba_files b) i (Some x) /\
      nth_error (ba_flows b) i = Some (sd_flow x) /\
      sd_im1 x = Some a0 /\ sd_im2 x = Some a1 /\ nth_error (ba_images b) i = Some (a0, a1).

(** Every slice has its two images. *)
Definition pictured (C : string -> content) : Prop :=
  forall p l x, C p = Slices l -> In x l -> sd_im1 x <> None /\ sd_im2 x <> None.
