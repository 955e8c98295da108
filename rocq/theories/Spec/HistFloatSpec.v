(** Vocabulary for histogram matching with floats. *)
From Coq Require Import List ZArith QArith.
From Verif Require Import Prelude Model.Interp Model.Geometry Model.InterpFloat Spec.InterpFloatSpec.
Import ListNotations.
Local Open Scope Z_scope.

(** Pixels of an image of floats. *)
Definition fpixel (im : fimage) (r c : Z) : Prop := 0 <= r < g_rows im /\ 0 <= c < g_cols im.

(** An image with intensities from 0 to 255, of [n] pixels. *)
Definition intensities (n : Z) (im : fimage) : Prop :=
  1 <= g_rows im /\ 1 <= g_cols im /\ g_rows im * g_cols im = n /\
  forall r c, fpixel im r c -> finite (g_at im r c) /\ (0 <= value (g_at im r c) <= 255)%Q.

(** A float that is a count. *)
Definition is_count (x : f32) (z : Z) : Prop := finite x /\ 0 <= z /\ (value x == inject_Z z)%Q.

(** A histogram of counts adding up to [n]. *)
Definition counts_of (n : Z) (h : list f32) : Prop :=
  List.length h = 256%nat /\ exists zs, Forall2 is_count h zs /\ fold_right Z.add 0 zs = n.
