(** The flow in a .mat file with raw data, for C87. *)
From Coq Require Import List Arith QArith String.
From Verif Require Import Prelude Model.Base Model.Loaders Spec.LoaderSpec.
Import ListNotations.
Local Open Scope string_scope.
Local Open Scope nat_scope.

(** The names under which the flow may be stored, the preferred ones first. *)
Definition flow_names : list string := ["V"; "flow"; "u"; "uv"; "F"].

(** There is no flow under [k]: nothing, or an array without the two components
    on its last or its first axis. *)
Definition no_flow (d : mat_dict) (k : string) : Prop :=
  lookup k d = None \/
  exists x, lookup k d = Some (MArr x) /\ forall p q, shape x <> [p; q; 2] /\ shape x <> [2; p; q].

(** [a] is the flow stored under [k], with the components last; an array of two
    rows and two components is taken to have them last. *)
Definition flow_at (d : mat_dict) (k : string) (a : arr) : Prop :=
  exists x, lookup k d = Some (MArr x) /\
    ((exists h w, shape x = [h; w; 2]) /\ a = x \/
     exists h w, shape x = [2; h; w] /\ w <> 2 /\ shape a = [h; w; 2] /\ wf_arr a /\
       forall i j c, i < h -> j < w -> c < 2 -> elt a [i; j; c] = elt x [c; i; j]).
