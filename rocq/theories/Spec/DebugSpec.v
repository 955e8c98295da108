(** Vocabulary for debug mode. *)
From Coq Require Import List Arith ZArith QArith.
From Verif Require Import Prelude Model.Interp Model.DataGen Model.Sampler Model.Synthetic.
Import ListNotations.
Local Open Scope nat_scope.

(** At least one velocity is reported in each direction. *)
Definition reports_something (a : syn_args) : Prop :=
  (1 <= inject_Z (fst (sp_image (a_spec a))) * a_vpp a)%Q /\ (1 <= inject_Z (snd (sp_image (a_spec a))) * a_vpp a)%Q.

(** A velocity field has rows, columns and two components. *)
Definition two_components (dims : list nat) : Prop := exists h w, dims = [h; w; 2].

(** Image and offset stay within 512 x 512 pixels. *)
Definition within_512 (image off : Z * Z) : Prop :=
  (fst image + fst off <= 512 /\ snd image + snd off <= 512)%Z.

(** The same sampler on one device, with the batch size of one device. *)
Definition on_one {si oflow bflow img} (c : scfg si oflow bflow img) : scfg si oflow bflow img :=
  mkScfg si oflow bflow img 1 (sc_B c / sc_nd c) (sc_F c) (sc_bpf c) (sc_seed c) (sc_adapt c) (sc_bounds c) (sc_render c).

(** The answer with [done] repeated [n] times. *)
Definition done_for {oflow img} (n : nat) (r : sobs (oflow := oflow) (img := img)) : sobs :=
  match r with
  | SBatch b => SBatch (mkBatch (ba_images b) (ba_flows b)
      (match ba_done b with Some (x :: _) => Some (repeat x n) | d => d end) (ba_mask b) (ba_files b))
  | r => r
  end.
