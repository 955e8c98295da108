(** C47 again: which input flow each adapted flow comes from. *)
From Coq Require Import List Arith ZArith QArith Bool Lia.
From Verif Require Import Prelude Model.Interp Model.Apply Spec.InterpSpec Spec.WarpSpec.
From Verif Require Import Proofs.InterpProofs Proofs.WarpProofs Proofs.AdapterProofs.
From Verif Require Import Properties.InterpProps.
Import ListNotations.
Local Open Scope nat_scope.

(** The same settings with another batch size. *)
Definition of_size (n : nat) (a : adapter_args) : adapter_args :=
  mkAdapter (ad_new a) (ad_image a) (ad_off a) (ad_res a) (ad_rx a) (ad_ry a) (ad_pb a) (ad_pbo a) n
    (ad_pixels a) (ad_dt a) (ad_pad a).

(** Adapting a batch is adapting its flows one by one: reported flow [j] is the
    one that flow [j mod n] gives alone, particle flow [i] the one that flow
    [i] gives alone. *)
Theorem C47_each : forall a fs, fs <> [] ->
  exists reported moving : flow -> flow,
    (forall f, flow_field_adapter (of_size 1 a) [f] = ([reported f], [moving f])) /\
    (forall j f, j < ad_batch a -> nth_error fs (j mod List.length fs) = Some f ->
       nth_error (fst (flow_field_adapter a fs)) j = Some (reported f)) /\
    (forall i f, nth_error fs i = Some f -> nth_error (snd (flow_field_adapter a fs)) i = Some (moving f)).
Proof.
  intros a fs NE. exists (fun f => fst (process_single a f)), (fun f => snd (process_single a f)).
  split; [intros f; destruct a; reflexivity|]. split.
  - intros j f Hj E. rewrite adapter_nth by assumption. rewrite E. reflexivity.
  - intros i f E. rewrite adapter_nth_par, E. reflexivity.
Qed.
Print Assumptions C47_each.

(** Two flows, five reported ones: the fourth comes from the second flow. *)
Example exAu_case :
  let a := mkAdapter (4, 4)%Z (4, 4)%Z (0, 0)%Z 1%Q 1%Q 1%Q (4, 4)%Z (0, 0)%Q 5 false 1%Q (0, 0)%Z in
  let other := mkFlow 4 4 (fun r c => inject_Z (r - 3 * c)) (fun r c => inject_Z c) in
  match nth_error (fst (flow_field_adapter a [toy_flow; other])) 3 with
  | Some g => Qeq_bool (fu g 1%Z 2%Z) (inject_Z (-5)) && negb (Qeq_bool (fu g 1%Z 2%Z) (fu toy_flow 1%Z 2%Z))
  | None => false
  end = true.
Proof. vm_compute. reflexivity. Qed.
