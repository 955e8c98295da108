(** Property C109: an image pair shows one set of particles twice. *)
From Coq Require Import List Arith ZArith QArith Qround Qminmax Bool Lia Lqa.
From Verif Require Import Prelude Model.Interp Model.Apply Model.Render Model.Hist Model.DataGen Spec.InterpSpec Spec.RenderSpec Spec.PairSpec.
From Verif Require Import Proofs.InterpProofs Proofs.RenderProofs Proofs.DataGenProofs Proofs.PairProofs Properties.RenderProps.
Import ListNotations.
Local Open Scope Q_scope.

(** Every pair of a batch is the picture of one set of particles: as many as
    the reported density says, uniformly drawn positions and parameters in the
    reported ranges, moved by the flow of that pair, with their own changes of
    parameters, hidden and noisy independently in each image.  Every draw has
    its own key, fixed by the key of the batch and the number of the pair. *)
Theorem C109_one_scene : exists (kd : key -> key) (K : key -> nat -> pair_keys),
  (forall k n, NoDup (kd k :: flat_map (fun i => all_keys (K k i)) (seq 0 n))) /\
  forall ex sq g sp pb rx ry mask r maxd k flows i o f,
  respects ex -> lawful g -> valid_ranges sp -> window sp pb -> 0 <= sp_noise_uniform sp ->
  (0 < fst pb /\ 0 < snd pb)%Z -> largest (sp_diameters sp) maxd -> radius_of maxd r -> (2 * r + 1 <= fst pb)%Z -> (2 * r + 1 <= snd pb)%Z ->
  nth_error (generate ex sq g sp pb rx ry mask None k flows) i = Some o ->
  nth_error flows (i mod List.length flows) = Some f -> (0 < fH f)%Z -> (0 < fW f)%Z ->
  one_scene ex sq g sp pb rx ry r mask f (kd k) (K k i) i o.
Proof.
  exists (fun k => Child k 1), schedule. split; [exact schedule_nodup|]. exact scene_explains.
Qed.
Print Assumptions C109_one_scene.

(** A histogram is matched after all of this. *)
Theorem C109_histogram : forall ex sq g sp pb rx ry mask h k flows i o,
  nth_error (generate ex sq g sp pb rx ry mask (Some h) k flows) i = Some o ->
  exists o', nth_error (generate ex sq g sp pb rx ry mask None k flows) i = Some o' /\
    out1 o = match_histogram (out1 o') h /\ out2 o = match_histogram (out2 o') h /\
    out_density o = out_density o' /\ out_diameters o = out_diameters o' /\
    out_intensities o = out_intensities o' /\ out_rhos o = out_rhos o'.
Proof.
  intros ex sq g sp pb rx ry mask h k flows i o E. unfold generate in *. cbn [split2] in *. rewrite nth_error_map in *.
  destruct (nth_error (seq 0 (sp_batch sp)) i) as [j|]; [|discriminate E]. cbn [option_map] in *. injection E as <-.
  eexists. split; [reflexivity|]. repeat split.
Qed.
Print Assumptions C109_histogram.

(** Noise only adds to the noise-free pair of the same key, before clipping. *)
Theorem C109_noise : forall ex sq g sp pb rx ry k flows i o o',
  lawful g -> window sp pb -> 0 <= sp_noise_uniform sp ->
  nth_error (generate ex sq g sp pb rx ry None None k flows) i = Some o ->
  nth_error (generate ex sq g (noise_free sp) pb rx ry None None k flows) i = Some o' ->
  forall row col, exists s1 s2 u1 u2 z1 z2, 0 <= u1 < 1 /\ 0 <= u2 < 1 /\
    at_ (out1 o') row col == into (0, 255) s1 /\ at_ (out2 o') row col == into (0, 255) s2 /\
    at_ (out1 o) row col == into (0, 255) (s1 + sp_noise_uniform sp * u1 + (sp_noise_mean sp + sp_noise_std sp * z1)) /\
    at_ (out2 o) row col == into (0, 255) (s2 + sp_noise_uniform sp * u2 + (sp_noise_mean sp + sp_noise_std sp * z2)).
Proof.
  intros ex sq g sp pb rx ry k flows i o o' LAW WIN NU E E' row col. unfold generate in *. cbn [split2] in *. rewrite nth_error_map in *.
  change (sp_batch (noise_free sp)) with (sp_batch sp) in E'.
  destruct (nth_error (seq 0 (sp_batch sp)) i) as [j|]; [|discriminate E]. cbn [option_map] in *. injection E as <-. injection E' as <-.
  unfold scan_body. cbn [out1 out2]. set (c := Child (Child k 0) j). set (N := num_particles sp pb).
  set (d := density g sp (Child k 1) j).
  set (f := nth (j mod List.length flows) flows _).
  set (im1 := img_gen ex (map (first_particle sq g sp pb c d) (seq 0 N)) (fst pb) (snd pb) (max_snd (sp_diameters sp)) false).
  set (im2 := img_gen ex (map (second_particle sq g sp pb rx ry c d f) (seq 0 N)) (fst pb) (snd pb) (max_snd (sp_diameters sp)) false).
  change (img_gen ex (map (first_particle sq g (noise_free sp) pb c (density g (noise_free sp) (Child k 1) j)) (seq 0 (num_particles (noise_free sp) pb)))
            (fst pb) (snd pb) (max_snd (sp_diameters (noise_free sp))) false) with im1.
  change (img_gen ex (map (second_particle sq g (noise_free sp) pb rx ry c (density g (noise_free sp) (Child k 1) j) f) (seq 0 (num_particles (noise_free sp) pb)))
            (fst pb) (snd pb) (max_snd (sp_diameters (noise_free sp))) false) with im2.
  destruct (img_gen_size ex (map (first_particle sq g sp pb c d) (seq 0 N)) (fst pb) (snd pb) (max_snd (sp_diameters sp)) false) as [R1 C1]. fold im1 in R1, C1.
  destruct (img_gen_size ex (map (second_particle sq g sp pb rx ry c d f) (seq 0 N)) (fst pb) (snd pb) (max_snd (sp_diameters sp)) false) as [R2 C2]. fold im2 in R2, C2.
  unfold finish, equalized, masked.
  destruct (noise_at g sp pb LAW (Child c 4) im1 row col R1 C1 WIN NU) as (_ & _ & A1).
  destruct (noise_at g sp pb LAW (Child c 5) im2 row col R2 C2 WIN NU) as (_ & _ & A2).
  destruct (noise_at g (noise_free sp) pb LAW (Child c 4) im1 row col R1 C1 WIN (Qle_refl 0)) as (_ & _ & B1).
  destruct (noise_at g (noise_free sp) pb LAW (Child c 5) im2 row col R2 C2 WIN (Qle_refl 0)) as (_ & _ & B2).
  cbn [noise_free sp_noise_uniform sp_noise_mean sp_noise_std sp_image sp_offset] in B1, B2.
  eexists _, _, _, _, _, _. split; [|split; [|split; [|split; [|split; [exact A1 | exact A2]]]]].
  - apply (proj1 LAW).
  - apply (proj1 LAW).
  - rewrite B1. apply into_proper with (d := (0, 255)). ring.
  - rewrite B2. apply into_proper with (d := (0, 255)). ring.
Qed.
Print Assumptions C109_noise.

(** Without normal noise and with a mean that is not negative, noise brightens,
    by at most its range and mean. *)
Theorem C109_flat_noise : forall ex sq g sp pb rx ry k flows i o o',
  lawful g -> window sp pb -> 0 <= sp_noise_uniform sp -> sp_noise_std sp == 0 -> 0 <= sp_noise_mean sp ->
  nth_error (generate ex sq g sp pb rx ry None None k flows) i = Some o ->
  nth_error (generate ex sq g (noise_free sp) pb rx ry None None k flows) i = Some o' ->
  forall row col,
    at_ (out1 o') row col <= at_ (out1 o) row col <= at_ (out1 o') row col + sp_noise_uniform sp + sp_noise_mean sp /\
    at_ (out2 o') row col <= at_ (out2 o) row col <= at_ (out2 o') row col + sp_noise_uniform sp + sp_noise_mean sp.
Proof.
  intros ex sq g sp pb rx ry k flows i o o' LAW WIN NU SD MN E E' row col.
  destruct (C109_noise ex sq g sp pb rx ry k flows i o o' LAW WIN NU E E' row col) as (s1 & s2 & u1 & u2 & z1 & z2 & U1 & U2 & A1 & A2 & B1 & B2).
  assert (X : forall s u z, 0 <= u < 1 -> into (0, 255) s <= into (0, 255) (s + sp_noise_uniform sp * u + (sp_noise_mean sp + sp_noise_std sp * z))
      <= into (0, 255) s + sp_noise_uniform sp + sp_noise_mean sp).
  { intros s u z U. set (t := s + _ + _). assert (T : s <= t <= s + sp_noise_uniform sp + sp_noise_mean sp) by (unfold t; rewrite SD; split; nra).
    clearbody t. unfold into. cbn [fst snd].
    destruct (Q.min_spec 255 s) as [[? ->]|[? ->]]; destruct (Q.min_spec 255 t) as [[? ->]|[? ->]];
      repeat match goal with |- context [Qmax ?a ?b] => destruct (Q.max_spec a b) as [[? ->]|[? ->]] end; split; nra. }
  rewrite A1, A2, B1, B2. split; apply X; assumption.
Qed.
Print Assumptions C109_flat_noise.

Example C109_case : respects toy_ex /\ lawful toy_gen /\ valid_ranges toy_spec /\ window toy_spec (40, 40)%Z /\ 0 <= sp_noise_uniform toy_spec /\
  largest (sp_diameters toy_spec) 2 /\ radius_of 2 3 /\ (2 * 3 + 1 <= 40)%Z /\
  nth_error [zero_flow; drift] (1 mod 2) = Some drift /\
  exists o, nth_error (generate toy_ex (fun a => a) toy_gen toy_spec (40, 40)%Z 1 1 None None (Seed 5) [zero_flow; drift]) 1 = Some o /\
    particles_at (40, 40)%Z (out_density o) = 5%nat.
Proof.
  split; [exact (proj1 toy_exp_like)|]. split; [exact toy_lawful|]. split; [exact toy_valid|].
  split; [unfold window; cbn; lia|]. split; [cbn; lra|].
  split.
  { split; [exists (3 # 4, 2); split; [right; left; reflexivity | reflexivity]|]. intros d [<-|[<-|[]]]; cbn [snd]; lra. }
  split; [unfold radius_of; change (inject_Z 3) with 3; lra|]. split; [lia|]. split; [reflexivity|].
  eexists. split; [unfold generate; cbn [split2]; rewrite nth_error_map; cbn [seq sp_batch toy_spec nth_error option_map]; reflexivity|].
  vm_compute. reflexivity.
Qed.
