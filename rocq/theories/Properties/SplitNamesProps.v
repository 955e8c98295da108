(** Property C85, continued: where copies go, and the lines that name a file
    without a marker. *)
From Coq Require Import List Arith ZArith String Bool Ascii.
From Verif Require Import Prelude Model.Base Model.Scripts Spec.ScriptsSpec Spec.SplitNamesSpec.
From Verif Require Import Proofs.ScriptsText Proofs.ScriptsSplit Proofs.SplitNamesProofs.
Import ListNotations.
Local Open Scope string_scope.
Local Open Scope nat_scope.

(** A copy goes to the directory of its split, below it to the directory the
    file had, and below that to Re<number> if the name has _Re<number>_ in it
    (the first one, if there are several). *)
Theorem C85_where : forall sf files copies, perform_split sf files = Ok copies ->
  forall f t, In (f, t) copies ->
  exists s, In s ["train"; "val"; "test"; "tune"] /\
    (forall g, reynolds (snd f) g -> t = (s :: fst f ++ [g; snd f])%list) /\
    ((forall p ds q, ~ reynolds_at (snd f) p ds q) -> t = (s :: fst f ++ [snd f])%list).
Proof.
  intros sf files copies H f t I. apply (split_copies _ _ _ H) in I. destruct I as (_ & s & text & line & S & _ & _ & ->).
  exists s. split; [cbn [In] in *; destruct S as [S|[S|[S|[S|[]]]]]; inversion S; auto|]. unfold target. split.
  - intros g R. apply search_re_spec in R. now rewrite R.
  - intros N. destruct (search_re (snd f)) as [g|] eqn:E; [|reflexivity]. apply search_re_spec in E.
    destruct E as (p & ds & q & R & _). exfalso. exact (N _ _ _ R).
Qed.
Print Assumptions C85_where.

(** A line that names a file without any of the three markers stands for the
    name without its extension. *)
Theorem C85_other_lines : forall d n x r, directory d -> word d -> word n -> ~ mem "/" n -> sample_name n -> n <> "" -> n <> "." ->
  columns r -> stem_of n x -> canonical (d ++ n ++ r) = x ++ ".mat".
Proof. exact canonical_plain. Qed.
Print Assumptions C85_other_lines.

(** Every name is with or without an extension, and the stem is unique. *)
Theorem C85_stems : forall n, n <> "" -> exists x, stem_of n x /\ forall x', stem_of n x' -> x' = x.
Proof.
  intros n N. destruct (stem_total n) as [x S]. exists x. split; [exact S|]. intros x' S'.
  rewrite <- (name_stem_of _ _ N S). symmetry. now apply name_stem_of.
Qed.
Print Assumptions C85_stems.

Example exS_reynolds : reynolds "back_Re_Re100_Re20_x.mat" "Re100" /\
  (forall p ds q, ~ reynolds_at "back_Re_x.mat" p ds q) /\
  stem_of "a.b.mat" "a.b" /\ stem_of ".mat" ".mat" /\ stem_of "a." "a." /\ stem_of "a" "a" /\
  canonical "d/a.b.mat c" = "a.b.mat" /\ canonical "d/.mat" = ".mat.mat".
Proof.
  split; [apply search_re_spec; vm_compute; reflexivity|]. split.
  { intros p ds q R. apply search_re_some in R. apply R. vm_compute. reflexivity. }
  repeat split; try (vm_compute; reflexivity).
  - left. exists "mat". repeat split; try discriminate. cbn. intuition discriminate.
  - right. split; [reflexivity|]. right. left. exists "mat". split; [reflexivity|]. cbn. intuition discriminate.
  - right. split; [reflexivity|]. right. right. now exists "a".
  - right. split; [reflexivity|]. left. cbn. intuition discriminate.
Qed.
