(** Property C89: converting record files. *)
From Coq Require Import List Arith ZArith String Bool Lia.
From Verif Require Import Prelude Model.Scripts Model.Records Spec.ScriptsSpec Spec.RecordsSpec Proofs.RecordsProofs.
Import ListNotations.
Local Open Scope string_scope.
Local Open Scope nat_scope.

(** ** C89 *)

(** A record is read iff both features have the right size; its sample is then
    determined. *)
Theorem C89_decoding : forall n r s, 0 < n -> decode n r = Some s <-> holds n r s.
Proof. exact decode_holds. Qed.
Print Assumptions C89_decoding.

(** One record file: the i-th sample ends up in the i-th file, nothing else is
    written. *)
Theorem C89_one_file : forall n rs ss, 0 < n -> samples n rs ss ->
  forall w s, found (process n 0 rs) w s <-> exists i, w = sample_file i /\ nth_error ss i = Some s.
Proof.
  intros n rs ss P S1 w s. rewrite (process_numbered n rs 0 ss P S1), found_in by apply numbered_nodup. apply numbered_in.
Qed.
Print Assumptions C89_one_file.

(** The names of two samples of a record file differ. *)
Theorem C89_names : forall i j, sample_file i = sample_file j -> i = j.
Proof. exact sample_file_inj. Qed.
Print Assumptions C89_names.

(** All record files: the i-th file of a directory holds the i-th sample of the
    last record file belonging there which has more than i. *)
Theorem C89_directories : forall n d w s tfrs, 0 < n ->
  found (process_all n tfrs) (d, w) s <->
  exists before name rs after ss i, tfrs = (before ++ (name, rs) :: after)%list /\
    belongs name d /\ samples n rs ss /\ w = sample_file i /\ nth_error ss i = Some s /\
    forall name' rs' ss', In (name', rs') after -> belongs name' d -> samples n rs' ss' -> List.length ss' <= i.
Proof. exact directory_content. Qed.
Print Assumptions C89_directories.

(** Nothing is lost while each directory gets its samples from one record
    file. *)
Theorem C89_complete : forall n tfrs, 0 < n ->
  (forall b x a y c, tfrs = (b ++ x :: a ++ y :: c)%list -> forall d, belongs (fst x) d -> ~ belongs (fst y) d) ->
  forall name rs ss d i s, In (name, rs) tfrs -> belongs name d -> samples n rs ss -> nth_error ss i = Some s ->
  found (process_all n tfrs) (d, sample_file i) s.
Proof.
  intros n tfrs P One name rs ss d i s I B S1 E. apply directory_content; [assumption|].
  apply in_split in I as (b & a & ->). exists b, name, rs, a, ss, i.
  repeat (split; [first [reflexivity|assumption]|]). intros name' rs' ss' I' B' _.
  apply in_split in I' as (a1 & c & ->). exfalso. exact (One b (name, rs) a1 (name', rs') c eq_refl d B B').
Qed.
Print Assumptions C89_complete.

Definition exR_record (a b : Z) : tfrecord := Record_ [a; 0; 0; 0; b; 0; 0; 0]%Z [1; 0; 0; 0; 2; 0; 0; 0]%Z.
Definition exR_sample (a b : Z) : sample :=
  mkSample [(1, 0, 0, 0); (2, 0, 0, 0)]%Z [(a, 0, 0, 0)%Z] [(b, 0, 0, 0)%Z].

Lemma exR_holds : forall a b, holds 2 (exR_record a b) (exR_sample a b).
Proof. intros a b. apply decode_holds; [lia|reflexivity]. Qed.

(** Numbering starts again with each record file, so of two training files the
    second overwrites samples of the first. *)
Theorem C89_second_file_refuted : exists n name1 name2 rs1 rs2 r s,
  0 < n /\ name1 <> name2 /\ belongs name1 "train" /\ belongs name2 "train" /\
  In r rs1 /\ holds n r s /\ forall k, ~ found (process_all n [(name1, rs1); (name2, rs2)]) k s.
Proof.
  exists 2, "Training_RAFT256.tfrecord-00000-of-00002", "Training_RAFT256.tfrecord-00001-of-00002",
    [exR_record 5 6], [exR_record 7 8], (exR_record 5 6), (exR_sample 5 6).
  split; [lia|]. split; [discriminate|]. split; [apply subdir_belongs; reflexivity|].
  split; [apply subdir_belongs; reflexivity|]. split; [now left|]. split; [apply exR_holds|].
  intros k (b & a & E & N).
  assert (W : process_all 2 [("Training_RAFT256.tfrecord-00000-of-00002", [exR_record 5 6]);
                ("Training_RAFT256.tfrecord-00001-of-00002", [exR_record 7 8])] =
              [(("train", "sample_00000.mat"), exR_sample 5 6); (("train", "sample_00000.mat"), exR_sample 7 8)])
    by (vm_compute; reflexivity).
  rewrite W in E. destruct b as [|x [|y b]].
  - injection E as <- <-. apply N. now left.
  - injection E as _ _ H _. discriminate.
  - destruct b; discriminate.
Qed.
Print Assumptions C89_second_file_refuted.

(** A training file with an unreadable record, and a validation file: the
    hypotheses of [C89_complete] hold and all three samples are found. *)
Definition exR_files : list (string * list tfrecord) :=
  [("Training_Dataset_RAFT256.tfrecord", [exR_record 5 6; BadRecord; exR_record 7 8]);
   ("readme.tfrecord.txt", [exR_record 0 0]);
   ("Validation_Dataset_RAFT256.tfrecord", [Record_ [] []; exR_record 9 10])].
Example C89_ex : process_all 2 exR_files =
  [(("train", "sample_00000.mat"), exR_sample 5 6); (("train", "sample_00001.mat"), exR_sample 7 8);
   (("val", "sample_00000.mat"), exR_sample 9 10)].
Proof. vm_compute. reflexivity. Qed.
Example C89_ex_one : forall b x a y c, exR_files = (b ++ x :: a ++ y :: c)%list ->
  forall d, belongs (fst x) d -> ~ belongs (fst y) d.
Proof.
  intros b x a y c E d B B'. apply subdir_belongs in B. apply subdir_belongs in B'. unfold exR_files in E.
  destruct b as [|b0 [|b1 [|b2 b]]].
  - injection E as <- E. vm_compute in B. injection B as <-. destruct a as [|a0 [|a1 a]].
    + injection E as <- _. vm_compute in B'. discriminate.
    + injection E as _ <- _. vm_compute in B'. discriminate.
    + destruct a; discriminate.
  - injection E as _ <- E. vm_compute in B. discriminate.
  - injection E as _ _ _ E. destruct a; discriminate.
  - destruct b; discriminate.
Qed.
Example C89_ex_names : sample_file 12345 = "sample_12345.mat" /\ sample_file 123456 = "sample_123456.mat" /\ sample_file 42 = "sample_00042.mat".
Proof. now vm_compute. Qed.
