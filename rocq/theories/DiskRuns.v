(** Objects for the examples of C97. *)
From Coq Require Import Ascii String.
From Verif Require Import Base FloatOps FloatLaws FloatIEEE FloatExample ModelDict ModelCoder ModelTok Maps ModelStat ModelBuilder ModelStream ModelVGram ModelString ModelJson ModelPersist ModelSave ModelDisk
  EnvExample StreamRuns StringRuns PersistRuns CoderProofs DictProofs StreamProofs PersistProofs PropsStreamLemmas PropsPersistLemmas PropsPersist SaveRuns DiskProofs
  SpecTok SpecJson SpecStat SpecBuilder SpecStream SpecVGram SpecString SpecPersist SpecSave SpecDisk.
Local Open Scope list_scope.

Lemma good_object : exists io z file, valid exf io (BStream z) /\ obj_save exf io (BStream z) = Ok file.
Proof.
  destruct C51_case as (io & z & H & Hn & Hr & Hc & Ha & Hf & Hs & Hsy & Hi & Hio).
  destruct (fresh_tidy exf exl _ _ _ _ _ H Hn Hr Hc Ha) as (p & d & x & T & Ea).
  destruct (fresh_saved exf exl io _ _ _ _ _ H Hn Hr Hc Ha) as (file & _ & Hsv); try assumption; [now rewrite Hf|].
  exists io, z, file. split; [|exact Hsv]. split; [|intros y Hy; right; now apply Hio]. apply (tidy_int exf _ z p d x T).
  - rewrite (size_kept _ _ _ _ H). exact Hs.
  - exact Hi.
  - apply Forall_forall. intros y Hy. apply (proj1 (adds_in _ _ _)) in Hy as [[]|Hy]. exact (proj1 (Forall_forall _ _) Hsy y Hy).
  - rewrite adds_length. destruct Hr as (_ & _ & Hr). unfold distinct in Hr. fold (seen exf kept_ops) in Hr. unfold int32 in Hs. lia.
Qed.
Lemma bad_object : exists io z, valid exf io (BText z) /\ obj_save exf io (BText z) = Throw JsonType.
Proof.
  pose proof run_latin as H. apply bind_ok in H as (z0 & H0 & H). apply bind_ok in H as (z & H1 & H). apply bind_ok in H as (file & H2 & H). apply bind_ok in H as (z' & H3 & H).
  apply bind_ok in H as (z1 & H4 & H). apply bind_ok in H as ([t e] & H5 & H). injection H as Hm Hi Hc -> _ Ha _.
  exists (toy minus1), z1. split.
  - split; [exact (ints_ok _ Hi)|]. split; [intros x Ex; right; exact (minus1_exact _ Hm x Ex)|]. split; [exact (char_toks_ok _ Hc)|]. eexists. exact Ha.
  - destruct (SaveProofs.tstream_agrees exf (toy minus1) file z1) as (_ & A & _). apply A. now exists t.
Qed.
(** A save that returns is one step, whatever becomes of it. *)
Lemma one_save fl (io : float_io (F fl)) o file : valid fl io o -> obj_save fl io o = Ok file -> forall f d p, exists d', disk_save fl io f d p o = Ok (d', None).
Proof.
  intros Hv Hs f d p. rewrite obj_save_any in Hs. destruct (EmitProofs.effect_agrees fl io true (o_tok fl o) (o_ex fl o) [] (o_stream fl o)) as (A & _ & _). apply A in Hs.
  pose proof (obj_effect_any fl io [] o) as E. rewrite Hs in E. unfold disk_save. destruct (obj_info fl o) as [m|k|x|]; cbn [save_effect] in E; try discriminate E.
  injection E as E. rewrite E. eexists. reflexivity.
Qed.
