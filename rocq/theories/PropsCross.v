(** Loading a file as another class than the one that saved it: C87. Vocabulary: SpecPersist.v, SpecStream.v, SpecVGram.v, SpecString.v. *)
From Coq Require Import Ascii String.
From Verif Require Import Base Spec FloatOps FloatLaws FloatExample ModelTok ModelDict ModelCoder ModelStat ModelBuilder ModelStream ModelVGram ModelString ModelJson ModelPersist
  SpecTok TokProofs SpecStat SpecBuilder EnvExample StreamRuns VGramRuns StringRuns PersistRuns SaveRuns CrossRuns PropsStreamLemmas PropsVGramLemmas PropsPersistLemmas PropsPersist
  PropsCrossLemmas SpecJson SpecStream SpecVGram SpecString SpecPersist.
Local Open Scope string_scope.
Local Open Scope list_scope.

(** C87, any file, whoever wrote it: what loads as IntVGram or as a text stream loads as an integer stream, the same one; what loads as
    VGram is exactly what loads as both, and then the objects hold the same model: transform gives the pieces of parse, spaced. *)
Theorem C87_same_parts : forall fl (io : float_io (F fl)) file,
  (forall v, load_vgram fl io file = Ok v -> load_stream fl io file = Ok (vs v)) /\
  (forall t, load_tstream fl io file = Ok t -> load_stream fl io file = Ok (tst t)) /\
  ((exists v, load_tvgram fl io file = Ok v) <-> (exists v, load_vgram fl io file = Ok v) /\ (exists t, load_tstream fl io file = Ok t)) /\
  (forall v t, load_tvgram fl io file = Ok v -> load_tstream fl io file = Ok t ->
    load_vgram fl io file = Ok (tv v) /\ t_freqs fl t = tv_freqs fl v /\ t_alphabet fl t = tv_alphabet fl v /\
    forall w y outs v', tv_transform fl true w v [y] = Ok (outs, v') ->
      exists out pieces t', outs = [out] /\ t_parse fl true t y = Ok (pieces, t') /\ (~ In [] pieces -> out = join pieces)).
Proof. exact same_parts. Qed.
Print Assumptions C87_same_parts.

(** The file of an integer stream: it loads as an integer stream (C51), it is rejected as IntVGram and as VGram, and as a text stream it
    is read past the end of an object. *)
Theorem C87_stream_file : forall fl, flaws fl -> forall (io : float_io (F fl)) size N ops z al, shist fl (new_stream fl size) ops z -> normal fl N ops -> roomy fl size ops ->
  calm fl [] (new_stream fl size) ops -> s_alphabet fl z = Ok al -> length (s_freqs fl z) = length al ->
  int32 size -> Forall int32 (seen fl ops) -> Forall int32 (s_freqs fl z) -> minp_exact fl io z ->
  exists file z', save_stream fl io true z = Ok file /\ load_stream fl io file = Ok z' /\ same_stream fl z z' /\
    load_vgram fl io file = Throw JsonType /\ load_tvgram fl io file = Throw JsonType /\ ((exists s, In [s] al) -> load_tstream fl io file = UB EndDeref).
Proof. exact stream_matrix. Qed.
Print Assumptions C87_stream_file.

(** The file of a fitted IntVGram, with or without a tokenizer as second argument of save: the same. In particular it never loads as
    VGram, as the example save_learned_int_vgram_to_vgram wants. *)
Theorem C87_refuted_example : forall fl, flaws fl -> forall (io : float_io (F fl)) size N ops0 w v xs ops al, good_fit fl size N ops0 w v xs ops al -> int32 size -> Forall int32 (seen fl ops) ->
  exists v', fit fl w v xs = Ok (true, v') /\ (Forall int32 (s_freqs fl (vs v')) -> minp_exact fl io (vs v') ->
    exists file z', save_vgram fl io true v' = Ok file /\ load_stream fl io file = Ok z' /\ same_stream fl (vs v') z' /\
      load_vgram fl io file = Throw JsonType /\ load_tvgram fl io file = Throw JsonType /\ ((exists s, In [s] al) -> load_tstream fl io file = UB EndDeref)).
Proof. exact fit_matrix. Qed.
Print Assumptions C87_refuted_example.

(** The file of a text stream: it loads as an integer stream, and is rejected as IntVGram and as VGram. *)
Theorem C87_text_stream_file : forall fl, flaws fl -> forall (io : float_io (F fl)) size N iops (z : tstream fl) al file,
  shist fl (new_stream fl size) iops (tst z) -> normal fl N iops -> roomy fl size iops ->
  calm fl [] (new_stream fl size) iops -> s_alphabet fl (tst z) = Ok al -> length (t_freqs fl z) = length al ->
  int32 size -> Forall int32 (seen fl iops) -> Forall int32 (t_freqs fl z) -> minp_exact fl io (tst z) -> char_tok (ttok z) ->
  save_tstream fl io true z = Ok file ->
  (exists z', load_stream fl io file = Ok z' /\ same_stream fl (tst z) z') /\ load_vgram fl io file = Throw JsonType /\ load_tvgram fl io file = Throw JsonType.
Proof. exact text_matrix. Qed.
Print Assumptions C87_text_stream_file.

(** The file of a fitted VGram loads as each of the four classes, with the same model. *)
Theorem C87_model_file : forall fl, flaws fl -> forall (io : float_io (F fl)) size N iter w texts data tk ops al,
  tok_transform_all true (new_tok CharTok) texts = Ok (data, tk) ->
  good_fit fl size N [] w (new_vgram fl size iter) data ops al -> int32 size ->
  exists v, tv_fit fl true w (new_tvgram fl size iter) texts = Ok v /\
  forall v1, transformed fl v v1 -> Forall int32 (tv_freqs fl v1) -> minp_exact fl io (vs (tv v1)) ->
  exists file z' v' t', save_tvgram fl io true v1 = Ok file /\
    load_stream fl io file = Ok z' /\ same_stream fl (vs (tv v1)) z' /\
    load_vgram fl io file = Ok v' /\ vs v' = z' /\ vfitted v' = vfitted (tv v1) /\ vcomputed v' = vcomputed (tv v1) /\
    load_tstream fl io file = Ok t' /\ tst t' = z' /\ t_alphabet fl t' = tv_alphabet fl v1 /\
    (forall w' y, ascii_text y -> (Z.of_nat (length y) <= 2 ^ 40)%Z ->
      exists out pieces v2 t2, tv_transform fl true w' v1 [y] = Ok ([out], v2) /\ t_parse fl true t' y = Ok (pieces, t2) /\ spaced out pieces).
Proof. exact model_matrix. Qed.
Print Assumptions C87_model_file.

Example C87_case : exists io size N ops z al, shist exf (new_stream exf size) ops z /\ normal exf N ops /\ roomy exf size ops /\
  calm exf [] (new_stream exf size) ops /\ s_alphabet exf z = Ok al /\ length (s_freqs exf z) = length al /\
  int32 size /\ Forall int32 (seen exf ops) /\ Forall int32 (s_freqs exf z) /\ minp_exact exf io z /\ exists s, In [s] al.
Proof.
  destruct C51_case as (io & z & H1 & H2 & H3 & H4 & H5 & H6 & H7). exists io, 10%Z, 10%Z, kept_ops, z, [[1]; [2]]%Z.
  split; [exact H1|]. split; [exact H2|]. split; [exact H3|]. split; [exact H4|]. split; [exact H5|]. split; [now rewrite H6|].
  destruct H7 as (A & B & C & D). split; [exact A|]. split; [exact B|]. split; [exact C|]. split; [exact D|]. exists 1%Z. now left.
Qed.
Example C87_fit_case : exists io v file, fit exf (listed [0; 1]%Z 100) (new_vgram exf 10 1) [[1; 2; 1]; [2]]%Z = Ok (true, v) /\
  save_vgram exf io true v = Ok file /\ load_tvgram exf io file = Throw JsonType.
Proof.
  destruct (sight_ok _ _ _ _ _ run_plain) as (v & H1 & H2 & H3 & _). destruct (toy_exact (vs v)) as [io Hio].
  destruct (fit_matrix exf exl io _ _ _ _ _ _ _ _ plain_good) as (v' & Ev & Hv); [unfold int32; lia|repeat constructor; unfold int32; lia|].
  rewrite H1 in Ev. injection Ev as <-. destruct Hv as (file & z' & A & _ & _ & _ & B & _); [rewrite H3; repeat constructor; unfold int32; lia|exact Hio|].
  exists io, v, file. split; [exact H1|]. split; [exact A|exact B].
Qed.
Example C87_text_case : exists io iops z0 z file, new_tstream exf 10 false false = Ok z0 /\ thist exf z0 [tfeed (txt "ab"); TUpdate] z /\
  shist exf (new_stream exf 10) iops (tst z) /\ normal exf 10 iops /\ roomy exf 10 iops /\ calm exf [] (new_stream exf 10) iops /\
  s_alphabet exf (tst z) = Ok [[0]; [1]]%Z /\ t_freqs exf z = [1; 1]%Z /\ int32 10 /\ Forall int32 (seen exf iops) /\ minp_exact exf io (tst z) /\
  char_tok (ttok z) /\ save_tstream exf io true z = Ok file.
Proof.
  pose proof run_small as H. apply DictProofs.bind_ok in H as (z0 & H0 & H). apply DictProofs.bind_ok in H as (z & H1 & H). apply DictProofs.bind_ok in H as (file & H2 & H).
  injection H as Hm Hk Ha Hf. destruct small_ids as [tk Et]. injection H0 as <-.
  exists (toy minus1), [feed [0; 1]; SUpdate]%Z, (mkTStream (new_stream exf 10) (new_tok CharTok) false false), z, file. split; [reflexivity|].
  split; [exact (run_t_ok _ _ [] _ z (tt_nil _ _) H1)|]. split; [exact (fed_once _ _ _ _ _ H1 Et)|].
  assert (Hin : forall e s, In (SAccept e s) [feed [0; 1]; SUpdate]%Z -> e = exenv) by (intros e s [E|[E|[]]]; try discriminate E; now injection E).
  split; [split; [intros e s Hi; rewrite (Hin e s Hi); exact exenv_ok|]; split; [lia|]; split; [repeat constructor; cbn; lia|]; split; vm_compute; discriminate|].
  split; [split; [intros e s Hi; rewrite (Hin e s Hi); exact exenv_draws|]; split; [lia|vm_compute; discriminate]|].
  split; [apply calm_nil; intros s [E|[E|[]]]; discriminate E|]. split; [exact Ha|]. split; [exact Hf|]. split; [unfold int32; lia|]. split; [repeat constructor; unfold int32; lia|].
  split; [exact (minus1_exact _ Hm)|]. split; [exact (char_toks_ok _ Hk)|exact H2].
Qed.
Example C87_model_case : exists data tk ops al v io, tok_transform_all true (new_tok CharTok) pair_texts = Ok (data, tk) /\
  good_fit exf 10 10 [] (listed [0; 1]%Z 100) (new_vgram exf 10 1) data ops al /\ int32 10 /\
  tv_fit exf true (listed [0; 1]%Z 100) (new_tvgram exf 10 1) pair_texts = Ok v /\ Forall int32 (tv_freqs exf v) /\ minp_exact exf io (vs (tv v)).
Proof. exact C52_case. Qed.
