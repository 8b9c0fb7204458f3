(** Saving and loading: C42, C51-C54, C59, C62 and the save part of C40. Vocabulary: SpecPersist.v, SpecJson.v, SpecStream.v, SpecVGram.v,
    SpecString.v. [io] prints and reads numbers. The flag of the save functions stands for iterators into two copies of a map (saver.h:63);
    [true] is what libstdc++ does, see ModelPersist.v. *)
From Coq Require Import Ascii String.
From Verif Require Import Base Spec FloatOps FloatLaws FloatIEEE FloatExample ModelTok ModelDict ModelCoder ModelStat ModelBuilder ModelStream ModelVGram ModelString ModelJson ModelPersist
  SpecTok TokProofs SpecStat SpecBuilder EnvExample StreamRuns VGramRuns StringRuns PersistRuns PropsStreamLemmas PropsVGramLemmas PropsPersistLemmas TextPersist SpecJson SpecStream SpecVGram SpecString SpecPersist.
Local Open Scope string_scope.
Local Open Scope list_scope.

(** C40, save: before the first update. *)
Theorem C40_save : forall fl (io : float_io (F fl)) size ops z, shist fl (new_stream fl size) ops z -> ~ In SUpdate ops ->
  save_stream fl io true z = UB NullDeref.
Proof. exact save_before. Qed.
Print Assumptions C40_save.
Example C40_save_case : exists z, shist exf (new_stream exf 10) [] z /\ ~ In SUpdate ([] : list (sop exf)).
Proof. exists (new_stream exf 10). split; [constructor|easy]. Qed.

(** C42: after an update, save writes a file if the frequency table is as long as the alphabet, and reads past its end otherwise. *)
Theorem C42_exact : forall fl, flaws fl -> forall (io : float_io (F fl)) size N ops z, shist fl (new_stream fl size) ops z -> normal fl N ops -> In SUpdate ops ->
  exists al, s_alphabet fl z = Ok al /\
    (length al <= length (s_freqs fl z) -> exists file, save_stream fl io true z = Ok file) /\
    (length (s_freqs fl z) < length al -> save_stream fl io true z = UB OobRead).
Proof. exact save_exact. Qed.
Print Assumptions C42_exact.

(** Right after the first update it is long enough. *)
Theorem C42_first_update : forall fl, flaws fl -> forall (io : float_io (F fl)) size N ops z z', shist fl (new_stream fl size) ops z ->
  normal fl N (ops ++ [SUpdate]) -> roomy fl size ops -> ~ In SUpdate ops -> s_update fl z = Ok z' -> exists file, save_stream fl io true z' = Ok file.
Proof. exact save_first. Qed.
Print Assumptions C42_first_update.

(** Not always: a new symbol after the update. *)
Definition unsaved : list (sop exf) := [feed [1]; SUpdate; feed [2]]%Z.
Definition kept_ops : list (sop exf) := [feed [1; 2]; SUpdate]%Z.
Lemma unsaved_normal : normal exf 10 unsaved /\ roomy exf 10 unsaved.
Proof.
  assert (Hin : forall e s, In (SAccept e s) unsaved -> e = exenv) by (intros e s [E|[E|[E|[]]]]; try discriminate E; now injection E).
  split.
  - split; [intros e s Hi; rewrite (Hin e s Hi); exact exenv_ok|]. split; [lia|]. split; [repeat constructor; cbn; lia|]. split; vm_compute; discriminate.
  - split; [intros e s Hi; rewrite (Hin e s Hi); exact exenv_draws|]. split; [lia|vm_compute; discriminate].
Qed.
Lemma kept_normal : normal exf 10 kept_ops /\ roomy exf 10 kept_ops.
Proof.
  assert (Hin : forall e s, In (SAccept e s) kept_ops -> e = exenv) by (intros e s [E|[E|[]]]; try discriminate E; now injection E).
  split.
  - split; [intros e s Hi; rewrite (Hin e s Hi); exact exenv_ok|]. split; [lia|]. split; [repeat constructor; cbn; lia|]. split; vm_compute; discriminate.
  - split; [intros e s Hi; rewrite (Hin e s Hi); exact exenv_draws|]. split; [lia|vm_compute; discriminate].
Qed.
Theorem C42_refuted : exists ops z, shist exf (new_stream exf 10) ops z /\ normal exf 10 ops /\ roomy exf 10 ops /\ In SUpdate ops /\
  forall io, save_stream exf io true z = UB OobRead.
Proof.
  destruct (look_ok _ _ _ _ run_unsaved) as (z & H & Ha & Hf). exists unsaved, z. split; [exact H|]. destruct unsaved_normal as [Hn Hr]. split; [exact Hn|]. split; [exact Hr|].
  split; [right; now left|]. intro io. destruct (save_exact exf exl io 10 10 unsaved z H Hn) as (al & Hal & _ & Hs); [right; now left|]. apply Hs. rewrite Ha in Hal.
  injection Hal as <-. rewrite Hf. cbn. lia.
Qed.
Print Assumptions C42_refuted.
Example C42_case : exists z file io, shist exf (new_stream exf 10) kept_ops z /\ normal exf 10 kept_ops /\ In SUpdate kept_ops /\ save_stream exf io true z = Ok file.
Proof.
  destruct (look_ok _ _ _ _ run_saved) as (z & H & Ha & Hf). destruct kept_normal as [Hn Hr].
  destruct (save_exact exf exl (toy minus1) 10 10 kept_ops z H Hn) as (al & Hal & Hs & _); [right; now left|]. rewrite Ha in Hal. injection Hal as <-. rewrite Hf in Hs.
  destruct Hs as (file & Hs); [cbn; lia|]. exists z, file, (toy minus1). split; [exact H|]. split; [exact Hn|]. split; [right; now left|exact Hs].
Qed.

(** C51: a stream with a complete frequency table is saved, and loading the file gives a stream of the same size, minimum probability,
    symbol codes, alphabet and frequencies that answers every series of parse calls in the same way. *)
Theorem C51_roundtrip : forall fl, flaws fl -> forall (io : float_io (F fl)) size N ops z al, shist fl (new_stream fl size) ops z -> normal fl N ops -> roomy fl size ops ->
  calm fl [] (new_stream fl size) ops -> s_alphabet fl z = Ok al -> length (s_freqs fl z) = length al ->
  int32 size -> Forall int32 (seen fl ops) -> Forall int32 (s_freqs fl z) -> minp_exact fl io z ->
  exists file z', save_stream fl io true z = Ok file /\ load_stream fl io file = Ok z' /\ same_stream fl z z'.
Proof. exact fresh_back. Qed.
Print Assumptions C51_roundtrip.
Theorem C51_double : forall lg, log_ok lg -> forall (io : float_io (F (ieee lg))) size N ops z al, shist (ieee lg) (new_stream (ieee lg) size) ops z ->
  normal (ieee lg) N ops -> roomy (ieee lg) size ops -> calm (ieee lg) [] (new_stream (ieee lg) size) ops -> s_alphabet (ieee lg) z = Ok al ->
  length (s_freqs (ieee lg) z) = length al ->
  int32 size -> Forall int32 (seen (ieee lg) ops) -> Forall int32 (s_freqs (ieee lg) z) -> minp_exact (ieee lg) io z ->
  exists file z', save_stream (ieee lg) io true z = Ok file /\ load_stream (ieee lg) io file = Ok z' /\ same_stream (ieee lg) z z'.
Proof. exact (fun lg H => fresh_back (ieee lg) (ieee_laws lg H)). Qed.
Print Assumptions C51_double.
Example C51_case : exists io z, shist exf (new_stream exf 10) kept_ops z /\ normal exf 10 kept_ops /\ roomy exf 10 kept_ops /\
  calm exf [] (new_stream exf 10) kept_ops /\ s_alphabet exf z = Ok [[1]; [2]]%Z /\ s_freqs exf z = [1; 1]%Z /\ int32 10 /\
  Forall int32 (seen exf kept_ops) /\ Forall int32 (s_freqs exf z) /\ minp_exact exf io z.
Proof.
  destruct (look_ok _ _ _ _ run_saved) as (z & H & Ha & Hf). destruct kept_normal as [Hn Hr]. destruct (toy_exact z) as [io Hio]. exists io, z.
  split; [exact H|]. split; [exact Hn|]. split; [exact Hr|]. split; [apply calm_nil; intros s [E|[E|[]]]; discriminate E|]. split; [exact Ha|]. split; [exact Hf|].
  split; [unfold int32; lia|]. split; [repeat constructor; unfold int32; lia|]. split; [rewrite Hf; repeat constructor; unfold int32; lia|exact Hio].
Qed.

(** C52: a fitted text model, also after further transforms, is saved, and loading the file gives a model with the same alphabet texts,
    frequencies and flags, and the same transform results on all ASCII texts, also after further transforms of either model. *)
Theorem C52_roundtrip : forall fl, flaws fl -> forall (io : float_io (F fl)) size N iter w texts data tk ops al,
  tok_transform_all true (new_tok CharTok) texts = Ok (data, tk) ->
  good_fit fl size N [] w (new_vgram fl size iter) data ops al -> int32 size ->
  exists v, tv_fit fl true w (new_tvgram fl size iter) texts = Ok v /\
  forall v1, transformed fl v v1 -> Forall int32 (tv_freqs fl v1) -> minp_exact fl io (vs (tv v1)) ->
  exists file v1', save_tvgram fl io true v1 = Ok file /\ load_tvgram fl io file = Ok v1' /\
    tv_freqs fl v1' = tv_freqs fl v1 /\ vfitted (tv v1') = vfitted (tv v1) /\ vcomputed (tv v1') = vcomputed (tv v1) /\
    forall v2 v2', transformed fl v1 v2 -> transformed fl v1' v2' ->
      (exists words, tv_alphabet fl v2 = Ok words /\ tv_alphabet fl v2' = Ok words) /\
      forall w' ys, (forall y, In y ys -> ascii_text y /\ (Z.of_nat (length y) <= 2 ^ 40)%Z) ->
        exists outs v3 v3', tv_transform fl true w' v2 ys = Ok (outs, v3) /\ tv_transform fl true w' v2' ys = Ok (outs, v3').
Proof. exact text_back. Qed.
Print Assumptions C52_roundtrip.
Example C52_case : exists data tk ops al v io, tok_transform_all true (new_tok CharTok) pair_texts = Ok (data, tk) /\
  good_fit exf 10 10 [] (listed [0; 1]%Z 100) (new_vgram exf 10 1) data ops al /\ int32 10 /\
  tv_fit exf true (listed [0; 1]%Z 100) (new_tvgram exf 10 1) pair_texts = Ok v /\ Forall int32 (tv_freqs exf v) /\ minp_exact exf io (vs (tv v)).
Proof.
  destruct pair_codes as [tk E]. pose proof pair_fit as P. apply DictProofs.bind_ok in P as (v & Ev & [= Ef]). destruct (toy_exact (vs (tv v))) as [io Hio]. do 4 eexists. exists v, io.
  split; [exact E|]. split; [exact pair_good|]. split; [unfold int32; lia|]. split; [exact Ev|]. split; [|exact Hio]. rewrite Ef. repeat constructor; unfold int32; lia.
Qed.

(** C53: an IntVGram file never loads as IntVGram. *)
Theorem C53_refuted : forall fl (io : float_io (F fl)) v file, save_vgram fl io true v = Ok file -> int_stream fl (vs v) -> minp_file fl io (vs v) ->
  load_vgram fl io file = Throw JsonType.
Proof. exact vgram_file_bad. Qed.
Print Assumptions C53_refuted.
(** After a good fit there is such a file; it does load as an integer stream. *)
Theorem C53_fitted : forall fl, flaws fl -> forall (io : float_io (F fl)) size N ops0 w v xs ops al, good_fit fl size N ops0 w v xs ops al -> int32 size -> Forall int32 (seen fl ops) ->
  exists v', fit fl w v xs = Ok (true, v') /\ (Forall int32 (s_freqs fl (vs v')) -> minp_exact fl io (vs v') ->
    exists file z', save_vgram fl io true v' = Ok file /\ load_vgram fl io file = Throw JsonType /\ load_stream fl io file = Ok z' /\ same_stream fl (vs v') z').
Proof. exact fit_saved. Qed.
Print Assumptions C53_fitted.
Example C53_case : exists io v file, fit exf (listed [0; 1]%Z 100) (new_vgram exf 10 1) [[1; 2; 1]; [2]]%Z = Ok (true, v) /\
  save_vgram exf io true v = Ok file /\ load_vgram exf io file = Throw JsonType.
Proof.
  destruct (sight_ok _ _ _ _ _ run_plain) as (v & H1 & H2 & H3 & _). destruct (toy_exact (vs v)) as [io Hio].
  destruct (fit_saved exf exl io _ _ _ _ _ _ _ _ plain_good) as (v' & Ev & Hv); [unfold int32; lia|repeat constructor; unfold int32; lia|].
  rewrite H1 in Ev. injection Ev as <-. destruct Hv as (file & z' & A & B & _); [rewrite H3; repeat constructor; unfold int32; lia|exact Hio|]. exists io, v, file. split; [exact H1|]. split; [exact A|exact B].
Qed.

(** C54: a saved file from which at least two characters are missing at the end is rejected by every load function. *)
Theorem C54_truncated : forall fl (io : float_io (F fl)) file p u, saved_file fl io file -> file = p ++ u -> 2 <= length u ->
  load_stream fl io p = Throw JsonParse /\ load_vgram fl io p = Throw JsonParse /\ load_tstream fl io p = Throw JsonParse /\ load_tvgram fl io p = Throw JsonParse.
Proof. exact cut_fails. Qed.
Print Assumptions C54_truncated.
(** When only the last character is missing, the newline, everything is still there. *)
Theorem C54_newline : forall fl (io : float_io (F fl)) file p c, saved_file fl io file -> file = p ++ [c] ->
  load_stream fl io p = load_stream fl io file /\ load_vgram fl io p = load_vgram fl io file /\
  load_tstream fl io p = load_tstream fl io file /\ load_tvgram fl io p = load_tvgram fl io file.
Proof. exact cut_newline. Qed.
Print Assumptions C54_newline.
Example C54_case : exists io file, saved_file exf io file.
Proof.
  destruct C51_case as (io & z & H & Hn & Hr & Hc & Ha & Hf & Hs & Hsy & Hi & Hio).
  destruct (fresh_saved exf exl io _ _ _ _ _ H Hn Hr Hc Ha) as (file & Hx & _); try assumption; [now rewrite Hf|]. exists io, file. exact Hx.
Qed.

(** C59: every loaded text stream takes characters for tokens; a stream of words reads differently after loading. *)
Theorem C59_always_chars : forall fl (io : float_io (F fl)) file z, load_tstream fl io file = Ok z -> tkind (ttok z) = CharTok /\ twords z = false /\ tinner z = false.
Proof. exact words_lost. Qed.
Print Assumptions C59_always_chars.
Theorem C59_refuted : exists io z0 z file z' s p q z1 z1', new_tstream exf 10 false true = Ok z0 /\ thist exf z0 word_ops z /\ minp_exact exf io (tst z) /\
  save_tstream exf io true z = Ok file /\ load_tstream exf io file = Ok z' /\ t_parse exf true z s = Ok (p, z1) /\ t_parse exf true z' s = Ok (q, z1') /\ p <> q.
Proof.
  pose proof run_word_load as H. apply DictProofs.bind_ok in H as (z0 & H0 & H). apply DictProofs.bind_ok in H as (z & H1 & H). apply DictProofs.bind_ok in H as (file & H2 & H). apply DictProofs.bind_ok in H as (z' & H3 & H).
  apply DictProofs.bind_ok in H as ([p z1] & H4 & H). apply DictProofs.bind_ok in H as ([q z1'] & H5 & H). injection H as Hm -> ->.
  exists (toy minus1), z0, z, file, z', (txt "be not to"). do 4 eexists. split; [exact H0|]. split; [exact (run_t_ok z0 word_ops [] z0 z (tt_nil _ _) H1)|].
  split; [exact (minus1_exact _ Hm)|]. split; [exact H2|]. split; [exact H3|]. split; [exact H4|]. split; [exact H5|discriminate].
Qed.
Print Assumptions C59_refuted.

(** C62: in a text stream that has been loaded, parsing one text can change how another one is read, and the alphabet: the loaded
    tokenizer hands out numbers that are in use, if before saving a character was met in a parse only. *)
Theorem C62_refuted : exists io z z1 z2 z3 p al, text_life exf io 10 false false z /\
  t_parse exf true z (txt "c") = Ok ([txt "c"], z1) /\ t_parse exf true z1 (txt "d") = Ok (p, z2) /\ t_parse exf true z2 (txt "c") = Ok ([txt "d"], z3) /\
  t_alphabet exf z1 = Ok al /\ t_alphabet exf z3 <> Ok al.
Proof.
  pose proof run_collision as H. apply DictProofs.bind_ok in H as (z0 & H0 & H). apply DictProofs.bind_ok in H as (z & H1 & H).
  apply DictProofs.bind_ok in H as ([m z1] & H2 & H). apply DictProofs.bind_ok in H as (z2 & H3 & H). apply DictProofs.bind_ok in H as ([m' z3] & H4 & H).
  apply DictProofs.bind_ok in H as ([p1 z4] & H5 & H). apply DictProofs.bind_ok in H as ([p2 z5] & H6 & H). apply DictProofs.bind_ok in H as ([p3 z6] & H7 & H).
  apply DictProofs.bind_ok in H as (a1 & H8 & H). apply DictProofs.bind_ok in H as (a3 & H9 & H). injection H as Hm -> -> -> ->. apply andb_prop in Hm as [-> ->].
  apply DictProofs.bind_ok in H2 as (f1 & S1 & H2). apply DictProofs.bind_ok in H2 as (y1 & L1 & H2). injection H2 as Hm1 ->.
  apply DictProofs.bind_ok in H4 as (f2 & S2 & H4). apply DictProofs.bind_ok in H4 as (y2 & L2 & H4). injection H4 as Hm2 ->.
  exists (toy minus1), z3, z4, z5, z6, p2. eexists. split; [|split; [exact H5|split; [exact H6|split; [exact H7|split; [exact H8|rewrite H9; discriminate]]]]].
  assert (G : forall ops y y', text_life exf (toy minus1) 10 false false y -> thist exf y ops y' -> text_life exf (toy minus1) 10 false false y').
  { intros ops y y' Hy. induction 1 as [|ops u op u' Hh IH Hs]; [exact Hy|]. exact (tl_step _ _ _ _ _ _ _ _ IH Hs). }
  apply tl_load with z2 f2; [|exact (minus1_exact _ Hm2)|exact S2|exact L2].
  apply (G later_ops z1); [|exact (run_t_ok z1 later_ops [] z1 z2 (tt_nil _ _) H3)].
  apply tl_load with z f1; [|exact (minus1_exact _ Hm1)|exact S1|exact L1].
  apply (G [tfeed (txt "a"); TUpdate] z0); [now constructor|exact (run_t_ok z0 _ [] z0 z (tt_nil _ _) H1)].
Qed.
Print Assumptions C62_refuted.
