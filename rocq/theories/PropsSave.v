(** PropsSave: C72. *)
From Coq Require Import Ascii String.
From Verif Require Import Base FloatOps FloatLaws FloatIEEE FloatExample ModelTok ModelDict Maps ModelCoder ModelStat ModelBuilder
  ModelStream ModelVGram ModelString ModelJson ModelPersist ModelSave StreamRuns StringRuns PersistRuns EmitProofs SaveProofs SaveRuns SpecTok SpecJson SpecStream SpecVGram SpecString SpecPersist SpecSave.
Local Open Scope string_scope.
Local Open Scope list_scope.

(** C72: a save replaces the file by the new model or leaves it alone. It does so unless it throws, and then the file is destroyed: whatever was
    there, no load function reads what is there now. *)
Theorem C72_refuted : exists io z0 z file z' z1 t, new_tstream exf 10 false true = Ok z0 /\ thist exf z0 word_ops z /\ thist exf z0 latin_ops z1 /\
  save_tstream exf io true z = Ok file /\ load_tstream exf io file = Ok z' /\
  tstream_effect exf io true file z1 = Ok (t, Some JsonType) /\ load_tstream exf io t = Throw JsonParse.
Proof.
  pose proof run_latin as H. apply DictProofs.bind_ok in H as (z0 & H0 & H). apply DictProofs.bind_ok in H as (z & H1 & H). apply DictProofs.bind_ok in H as (file & H2 & H). apply DictProofs.bind_ok in H as (z' & H3 & H).
  apply DictProofs.bind_ok in H as (z1 & H4 & H). apply DictProofs.bind_ok in H as ([t e] & H5 & H). injection H as _ _ _ -> Hl _ _.
  exists (toy minus1), z0, z, file, z', z1, t. split; [exact H0|]. split; [exact (run_t_ok z0 word_ops [] z0 z (tt_nil _ _) H1)|]. split; [exact (run_t_ok z0 latin_ops [] z0 z1 (tt_nil _ _) H4)|].
  split; [exact H2|]. split; [exact H3|]. split; [exact H5|]. destruct (load_tstream exf (toy minus1) t) as [| |[]|]; easy.
Qed.
Print Assumptions C72_refuted.
Theorem C72_lost : forall fl (io : float_io (F fl)) old z t, int_stream fl (tst z) -> minp_file fl io (tst z) -> char_tok (ttok z) -> tstream_effect fl io true old z = Ok (t, Some JsonType) ->
  load_stream fl io t = Throw JsonParse /\ load_vgram fl io t = Throw JsonParse /\ load_tstream fl io t = Throw JsonParse /\ load_tvgram fl io t = Throw JsonParse.
Proof. exact tstream_lost. Qed.
Print Assumptions C72_lost.
Theorem C72_lost_vgram : forall fl (io : float_io (F fl)) old v t, int_stream fl (vs (tv v)) -> minp_file fl io (vs (tv v)) -> char_tok (tvtok v) -> tvgram_effect fl io true old v = Ok (t, Some JsonType) ->
  load_stream fl io t = Throw JsonParse /\ load_vgram fl io t = Throw JsonParse /\ load_tstream fl io t = Throw JsonParse /\ load_tvgram fl io t = Throw JsonParse.
Proof. exact tvgram_lost. Qed.
Print Assumptions C72_lost_vgram.
Example C72_lost_case : exists io old z t, int_stream exf (tst z) /\ minp_file exf io (tst z) /\ char_tok (ttok z) /\ tstream_effect exf io true old z = Ok (t, Some JsonType).
Proof.
  pose proof run_latin as H. apply DictProofs.bind_ok in H as (z0 & H0 & H). apply DictProofs.bind_ok in H as (z & H1 & H). apply DictProofs.bind_ok in H as (file & H2 & H). apply DictProofs.bind_ok in H as (z' & H3 & H).
  apply DictProofs.bind_ok in H as (z1 & H4 & H). apply DictProofs.bind_ok in H as ([t e] & H5 & H). injection H as Hm Hi Hc -> _ _ _.
  exists (toy minus1), file, z1, t. split; [exact (ints_ok _ Hi)|]. split; [intros x Ex; right; exact (minus1_exact _ Hm x Ex)|]. split; [exact (char_toks_ok _ Hc)|exact H5].
Qed.

(** It throws exactly if a text of the alphabet is not UTF-8. *)
Theorem C72_exact : forall fl (io : float_io (F fl)) z al, t_alphabet fl z = Ok al -> length al <= length (t_freqs fl z) ->
  (Forall utf8 al -> exists file, forall old, tstream_effect fl io true old z = Ok (file, None)) /\
  (~ Forall utf8 al -> forall old, exists t, tstream_effect fl io true old z = Ok (t, Some JsonType)).
Proof. exact tstream_by_texts. Qed.
Print Assumptions C72_exact.
Theorem C72_exact_vgram : forall fl (io : float_io (F fl)) v al, tv_alphabet fl v = Ok al -> length al <= length (tv_freqs fl v) ->
  (Forall utf8 al -> exists file, forall old, tvgram_effect fl io true old v = Ok (file, None)) /\
  (~ Forall utf8 al -> forall old, exists t, tvgram_effect fl io true old v = Ok (t, Some JsonType)).
Proof. exact tvgram_by_texts. Qed.
Print Assumptions C72_exact_vgram.
Example C72_exact_case : exists z al, t_alphabet exf z = Ok al /\ length al <= length (t_freqs exf z) /\ ~ Forall utf8 al.
Proof.
  pose proof run_latin as H. apply DictProofs.bind_ok in H as (z0 & H0 & H). apply DictProofs.bind_ok in H as (z & H1 & H). apply DictProofs.bind_ok in H as (file & H2 & H). apply DictProofs.bind_ok in H as (z' & H3 & H).
  apply DictProofs.bind_ok in H as (z1 & H4 & H). apply DictProofs.bind_ok in H as ([t e] & H5 & H). injection H as _ _ _ _ _ Ha Hf.
  exists z1. eexists. split; [exact Ha|]. rewrite Hf. split; [repeat constructor|]. intro U. inversion U; subst. now apply latin_not.
Qed.

(** So a stream of characters is always saved, and a stream of words if the texts it has met are UTF-8; the other case is C42. *)
Theorem C72_saved : forall fl, flaws fl -> forall (io : float_io (F fl)) size inner words N z0 ops z, new_tstream fl size inner words = Ok z0 -> thist fl z0 ops z -> tnormal fl N ops -> In TUpdate ops ->
  (words = true -> Forall utf8 (tmet ops)) ->
  exists al, t_alphabet fl z = Ok al /\ Forall utf8 al /\
    (length al <= length (t_freqs fl z) -> exists file, forall old, tstream_effect fl io true old z = Ok (file, None)) /\
    (length (t_freqs fl z) < length al -> forall old, tstream_effect fl io true old z = UB OobRead).
Proof. exact texts_saved. Qed.
Print Assumptions C72_saved.
Theorem C72_saved_double : forall lg, log_ok lg -> forall (io : float_io (F (ieee lg))) size inner words N z0 ops z, new_tstream (ieee lg) size inner words = Ok z0 -> thist (ieee lg) z0 ops z ->
  tnormal (ieee lg) N ops -> In TUpdate ops -> (words = true -> Forall utf8 (tmet ops)) ->
  exists al, t_alphabet (ieee lg) z = Ok al /\ Forall utf8 al /\
    (length al <= length (t_freqs (ieee lg) z) -> exists file, forall old, tstream_effect (ieee lg) io true old z = Ok (file, None)) /\
    (length (t_freqs (ieee lg) z) < length al -> forall old, tstream_effect (ieee lg) io true old z = UB OobRead).
Proof. exact (fun lg H => texts_saved (ieee lg) (ieee_laws lg H)). Qed.
Print Assumptions C72_saved_double.
Example C72_saved_case : exists z0 z, new_tstream exf 10 false true = Ok z0 /\ thist exf z0 utf8_ops z /\ tnormal exf 10 utf8_ops /\ In TUpdate utf8_ops /\ Forall utf8 (tmet utf8_ops) /\
  length (t_freqs exf z) = 2 /\ t_alphabet exf z = Ok [txt "caf" ++ [-61; -87]%Z; txt "bar"].
Proof.
  pose proof run_utf8 as H. apply DictProofs.bind_ok in H as (z0 & H0 & H). apply DictProofs.bind_ok in H as (z & H1 & H). injection H as Hf Ha.
  exists z0, z. split; [exact H0|]. split; [exact (run_t_ok z0 utf8_ops [] z0 z (tt_nil _ _) H1)|]. split; [|split; [right; now left|split; [exact utf8_met|now split]]].
  split; [intros e s [E|[E|[]]]; [injection E as <- _; exact EnvExample.exenv_ok|discriminate E]|]. split; [lia|]. split; [repeat constructor; vm_compute; discriminate|]. split; vm_compute; discriminate.
Qed.

(** Models of integers are never in danger. *)
Theorem C72_int : forall fl (io : float_io (F fl)) old z t e, stream_effect fl io true old z = Ok (t, e) -> e = None.
Proof. exact stream_no_throw. Qed.
Print Assumptions C72_int.
Theorem C72_int_vgram : forall fl (io : float_io (F fl)) old v t e, vgram_effect fl io true old v = Ok (t, e) -> e = None.
Proof. exact vgram_no_throw. Qed.
Print Assumptions C72_int_vgram.

(** These effects are those of the save functions of C40-C71. *)
Theorem C72_agrees : forall fl (io : float_io (F fl)) old z,
  (forall file, save_tstream fl io true z = Ok file <-> tstream_effect fl io true old z = Ok (file, None)) /\
  (forall e, save_tstream fl io true z = Throw e <-> exists t, tstream_effect fl io true old z = Ok (t, Some e)) /\
  (forall k, save_tstream fl io true z = UB k <-> tstream_effect fl io true old z = UB k).
Proof. exact tstream_agrees. Qed.
Print Assumptions C72_agrees.
Theorem C72_agrees_int : forall fl (io : float_io (F fl)) old z,
  (forall file, save_stream fl io true z = Ok file <-> stream_effect fl io true old z = Ok (file, None)) /\ (forall k, save_stream fl io true z = UB k <-> stream_effect fl io true old z = UB k).
Proof. exact stream_agrees. Qed.
Print Assumptions C72_agrees_int.
Theorem C72_agrees_vgram : forall fl (io : float_io (F fl)) old v,
  (forall file, save_tvgram fl io true v = Ok file <-> tvgram_effect fl io true old v = Ok (file, None)) /\
  (forall e, save_tvgram fl io true v = Throw e <-> exists t, tvgram_effect fl io true old v = Ok (t, Some e)) /\
  (forall k, save_tvgram fl io true v = UB k <-> tvgram_effect fl io true old v = UB k).
Proof. exact tvgram_agrees. Qed.
Print Assumptions C72_agrees_vgram.
