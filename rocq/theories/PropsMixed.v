(** Fit, transform, accept, update and parse of an IntVGram in any order: C85. Vocabulary: SpecMixed.v, SpecStream.v, SpecVGram.v. *)
From Verif Require Import Base Spec FloatOps FloatLaws FloatIEEE FloatExample ModelDict ModelCoder ModelStat ModelBuilder ModelStream ModelVGram
  SpecStat SpecBuilder EnvExample BuilderRuns StreamRuns VGramRuns PropsMixedLemmas SpecStream SpecVGram SpecMixed.

(** C85: after any calls of fit (completed or interrupted), transform, accept, update and parse on a new object, parse is
    defined and spells the sequence without the symbols never accepted; the alphabet then has at most more symbols. *)
Theorem C85_parse : forall fl, flaws fl -> forall size iter N ops calls v s, vhist fl (new_vgram fl size iter) ops calls v ->
  normal fl N (calls ++ [SParse s]) -> In SUpdate calls -> (Z.of_nat (length s) <= 2 ^ 40)%Z ->
  exists ids z' al al', s_parse fl (vs v) s = Ok (ids, z') /\ s_alphabet fl (vs v) = Ok al /\ s_alphabet fl z' = Ok al' /\
    spells al' ids (restrict (seen fl calls) s) /\ extends_by_symbols al al'.
Proof. exact mixed_parse. Qed.
Print Assumptions C85_parse.

Theorem C85_double : forall lg, log_ok lg -> forall size iter N ops calls v s, vhist (ieee lg) (new_vgram (ieee lg) size iter) ops calls v ->
  normal (ieee lg) N (calls ++ [SParse s]) -> In SUpdate calls -> (Z.of_nat (length s) <= 2 ^ 40)%Z ->
  exists ids z' al al', s_parse (ieee lg) (vs v) s = Ok (ids, z') /\ s_alphabet (ieee lg) (vs v) = Ok al /\ s_alphabet (ieee lg) z' = Ok al' /\
    spells al' ids (restrict (seen (ieee lg) calls) s) /\ extends_by_symbols al al'.
Proof. intros lg H. exact (mixed_parse (ieee lg) (ieee_laws lg H)). Qed.
Print Assumptions C85_double.

(** The alphabet is defined, and its words come from the accepted sequences. *)
Theorem C85_words : forall fl, flaws fl -> forall size iter N ops calls v, vhist fl (new_vgram fl size iter) ops calls v ->
  normal fl N calls -> In SUpdate calls ->
  exists al, s_alphabet fl (vs v) = Ok al /\ forall w, In w al -> w <> [] /\ occurs (fed fl calls) w.
Proof. exact mixed_words. Qed.
Print Assumptions C85_words.

(** The training can go on: accept and update are defined, also after fit; accept does not touch the frequencies. *)
Theorem C85_accept : forall fl, flaws fl -> forall size iter N ops calls v e s, vhist fl (new_vgram fl size iter) ops calls v ->
  normal fl N (calls ++ [SAccept e s]) -> roomy fl size (calls ++ [SAccept e s]) ->
  exists z', s_accept fl e (vs v) s = Ok z' /\ s_freqs fl z' = s_freqs fl (vs v) /\
    vhist fl (new_vgram fl size iter) (ops ++ [VCall (SAccept e s)]) (calls ++ [SAccept e s]) (on_stream fl v z').
Proof. exact mixed_accept. Qed.
Print Assumptions C85_accept.

(** An update that takes over another dictionary appends frequencies for all of its words to the ones there are. *)
Theorem C85_update : forall fl, flaws fl -> forall size iter N ops calls v, vhist fl (new_vgram fl size iter) ops calls v ->
  normal fl N (calls ++ [SUpdate]) ->
  exists z', s_update fl (vs v) = Ok z' /\
    (z' = vs v \/ exists r al, s_freqs fl z' = s_freqs fl (vs v) ++ r /\ s_alphabet fl z' = Ok al /\ length al <= length r) /\
    vhist fl (new_vgram fl size iter) (ops ++ [VCall SUpdate]) (calls ++ [SUpdate]) (on_stream fl v z').
Proof. exact mixed_update. Qed.
Print Assumptions C85_update.

(** Nothing but fit and such an update changes the frequencies; a fitted object stays fitted. *)
Theorem C85_freqs : forall fl calls v op new v', vstep fl calls v op new v' -> (forall w xs, op <> VFit w xs) ->
  exists r, s_freqs fl (vs v') = s_freqs fl (vs v) ++ r /\ (r = [] \/ op = VCall SUpdate).
Proof. exact mixed_freqs. Qed.
Print Assumptions C85_freqs.
Theorem C85_fitted : forall fl calls v op new v', vstep fl calls v op new v' -> vfitted v = true -> vfitted v' = true.
Proof. exact mixed_fitted. Qed.
Print Assumptions C85_fitted.

(** So after fit, more training and an update, the frequencies do not belong to the words of the alphabet any more. *)
Theorem C85_refuted_aligned : exists ops calls v al, vhist exf (new_vgram exf 10 1) ops calls v /\ normal exf 2000 calls /\ roomy exf 10 calls /\
  vfitted v = true /\ s_alphabet exf (vs v) = Ok al /\ length (s_freqs exf (vs v)) <> length al.
Proof. exact mixed_refuted. Qed.
Print Assumptions C85_refuted_aligned.

(** A history that meets the hypotheses: fit, accept, update; then a transform. *)
Example C85_case : exists v1 v, vhist exf (new_vgram exf 10 1) (firstn 1 mixed_ops) (firstn 3 mixed_calls) v1 /\ s_freqs exf (vs v1) = [1]%Z /\
  vhist exf (new_vgram exf 10 1) mixed_ops mixed_calls v /\ vfitted v = true /\
  s_alphabet exf (vs v) = Ok [[1]; [1; 1]]%Z /\ s_freqs exf (vs v) = [1; 0; 0]%Z /\
  exists v', transform exf (listed [] 100) v [[1; 1; 1]; [2; 1]]%Z = Ok ([[0; 0; 0]; [0]], v').
Proof. exact mixed_case. Qed.
Example C85_limits : normal exf 2000 (mixed_calls ++ [SParse [1; 1]%Z]) /\ roomy exf 10 mixed_calls /\ In SUpdate mixed_calls.
Proof. exact mixed_limits. Qed.
