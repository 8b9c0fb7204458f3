(** Fit, transform, accept, update and parse of a loaded IntVGram in any order: C99. Vocabulary: SpecLoadMixed.v, SpecMixed.v,
    SpecStream.v, SpecVGram.v. *)
From Verif Require Import Base Spec FloatOps FloatLaws FloatIEEE FloatExample ModelDict ModelCoder ModelStat ModelBuilder ModelStream ModelVGram
  SpecStat SpecBuilder EnvExample BuilderRuns StreamRuns VGramRuns LoadMixedLemmas SpecStream SpecVGram SpecMixed SpecLoadMixed.

(** C99: after any calls of fit (completed or interrupted), transform, accept, update and parse on an object loaded from a
    file, parse is defined and spells the sequence without the symbols that are neither in the file nor accepted since. *)
Theorem C99_parse : forall fl, flaws fl -> forall N syms c freqs ws size mp fitted computed v0, (0 <= N <= 2 ^ 40)%Z ->
  loadable fl N syms c freqs ws mp -> loaded_vgram fl c freqs ws size mp fitted computed = Ok v0 -> forall ops calls v s,
  lhist fl syms v0 ops calls v -> normal fl N (calls ++ [SParse s]) -> (Z.of_nat (length s) <= 2 ^ 40)%Z ->
  exists ids z' al al', s_parse fl (vs v) s = Ok (ids, z') /\ s_alphabet fl (vs v) = Ok al /\ s_alphabet fl z' = Ok al' /\
    spells al' ids (restrict (syms ++ seen fl calls) s) /\ extends_by_symbols al al'.
Proof. exact loaded_mixed_parse. Qed.
Print Assumptions C99_parse.

Theorem C99_double : forall lg, log_ok lg -> forall N syms c freqs ws size mp fitted computed v0, (0 <= N <= 2 ^ 40)%Z ->
  loadable (ieee lg) N syms c freqs ws mp -> loaded_vgram (ieee lg) c freqs ws size mp fitted computed = Ok v0 -> forall ops calls v s,
  lhist (ieee lg) syms v0 ops calls v -> normal (ieee lg) N (calls ++ [SParse s]) -> (Z.of_nat (length s) <= 2 ^ 40)%Z ->
  exists ids z' al al', s_parse (ieee lg) (vs v) s = Ok (ids, z') /\ s_alphabet (ieee lg) (vs v) = Ok al /\ s_alphabet (ieee lg) z' = Ok al' /\
    spells al' ids (restrict (syms ++ seen (ieee lg) calls) s) /\ extends_by_symbols al al'.
Proof. intros lg H. exact (loaded_mixed_parse (ieee lg) (ieee_laws lg H)). Qed.
Print Assumptions C99_double.

(** The alphabet is defined; its words come from the file or from the sequences accepted since. *)
Theorem C99_words : forall fl, flaws fl -> forall N syms c freqs ws size mp fitted computed v0, (0 <= N <= 2 ^ 40)%Z ->
  loadable fl N syms c freqs ws mp -> loaded_vgram fl c freqs ws size mp fitted computed = Ok v0 -> forall ops calls v,
  lhist fl syms v0 ops calls v -> normal fl N calls ->
  exists al, s_alphabet fl (vs v) = Ok al /\ forall w, In w al -> w <> [] /\
    ((exists k, In k ws /\ w = map (fun i => nth (Z.to_nat i) syms 0%Z) k) \/ occurs (fed fl calls) w).
Proof. exact loaded_mixed_words. Qed.
Print Assumptions C99_words.

(** The training can go on, also after a fit: accept and update are defined; accept does not touch the frequencies. *)
Theorem C99_accept : forall fl, flaws fl -> forall N syms c freqs ws size mp fitted computed v0, (0 <= N <= 2 ^ 40)%Z ->
  loadable fl N syms c freqs ws mp -> loaded_vgram fl c freqs ws size mp fitted computed = Ok v0 -> forall ops calls v e s,
  lhist fl syms v0 ops calls v -> normal fl N (calls ++ [SAccept e s]) -> roomy_loaded fl syms ws (calls ++ [SAccept e s]) ->
  exists z', s_accept fl e (vs v) s = Ok z' /\ s_freqs fl z' = s_freqs fl (vs v) /\
    lhist fl syms v0 (ops ++ [VCall (SAccept e s)]) (calls ++ [SAccept e s]) (on_stream fl v z').
Proof. exact loaded_mixed_accept. Qed.
Print Assumptions C99_accept.

(** An update that takes over another dictionary appends frequencies for all of its words to the ones there are. *)
Theorem C99_update : forall fl, flaws fl -> forall N syms c freqs ws size mp fitted computed v0, (0 <= N <= 2 ^ 40)%Z ->
  loadable fl N syms c freqs ws mp -> loaded_vgram fl c freqs ws size mp fitted computed = Ok v0 -> forall ops calls v,
  lhist fl syms v0 ops calls v -> normal fl N (calls ++ [SUpdate]) ->
  exists z', s_update fl (vs v) = Ok z' /\
    (z' = vs v \/ exists r al, s_freqs fl z' = s_freqs fl (vs v) ++ r /\ s_alphabet fl z' = Ok al /\ length al <= length r) /\
    lhist fl syms v0 (ops ++ [VCall SUpdate]) (calls ++ [SUpdate]) (on_stream fl v z').
Proof. exact loaded_mixed_update. Qed.
Print Assumptions C99_update.

(** Nothing but fit and such an update changes the frequencies. *)
Theorem C99_freqs : forall fl syms calls v op new v', lstep fl syms calls v op new v' -> (forall w xs, op <> VFit w xs) ->
  exists r, s_freqs fl (vs v') = s_freqs fl (vs v) ++ r /\ (r = [] \/ op = VCall SUpdate).
Proof. exact loaded_mixed_freqs. Qed.
Print Assumptions C99_freqs.

(** An object loaded as fitted and counted stays so whatever is called, and its fit does nothing. *)
Theorem C99_done : forall fl syms c freqs ws size mp v0, loaded_vgram fl c freqs ws size mp true true = Ok v0 -> forall ops calls v,
  lhist fl syms v0 ops calls v -> vfitted v = true /\ vcomputed v = true /\ forall w xs, fit fl w v xs = Ok (true, v).
Proof. exact loaded_done. Qed.
Print Assumptions C99_done.

(** The frequencies need not belong to the words any more: after load, fit, accept and update there are six for three words. *)
Theorem C99_refuted_aligned : exists v0 v al, file_object = Ok v0 /\ lhist exf [5; 8]%Z v0 more_ops more_calls v /\ normal exf 10 more_calls /\
  s_alphabet exf (vs v) = Ok al /\ length (s_freqs exf (vs v)) <> length al.
Proof. exact more_refuted. Qed.
Print Assumptions C99_refuted_aligned.

(** A history that meets the hypotheses: load, fit, accept, update; then a transform. *)
Example C99_case : exists v0 v, file_object = Ok v0 /\ s_freqs exf (vs v0) = [3; 2; 0]%Z /\ lhist exf [5; 8]%Z v0 more_ops more_calls v /\
  s_alphabet exf (vs v) = Ok [[5]; [5; 8]; [8]]%Z /\ s_freqs exf (vs v) = [1; 1; 1; 1; 0; 2]%Z /\
  exists v', transform exf (listed [] 100) v [[5; 8; 9]; [8; 5]]%Z = Ok ([[1]; [2; 0]], v').
Proof. exact more_case. Qed.
Example C99_limits : loadable exf 10 [5; 8]%Z file_coder [3; 2; 0]%Z [[0]; [1]; [0; 1]]%Z (flit exf 2 1000) /\
  normal exf 10 (more_calls ++ [SParse [5; 8; 9]%Z]) /\ roomy_loaded exf [5; 8]%Z [[0]; [1]; [0; 1]]%Z more_calls.
Proof. exact more_limits. Qed.
