(** Properties C37-C41: IntStreamVGram. [normal] limits lengths and asks that std::shuffle and std::sort follow the
    standard; [roomy] says that the requested size leaves room for all symbols; [calm] says that the parses in a
    history met only symbols of the alphabet (SpecStream.v). *)
From Verif Require Import Base Spec FloatOps FloatLaws FloatIEEE FloatExample ModelDict Maps ModelCoder ModelStat ModelBuilder ModelStream
  SpecStat SpecBuilder EnvExample BuilderRuns StreamRuns SpecStream PropsStreamLemmas.

(** C37: at every size, after an update. *)
Theorem C37_lossless : forall fl, flaws fl -> forall size N ops z s,
  shist fl (new_stream fl size) ops z -> normal fl N ops -> In SUpdate ops ->
  (handled fl ops + Z.of_nat (length s) <= 2 ^ 48)%Z -> (Z.of_nat (length s) <= 2 ^ 40)%Z ->
  exists ids z' al al', s_parse fl z s = Ok (ids, z') /\ s_alphabet fl z = Ok al /\ s_alphabet fl z' = Ok al' /\
    spells al' ids (restrict (seen fl ops) s) /\ extends_by_symbols al al'.
Proof. exact fresh_lossless. Qed.
Print Assumptions C37_lossless.

Theorem C37_double : forall lg, log_ok lg -> forall size N ops z s,
  shist (ieee lg) (new_stream (ieee lg) size) ops z -> normal (ieee lg) N ops -> In SUpdate ops ->
  (handled (ieee lg) ops + Z.of_nat (length s) <= 2 ^ 48)%Z -> (Z.of_nat (length s) <= 2 ^ 40)%Z ->
  exists ids z' al al', s_parse (ieee lg) z s = Ok (ids, z') /\ s_alphabet (ieee lg) z = Ok al /\ s_alphabet (ieee lg) z' = Ok al' /\
    spells al' ids (restrict (seen (ieee lg) ops) s) /\ extends_by_symbols al al'.
Proof. intros lg Hlg. exact (fresh_lossless (ieee lg) (ieee_laws lg Hlg)). Qed.
Print Assumptions C37_double.

(** The same for a stream that starts from a model file. *)
Theorem C37_loaded : forall fl, flaws fl -> forall N syms c freqs ws size mp z0, (0 <= N <= 2 ^ 40)%Z ->
  loadable fl N syms c freqs ws mp -> loaded_stream fl c freqs ws size mp = Ok z0 -> forall ops z s,
  shist fl z0 ops z -> normal fl N ops ->
  (handled fl ops + Z.of_nat (length s) <= 2 ^ 48)%Z -> (Z.of_nat (length s) <= 2 ^ 40)%Z ->
  exists ids z' al al', s_parse fl z s = Ok (ids, z') /\ s_alphabet fl z = Ok al /\ s_alphabet fl z' = Ok al' /\
    spells al' ids (restrict (syms ++ seen fl ops) s) /\ extends_by_symbols al al'.
Proof. exact loaded_lossless. Qed.
Print Assumptions C37_loaded.

(** C38 *)
Theorem C38_parse_pure : forall fl, flaws fl -> forall size N ops z s al,
  shist fl (new_stream fl size) ops z -> normal fl N ops -> roomy fl size ops -> calm fl [] (new_stream fl size) ops ->
  s_alphabet fl z = Ok al -> covers al (restrict (seen fl ops) s) -> (Z.of_nat (length s) <= 2 ^ 40)%Z ->
  exists ids, s_parse fl z s = Ok (ids, z) /\ spells al ids (restrict (seen fl ops) s).
Proof. exact fresh_pure. Qed.
Print Assumptions C38_parse_pure.

Theorem C38_loaded : forall fl, flaws fl -> forall N syms c freqs ws size mp z0, (0 <= N <= 2 ^ 40)%Z ->
  loadable fl N syms c freqs ws mp -> loaded_stream fl c freqs ws size mp = Ok z0 -> forall ops z s al,
  shist fl z0 ops z -> normal fl N ops -> roomy_loaded fl syms ws ops -> calm fl syms z0 ops ->
  s_alphabet fl z = Ok al -> covers al (restrict (syms ++ seen fl ops) s) -> (Z.of_nat (length s) <= 2 ^ 40)%Z ->
  exists ids, s_parse fl z s = Ok (ids, z) /\ spells al ids (restrict (syms ++ seen fl ops) s).
Proof. exact loaded_pure. Qed.
Print Assumptions C38_loaded.

(** A symbol accepted after the update, once the builder has moved on to another dictionary: parse adds it. *)
Theorem C38_refuted_known : exists ops z z',
  shist exf (new_stream exf 10) ops z /\ shist exf (new_stream exf 10) (ops ++ [SParse [7%Z]]) z' /\ In 7%Z (seen exf ops) /\
  s_alphabet exf z = Ok [[1]]%Z /\ s_alphabet exf z' = Ok [[1]; [7]]%Z.
Proof. exact parse_changes. Qed.
Print Assumptions C38_refuted_known.

(** C39: an update either does nothing or appends the counts for the new alphabet to the old ones. [swhist] is a
    history with the window of accepted sequences that are counted. *)
Theorem C39_update : forall fl, flaws fl -> forall size N ops w z z',
  swhist fl (new_stream fl size) First ops w z -> normal fl N (ops ++ [SUpdate]) -> roomy fl size ops ->
  calm fl [] (new_stream fl size) ops -> s_update fl z = Ok z' ->
  z' = z \/ exists r al, s_freqs fl z' = s_freqs fl z ++ r /\ s_alphabet fl z' = Ok al /\ counted w (fed fl ops) al r.
Proof. exact fresh_update. Qed.
Print Assumptions C39_update.

Theorem C39_first_update : forall fl, flaws fl -> forall size N ops w z z',
  swhist fl (new_stream fl size) First ops w z -> normal fl N (ops ++ [SUpdate]) -> roomy fl size ops ->
  ~ In SUpdate ops -> s_update fl z = Ok z' ->
  exists al, s_alphabet fl z' = Ok al /\ counted w (fed fl ops) al (s_freqs fl z').
Proof. exact first_update. Qed.
Print Assumptions C39_first_update.

Theorem C39_every_history : forall fl size ops z, shist fl (new_stream fl size) ops z ->
  exists w, swhist fl (new_stream fl size) First ops w z.
Proof. exact windows. Qed.
Print Assumptions C39_every_history.

(** After a second change of dictionary there are three frequencies for two words. *)
Theorem C39_refuted_second : exists ops z, shist exf (new_stream exf 10) (ops ++ [SUpdate]) z /\
  s_alphabet exf z = Ok [[1]; [1; 1]]%Z /\ s_freqs exf z = [1; 0; 0]%Z.
Proof. exact second_update. Qed.
Print Assumptions C39_refuted_second.

(** C40: for save see C42. *)
Theorem C40_before_update : forall fl, flaws fl -> forall size N ops z,
  shist fl (new_stream fl size) ops z -> normal fl N ops -> ~ In SUpdate ops ->
  (forall s, s_parse fl z s = UB NullDeref) /\ s_alphabet fl z = UB NullDeref /\ s_freqs fl z = [].
Proof. exact before_update. Qed.
Print Assumptions C40_before_update.

Theorem C40_update_total : forall fl, flaws fl -> forall size N ops z,
  shist fl (new_stream fl size) ops z -> normal fl N ops -> exists z', s_update fl z = Ok z'.
Proof. exact fresh_update_total. Qed.
Print Assumptions C40_update_total.

Theorem C40_accept_total : forall fl, flaws fl -> forall size N ops z e s,
  shist fl (new_stream fl size) ops z -> normal fl N (ops ++ [SAccept e s]) -> roomy fl size (ops ++ [SAccept e s]) ->
  exists z', s_accept fl e z s = Ok z'.
Proof. exact fresh_accept_total. Qed.
Print Assumptions C40_accept_total.

(** C41 *)
Theorem C41_alphabet_total : forall fl, flaws fl -> forall size N ops z,
  shist fl (new_stream fl size) ops z -> normal fl N ops -> In SUpdate ops -> exists al, s_alphabet fl z = Ok al.
Proof. exact fresh_alphabet. Qed.
Print Assumptions C41_alphabet_total.

Theorem C41_distinct : forall fl, flaws fl -> forall size N ops z al,
  shist fl (new_stream fl size) ops z -> normal fl N ops -> roomy fl size ops -> calm fl [] (new_stream fl size) ops ->
  s_alphabet fl z = Ok al -> NoDup al /\ symbol_closed al /\ ~ In [] al.
Proof. exact fresh_distinct. Qed.
Print Assumptions C41_distinct.

Theorem C41_loaded : forall fl, flaws fl -> forall N syms c freqs ws size mp z0, (0 <= N <= 2 ^ 40)%Z ->
  loadable fl N syms c freqs ws mp -> loaded_stream fl c freqs ws size mp = Ok z0 -> forall ops z,
  shist fl z0 ops z -> normal fl N ops -> exists al, s_alphabet fl z = Ok al.
Proof. exact loaded_alphabet. Qed.
Print Assumptions C41_loaded.

(** Two symbols that the dictionary in use does not have, parsed in decreasing order: a word is there twice. *)
Theorem C41_refuted_distinct : exists ops z, shist exf (new_stream exf 10) ops z /\
  s_alphabet exf z = Ok [[1]; [7]; [6]; [6]]%Z.
Proof. exact duplicate_word. Qed.
Print Assumptions C41_refuted_distinct.

(** A history that meets the hypotheses of C37-C41: two inputs, an update, a parse with an unknown symbol. *)
Example C37_C41_case : exists z, shist exf (new_stream exf 10) small_ops z /\ normal exf 10 small_ops /\
  roomy exf 10 small_ops /\ In SUpdate small_ops /\ s_alphabet exf z = Ok [[5]; [8]]%Z /\ s_freqs exf z = [3; 2]%Z /\
  calm exf [] (new_stream exf 10) small_ops /\
  covers [[5]; [8]]%Z (restrict (seen exf small_ops) [8; 3; 5]%Z).
Proof. exact small_case. Qed.

(** A model that meets the hypotheses of the theorems on loaded streams. *)
Example C37_loadable_case : loadable exf 10 [5; 8]%Z (mkCoder [(8, 1); (5, 0)] [(0, 5); (1, 8)])%Z [3; 2; 0]%Z [[0]; [1]; [0; 1]]%Z (flit exf 2 1000).
Proof. exact loadable_case. Qed.
