(** PropsInterrupt: C74, C75. Vocabulary: SpecInterrupt.v, SpecPy.v, SpecVGram.v. *)
From Coq Require Import Ascii String.
From Verif Require Import Base Spec FloatOps FloatLaws FloatIEEE FloatExample ModelTok ModelDict ModelCoder ModelStat ModelBuilder ModelStream ModelVGram ModelString
  ModelJson ModelPersist ModelPy SpecStat SpecBuilder StreamRuns VGramRuns StringRuns PropsVGramLemmas InterruptProofs PyProofs InterruptRuns
  SpecStream SpecVGram SpecInterrupt SpecPy.

(** C74: the claim that a fit which returned the object has counted all of the data fails when the first signal comes while the
    frequencies are counted: the frequencies then describe the sequences up to this point, the object is fitted, no later fit
    changes it, and the total is the one that sampling left. *)
Theorem C74_counted : forall fl, flaws fl -> forall size N ops0 w v xs ops al k, good_fit fl size N ops0 (quiet fl w) v xs ops al -> k < length xs ->
  first_signal fl w (Z.to_nat (viter v) * length xs + k) ->
  exists v' z, fit fl w v xs = Ok (true, v') /\ vfitted v' = true /\ s_alphabet fl (vs v') = Ok al /\
    counts_readings al (firstn (S k) xs) (s_freqs fl (vs v')) /\ weight al (s_freqs fl (vs v')) = total_symbols (firstn (S k) xs) /\
    (forall w' xs', fit fl w' v' xs' = Ok (true, v')) /\ shist fl (new_stream fl size) ops z /\ ztotal (vs v') = ztotal z.
Proof. exact stopped_counting. Qed.
Print Assumptions C74_counted.
Theorem C74_double : forall lg, log_ok lg -> forall size N ops0 w v xs ops al k, good_fit (ieee lg) size N ops0 (quiet (ieee lg) w) v xs ops al -> k < length xs ->
  first_signal (ieee lg) w (Z.to_nat (viter v) * length xs + k) ->
  exists v' z, fit (ieee lg) w v xs = Ok (true, v') /\ vfitted v' = true /\ s_alphabet (ieee lg) (vs v') = Ok al /\
    counts_readings al (firstn (S k) xs) (s_freqs (ieee lg) (vs v')) /\ weight al (s_freqs (ieee lg) (vs v')) = total_symbols (firstn (S k) xs) /\
    (forall w' xs', fit (ieee lg) w' v' xs' = Ok (true, v')) /\ shist (ieee lg) (new_stream (ieee lg) size) ops z /\ ztotal (vs v') = ztotal z.
Proof. intros lg H. exact (stopped_counting (ieee lg) (ieee_laws lg H)). Qed.
Print Assumptions C74_double.
Theorem C74_refuted : exists w v xs v', fit exf w v xs = Ok (true, v') /\ vfitted v' = true /\ s_alphabet exf (vs v') = Ok [[1]; [2]]%Z /\
  s_freqs exf (vs v') = [2; 1]%Z /\ total_symbols xs = 4%Z.
Proof.
  destruct (sight_ok _ _ _ _ _ run_halfway) as (v & H1 & H2 & H3 & H4). exists (listed [0; 1]%Z 2), (new_vgram exf 10 1), [[1; 2; 1]; [2]]%Z, v.
  split; [exact H1|]. split; [exact H4|]. split; [exact H2|]. split; [exact H3|reflexivity].
Qed.
Print Assumptions C74_refuted.
Example C74_case : good_fit exf 10 10 [] (quiet exf (listed [0; 1]%Z 2)) (new_vgram exf 10 1) [[1; 2; 1]; [2]]%Z [feed [1; 2; 1]; feed [2]; SUpdate]%Z [[1]; [2]]%Z /\
  first_signal exf (listed [0; 1]%Z 2) (Z.to_nat (viter (new_vgram exf 10 1)) * length [[1; 2; 1]; [2]]%Z + 0).
Proof. split; [exact halfway_good|]. split; [|reflexivity]. intros [|[|k]] Hk; try reflexivity. cbn in Hk. lia. Qed.

(** C75: a signal that comes while a constructed Python IntVGram samples stops it at once; the claim fails for a VGram and for every
    loaded object, whose calls go the same way whatever signals come. *)
Theorem C75_stops : forall fl, flaws fl -> forall size N iter w xs k, normal fl N (sampling fl w xs (Z.to_nat iter)) -> roomy fl size (sampling fl w xs (Z.to_nat iter)) ->
  k < Z.to_nat iter * length xs -> first_signal fl w k ->
  exists v a b, py_call fl w (py_int fl size iter) (PyFit xs) = Ok (PyNull, PyInt ClassPyIntVGram v) /\ vfitted v = false /\
    sampling fl w xs (Z.to_nat iter) = a ++ draw fl w xs k :: b /\ shist fl (new_stream fl size) (a ++ [draw fl w xs k]) (vs v).
Proof. exact built_stops. Qed.
Print Assumptions C75_stops.
Theorem C75_deaf : forall fl o0 log o, no_constructed_int fl o0 -> pylife fl o0 log o -> pylife fl o0 (map (no_signals fl) log) o.
Proof. exact life_deaf. Qed.
Print Assumptions C75_deaf.
Theorem C75_refuted : exists w o, (forall t, w_term w t = true) /\ py_call exf w (py_str exf 10 1) (PyFitTexts pair_texts) = Ok (PySelf, o) /\
  match o with PyStr _ v => vfitted (tv v) = true | PyInt _ _ => False end.
Proof.
  destruct (seen_py_str _ _ _ run_deaf) as (o & E & H). exists stubborn, o. split; [reflexivity|]. split; [exact E|].
  destruct (fit_texts_kind exf _ _ _ _ _ _ E) as (c & v & ->). exact H.
Qed.
Print Assumptions C75_refuted.
Example C75_case : no_constructed_int exf (py_str exf 10 1) /\ (exists o, pylife exf (py_str exf 10 1) [(stubborn, PyFitTexts pair_texts, PySelf)] o) /\
  normal exf 10 (sampling exf stubborn [[1; 2; 1]; [2]]%Z (Z.to_nat 1)) /\ roomy exf 10 (sampling exf stubborn [[1; 2; 1]; [2]]%Z (Z.to_nat 1)) /\
  first_signal exf stubborn 0.
Proof.
  split; [constructor|]. split.
  - destruct (seen_py_str _ _ _ run_deaf) as (o & E & _). exists o. exact (py_step exf _ [] _ stubborn _ _ o (py_nil _ _) E).
  - destruct plain_good as (_ & _ & _ & _ & _ & H6 & H7 & _). split; [exact H6|]. split; [exact H7|]. split; [intros k Hk; lia|reflexivity].
Qed.
