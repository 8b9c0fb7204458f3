(** Properties of IntVGram: C43-C47. Vocabulary: SpecVGram.v, SpecStream.v. *)
From Coq Require Import Ascii String.
From Verif Require Import Base Spec FloatOps FloatLaws FloatIEEE FloatExample TokProofs ModelTok ModelDict ModelCoder ModelStat ModelBuilder ModelStream ModelVGram
  SpecStat SpecBuilder EnvExample StreamRuns VGramRuns PropsStreamLemmas PropsVGramLemmas VGramProofs SpecStream SpecVGram.

(** C43: once fit has completed, further calls of fit, with any data, return the same object - also after transforms. *)
Theorem C43_fit_once : forall fl w v xs v', fit fl w v xs = Ok (true, v') ->
  vfitted v' = true /\ forall w' xs', fit fl w' v' xs' = Ok (true, v').
Proof. exact fit_once. Qed.
Print Assumptions C43_fit_once.

Theorem C43_after_transform : forall fl w v xs v1 w2 ys r v2, fit fl w v xs = Ok (true, v1) ->
  transform fl w2 v1 ys = Ok (r, v2) -> forall w' xs', fit fl w' v2 xs' = Ok (true, v2).
Proof. exact fit_after_transform. Qed.
Print Assumptions C43_after_transform.

(** C44: after fit, the frequencies count the words in readings of the training data, and frequency times length adds up to
    the length of the data. Needed: every symbol of the data is in the alphabet after the sampling. *)
Theorem C44_fit_counts : forall fl, flaws fl -> forall size N ops0 w v xs ops al, good_fit fl size N ops0 w v xs ops al ->
  exists v', fit fl w v xs = Ok (true, v') /\ vfitted v' = true /\ s_alphabet fl (vs v') = Ok al /\
    counts_readings al xs (s_freqs fl (vs v')) /\ weight al (s_freqs fl (vs v')) = total_symbols xs.
Proof. exact fit_counts. Qed.
Print Assumptions C44_fit_counts.

Theorem C44_double : forall lg, log_ok lg -> forall size N ops0 w v xs ops al, good_fit (ieee lg) size N ops0 w v xs ops al ->
  exists v', fit (ieee lg) w v xs = Ok (true, v') /\ vfitted v' = true /\ s_alphabet (ieee lg) (vs v') = Ok al /\
    counts_readings al xs (s_freqs (ieee lg) (vs v')) /\ weight al (s_freqs (ieee lg) (vs v')) = total_symbols xs.
Proof. intros lg H. exact (fit_counts (ieee lg) (ieee_laws lg H)). Qed.
Print Assumptions C44_double.

(** The state and the alphabet that good_fit asks for always exist. *)
Theorem C44_sampling_runs : forall fl, flaws fl -> forall size N ops0 w xs n z, shist fl (new_stream fl size) ops0 z -> n <> 0 ->
  normal fl N (ops0 ++ sampling fl w xs n) -> roomy fl size (ops0 ++ sampling fl w xs n) -> undisturbed fl w (n * length xs) ->
  exists z' al, shist fl (new_stream fl size) (ops0 ++ sampling fl w xs n) z' /\ s_alphabet fl z' = Ok al /\
    rounds fl w xs n 0 z = Ok (false, n * length xs, z').
Proof. exact sampling_runs. Qed.
Print Assumptions C44_sampling_runs.

(** A loaded object without computed frequencies: fit computes them for any data of known symbols. *)
Theorem C44_loaded : forall fl, flaws fl -> forall N syms c freqs ws size mp v w xs, (0 <= N <= 2 ^ 40)%Z ->
  loadable fl N syms c freqs ws mp -> loaded_vgram fl c freqs ws size mp true false = Ok v -> undisturbed fl w (length xs) ->
  (forall x, In x xs -> (forall k, In k x -> In k syms) /\ (Z.of_nat (length x) <= 2 ^ 40)%Z) ->
  exists al v', s_alphabet fl (vs v) = Ok al /\ fit fl w v xs = Ok (true, v') /\ vfitted v' = true /\ s_alphabet fl (vs v') = Ok al /\
    counts_readings al xs (s_freqs fl (vs v')) /\ weight al (s_freqs fl (vs v')) = total_symbols xs.
Proof. exact loaded_fit. Qed.
Print Assumptions C44_loaded.

(** A symbol that was not drawn: the recount leaves the frequency table. *)
Theorem C44_refuted_not_drawn : fit exf (listed [0; 0]%Z 100) (new_vgram exf 10 1) [[1]; [2]]%Z = UB OobRead.
Proof. exact (sight_ub _ run_missed). Qed.
Print Assumptions C44_refuted_not_drawn.

(** Drawing every sequence is not enough: a symbol drawn when the builder's result is fixed already is not in the alphabet. *)
Theorem C44_refuted_late :
  (forall x, In x late_data -> exists k, k < 6 /\ drawn exf late_world late_data k = x) /\
  normal exf 2360 (sampling exf late_world late_data 2) /\ roomy exf 10 (sampling exf late_world late_data 2) /\
  fit exf late_world (new_vgram exf 10 2) late_data = UB OobRead.
Proof. destruct late_ok as (H1 & H2 & H3). split; [exact H1|]. split; [exact H2|]. split; [exact H3|]. exact (sight_ub _ run_late). Qed.
Print Assumptions C44_refuted_late.

(** No round at all: there is no dictionary to parse with. *)
Theorem C44_refuted_no_rounds : fit exf (listed [] 100) (new_vgram exf 10 0) [[1]]%Z = UB NullDeref.
Proof. exact (sight_null _ run_no_rounds). Qed.
Print Assumptions C44_refuted_no_rounds.

(** A fit that meets the hypotheses: two sequences, both drawn; and its outcome. *)
Example C44_case : good_fit exf 10 10 [] (listed [0; 1]%Z 100) (new_vgram exf 10 1) [[1; 2; 1]; [2]]%Z
    [feed [1; 2; 1]; feed [2]; SUpdate]%Z [[1]; [2]]%Z /\
  exists v, fit exf (listed [0; 1]%Z 100) (new_vgram exf 10 1) [[1; 2; 1]; [2]]%Z = Ok (true, v) /\
    s_alphabet exf (vs v) = Ok [[1]; [2]]%Z /\ s_freqs exf (vs v) = [2; 2]%Z.
Proof.
  split; [exact plain_good|]. destruct (sight_ok _ _ _ _ _ run_plain) as (v & H1 & H2 & H3 & _). exists v. split; [exact H1|]. split; [exact H2|exact H3].
Qed.

(** C45: a batch is parsed element by element, without change to the object; isTerminated cuts the batch after the
    element where it answers true. *)
Theorem C45_batch : forall fl v xs rs, Forall2 (fun x ids => s_parse fl (vs v) x = Ok (ids, vs v)) xs rs ->
  forall w, exists m, kept (w_term w) (length xs) m /\ transform fl w v xs = Ok (firstn m rs, v).
Proof. exact batch_pure. Qed.
Print Assumptions C45_batch.

Theorem C45_fitted : forall fl, flaws fl -> forall size N ops0 w v xs ops al v' ys, good_fit fl size N ops0 w v xs ops al ->
  fit fl w v xs = Ok (true, v') ->
  (forall y, In y ys -> covers al (restrict (seen fl ops) y) /\ (Z.of_nat (length y) <= 2 ^ 40)%Z) ->
  exists rs, Forall2 (fun y ids => s_parse fl (vs v') y = Ok (ids, vs v') /\ spells al ids (restrict (seen fl ops) y)) ys rs /\
    forall w', exists m, kept (w_term w') (length ys) m /\ transform fl w' v' ys = Ok (firstn m rs, v').
Proof. exact fitted_transform. Qed.
Print Assumptions C45_fitted.

Theorem C45_loaded : forall fl, flaws fl -> forall N syms c freqs ws size mp v ys fitted computed, (0 <= N <= 2 ^ 40)%Z ->
  loadable fl N syms c freqs ws mp -> loaded_vgram fl c freqs ws size mp fitted computed = Ok v ->
  (forall y, In y ys -> (Z.of_nat (length y) <= 2 ^ 40)%Z) ->
  exists al rs, s_alphabet fl (vs v) = Ok al /\
    Forall2 (fun y ids => s_parse fl (vs v) y = Ok (ids, vs v) /\ spells al ids (restrict syms y)) ys rs /\
    forall w', exists m, kept (w_term w') (length ys) m /\ transform fl w' v ys = Ok (firstn m rs, v).
Proof. exact loaded_transform. Qed.
Print Assumptions C45_loaded.

(** Without interruption, all elements. *)
Theorem C45_complete : forall term n m, kept term n m -> (forall k, S k < n -> term k = false) -> m = n.
Proof. exact kept_all. Qed.
Print Assumptions C45_complete.

Example C45_case : exists v, fit exf (listed [0; 1]%Z 100) (new_vgram exf 10 1) [[1; 2; 1]; [2]]%Z = Ok (true, v) /\
  exists rs, transform exf (listed [] 100) v [[2; 1]; []; [1; 9; 1]]%Z = Ok (rs, v) /\ length rs = 3.
Proof.
  destruct (fit_counts exf exl _ _ _ _ _ _ _ _ plain_good) as (v & E & _). exists v. split; [exact E|].
  destruct (fitted_transform exf exl _ _ _ _ _ _ _ _ v [[2; 1]; []; [1; 9; 1]]%Z plain_good E) as (rs & H & Hw).
  { intros y [<-|[<-|[<-|[]]]]; (split; [intros c Hc; cbn in Hc; cbn; intuition congruence|cbn; lia]). }
  destruct (Hw (listed [] 100)) as (m & Hk & Et). exists rs.
  assert (Hl : length rs = 3).
  { clear -H. apply Forall2_len in H. now rewrite <- H. }
  rewrite (kept_all _ _ _ Hk) in Et; [|intros k Hlt; cbn in Hlt; cbn [listed w_term]; apply Nat.eqb_neq; lia].
  change (length [[2; 1]; []; [1; 9; 1]]%Z) with 3 in Et. rewrite <- Hl, firstn_all in Et. split; [exact Et|exact Hl].
Qed.

(** C46: the string for a sequence is "-1" for no ids, otherwise the decimal ids each preceded by a space; it determines the ids. *)
Theorem C46_written : forall ids, written (ids_string ids) ids.
Proof. exact ids_written. Qed.
Print Assumptions C46_written.
Theorem C46_unambiguous : forall s a b, written s a -> written s b -> a = b.
Proof. exact written_inj. Qed.
Print Assumptions C46_unambiguous.
Theorem C46_injective : forall a b, ids_string a = ids_string b -> a = b.
Proof. exact string_injective. Qed.
Print Assumptions C46_injective.
Theorem C46_strings : forall fl w v xs strs v', transform_to_string fl w v xs = Ok (strs, v') ->
  exists r m, transform fl w v xs = Ok (r, v') /\ kept (fun k => w_term w (length r + k)) (length r) m /\ Forall2 written strs (firstn m r).
Proof. exact strings_written. Qed.
Print Assumptions C46_strings.
Example C46_case : ids_string [0; 17; 5] = txt " 0 17 5"%string /\ ids_string [] = txt "-1"%string.
Proof. split; reflexivity. Qed.

(** C47: an interrupted fit returns null; the object is unfitted and has accepted the sequences drawn up to then, so that
    C44 applies to a later fit. *)
Theorem C47_interrupted : forall fl w v xs v', fit fl w v xs = Ok (false, v') ->
  vfitted v = false /\ vfitted v' = false /\ viter v' = viter v /\
  exists a b k, sampling fl w xs (Z.to_nat (viter v)) = a ++ draw fl w xs k :: b /\ k < Z.to_nat (viter v) * length xs /\
    w_term w k = true /\ undisturbed fl w k /\ shist fl (vs v) (a ++ [draw fl w xs k]) (vs v').
Proof. exact fit_interrupted. Qed.
Print Assumptions C47_interrupted.

Theorem C47_later_fit : forall fl size ops0 w v xs v', fit fl w v xs = Ok (false, v') ->
  shist fl (new_stream fl size) ops0 (vs v) -> calm fl [] (new_stream fl size) ops0 ->
  exists ops1, shist fl (new_stream fl size) ops1 (vs v') /\ calm fl [] (new_stream fl size) ops1.
Proof. exact interrupted_hist. Qed.
Print Assumptions C47_later_fit.

(** Every interruption during the sampling has this effect. *)
Theorem C47_every_point : forall fl, flaws fl -> forall size N ops0 w v xs k, vfitted v = false -> shist fl (new_stream fl size) ops0 (vs v) ->
  normal fl N (ops0 ++ sampling fl w xs (Z.to_nat (viter v))) -> roomy fl size (ops0 ++ sampling fl w xs (Z.to_nat (viter v))) ->
  k < Z.to_nat (viter v) * length xs -> w_term w k = true -> exists v', fit fl w v xs = Ok (false, v').
Proof. exact interruption. Qed.
Print Assumptions C47_every_point.

Example C47_case : exists v, fit exf (listed [0; 1]%Z 1) (new_vgram exf 10 1) [[1; 2; 1]; [2]]%Z = Ok (false, v) /\ vfitted v = false.
Proof. destruct (sight_ok _ _ _ _ _ run_stopped) as (v & H1 & _ & _ & H2). exists v. split; [exact H1|exact H2]. Qed.
