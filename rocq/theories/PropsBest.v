(** Property C88: parse and transform find the most probable division. Vocabulary: SpecBest.v, SpecWeight.v. *)
From Coq Require Import Reals.
From Flocq Require Import Core BinarySingleNaN.
From Verif Require Import Base Spec FloatOps FloatLaws FloatIEEE FloatExample FloatTrueLog ModelDict Maps ModelCoder ModelStat ModelBuilder ModelStream ModelVGram
  SpecStat SpecBuilder EnvExample StreamRuns VGramRuns PropsStreamLemmas PropsVGramLemmas PropsBestLemmas BestRuns SpecStream SpecVGram SpecWeight SpecBest.

(** A stream, at any time: the division is the best one by the frequencies and the alphabet that the stream reports. *)
Theorem C88_stream : forall fl, flaws fl -> forall size N ops z s al,
  shist fl (new_stream fl size) ops z -> normal fl N ops -> roomy fl size ops -> calm fl [] (new_stream fl size) ops ->
  s_alphabet fl z = Ok al -> covers al (restrict (seen fl ops) s) -> (Z.of_nat (length s) <= 2 ^ 40)%Z ->
  exists ids, s_parse fl z s = Ok (ids, z) /\ most_probable fl (s_freqs fl z) al ids (restrict (seen fl ops) s).
Proof. exact fresh_best. Qed.
Print Assumptions C88_stream.

Theorem C88_loaded : forall fl, flaws fl -> forall N syms c freqs ws size mp z0, (0 <= N <= 2 ^ 40)%Z ->
  loadable fl N syms c freqs ws mp -> loaded_stream fl c freqs ws size mp = Ok z0 -> forall ops z s al,
  shist fl z0 ops z -> normal fl N ops -> roomy_loaded fl syms ws ops -> calm fl syms z0 ops ->
  s_alphabet fl z = Ok al -> covers al (restrict (syms ++ seen fl ops) s) -> (Z.of_nat (length s) <= 2 ^ 40)%Z ->
  exists ids, s_parse fl z s = Ok (ids, z) /\ most_probable fl (s_freqs fl z) al ids (restrict (syms ++ seen fl ops) s).
Proof. exact loaded_best. Qed.
Print Assumptions C88_loaded.

(** A model after fit. *)
Theorem C88_fitted : forall fl, flaws fl -> forall size N ops0 w v xs ops al v' ys, good_fit fl size N ops0 w v xs ops al ->
  fit fl w v xs = Ok (true, v') ->
  (forall y, In y ys -> covers al (restrict (seen fl ops) y) /\ (Z.of_nat (length y) <= 2 ^ 40)%Z) ->
  exists rs, Forall2 (fun y ids => most_probable fl (s_freqs fl (vs v')) al ids (restrict (seen fl ops) y)) ys rs /\
    forall w', exists m, kept (w_term w') (length ys) m /\ transform fl w' v' ys = Ok (firstn m rs, v').
Proof. exact fitted_best. Qed.
Print Assumptions C88_fitted.

(** The sums of logarithms are rounded. In exact numbers, with doubles and a logarithm that is right up to 2^-46, no
    division is more probable than the one found by more than the factor exp (slack m), for m symbols. *)
Theorem C88_near : forall lg freqs al ids s, log_close lg -> Forall (fun f => 0 <= f)%Z freqs ->
  (zsum freqs + Z.of_nat (length al) <= 2 ^ 53)%Z -> ~ In [] al -> (Z.of_nat (length s) <= 2 ^ 40)%Z ->
  most_probable (ieee lg) freqs al ids s -> forall ids', spells al ids' s ->
  (split_prob freqs (length al) ids' <= split_prob freqs (length al) ids * exp (slack (length s)))%R.
Proof. exact near. Qed.
Print Assumptions C88_near.

Theorem C88_fitted_near : forall lg, log_ok lg -> log_close lg -> forall size N ops0 w v xs ops al v' ys, good_fit (ieee lg) size N ops0 w v xs ops al ->
  fit (ieee lg) w v xs = Ok (true, v') ->
  (forall y, In y ys -> covers al (restrict (seen (ieee lg) ops) y) /\ (Z.of_nat (length y) <= 2 ^ 40)%Z) ->
  exists rs, Forall2 (fun y ids => let y' := restrict (seen (ieee lg) ops) y in let fs := s_freqs (ieee lg) (vs v') in
      spells al ids y' /\ forall ids', spells al ids' y' ->
      (split_prob fs (length al) ids' <= split_prob fs (length al) ids * exp (slack (length y')))%R) ys rs /\
    forall w', exists m, kept (w_term w') (length ys) m /\ transform (ieee lg) w' v' ys = Ok (firstn m rs, v').
Proof. exact fitted_near. Qed.
Print Assumptions C88_fitted_near.

(** For a thousand symbols the factor is below exp(10^-7). *)
Example C88_slack_case : (slack 1000 <= / 10000000)%R.
Proof. exact slack_thousand. Qed.

(** The correctly rounded logarithm meets the assumptions. *)
Example C88_log_case : log_ok lg_true /\ log_close lg_true.
Proof. split; [exact lg_true_ok|exact lg_true_close]. Qed.

(** The same symbols and words with different frequencies: 5 8 | 5 and 5 | 8 | 5. *)
Example C88_case : pair_parse [3; 2; 4]%Z = Ok ([1; 0], [[5]; [5; 8]; [8]]%Z, [3; 2; 4]%Z) /\
  pair_parse [60; 0; 50]%Z = Ok ([0; 2; 0], [[5]; [5; 8]; [8]]%Z, [60; 0; 50]%Z).
Proof. split; [exact run_pair|exact run_apart]. Qed.

(** A history and a fit that meet the hypotheses. *)
Example C88_hypotheses_case : (exists z, shist exf (new_stream exf 10) small_ops z /\ normal exf 10 small_ops /\ roomy exf 10 small_ops /\
    calm exf [] (new_stream exf 10) small_ops /\ s_alphabet exf z = Ok [[5]; [8]]%Z /\ covers [[5]; [8]]%Z (restrict (seen exf small_ops) [8; 3; 5]%Z)) /\
  good_fit exf 10 10 [] (listed [0; 1]%Z 100) (new_vgram exf 10 1) [[1; 2; 1]; [2]]%Z [feed [1; 2; 1]; feed [2]; SUpdate]%Z [[1]; [2]]%Z.
Proof.
  split; [|exact plain_good]. destruct small_case as (z & H1 & H2 & H3 & _ & H5 & _ & H7 & H8). exists z. repeat (split; [assumption|]). exact H8.
Qed.
