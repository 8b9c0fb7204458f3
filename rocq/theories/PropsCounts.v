(** C80: what the frequencies of text objects count, and of short trainings; C35: the minimum probability reported. Vocabulary: SpecCounts.v. *)
From Coq Require Import Ascii String.
From Verif Require Import Base Spec FloatOps FloatLaws FloatIEEE FloatExample FloatRebuild ModelTok ModelDict ModelCoder ModelStat ModelBuilder ModelStream ModelVGram ModelString
  SpecTok TokProofs SpecStat SpecBuilder EnvExample BuilderRuns PropsBuilderLemmas StreamRuns VGramRuns StringRuns PropsStreamLemmas PropsVGramLemmas PropsStringLemmas CountsProofs SpecStream SpecVGram SpecString SpecCounts.
Local Open Scope string_scope.
Local Open Scope list_scope.

(** A stream that has accepted fewer than [thr] symbols (1152 for doubles): after the first update the words are the symbols and the
    frequencies the numbers of their occurrences. [rlaws]: FloatRebuild.v. *)
Theorem C80_stream : forall fl L thr (Rl : rlaws fl L thr) size N ops z z', shist fl (new_stream fl size) ops z -> normal fl N (ops ++ [SUpdate]) -> roomy fl size ops ->
  ~ In SUpdate ops -> (Z.of_nat (length (seen fl ops)) < thr)%Z -> s_update fl z = Ok z' ->
  exists al, s_alphabet fl z' = Ok al /\ symbol_counts (seen fl ops) al (s_freqs fl z').
Proof. exact stream_counts. Qed.
Print Assumptions C80_stream.
Theorem C80_fit : forall fl L thr (Rl : rlaws fl L thr) size N w iter xs ops al M, good_fit fl size N [] w (new_vgram fl size iter) xs ops al ->
  (forall x : seq, In x xs -> (Z.of_nat (length x) <= M)%Z) -> (0 <= M)%Z -> (iter * Z.of_nat (length xs) * M < thr)%Z ->
  exists v', fit fl w (new_vgram fl size iter) xs = Ok (true, v') /\ s_alphabet fl (vs v') = Ok al /\ symbol_counts (concat xs) al (s_freqs fl (vs v')).
Proof. exact fit_symbols. Qed.
Print Assumptions C80_fit.

(** Texts: after the first update the frequencies of a text stream count its words in readings of the accepted texts in the window. *)
Theorem C80_text_update : forall fl, flaws fl -> forall size inner words z0 N ops w z z', new_tstream fl size inner words = Ok z0 -> twhist fl z0 First ops w z ->
  tnormal fl N (ops ++ [TUpdate]) -> troomy fl (if words then WordTok else CharTok) size ops -> ~ In TUpdate ops -> t_update fl z = Ok z' ->
  exists al texts, t_alphabet fl z' = Ok al /\ Forall2 (plain (if words then WordTok else CharTok)) (tfed fl ops) texts /\ counted w texts al (t_freqs fl z').
Proof. exact text_first_update. Qed.
Print Assumptions C80_text_update.
Theorem C80_text_windows : forall fl z0 ph ops z, thist fl z0 ops z -> exists w, twhist fl z0 ph ops w z.
Proof. exact twindow_exists. Qed.
Print Assumptions C80_text_windows.
(** After fit, in readings of the training texts; so frequency times length adds up to the length of the texts. *)
Theorem C80_text_fit : forall fl, flaws fl -> forall k size N iter w texts codes tk ops al, tok_transform_all true (new_tok k) texts = Ok (codes, tk) ->
  good_fit fl size N [] w (new_vgram fl size iter) codes ops al ->
  exists v words data, tv_fit fl true w (new_tvgram_with fl size iter (new_tok k)) texts = Ok v /\ tv_alphabet fl v = Ok words /\ Forall2 (plain k) texts data /\
    counts_readings words data (tv_freqs fl v) /\ weight words (tv_freqs fl v) = total_symbols data.
Proof. exact text_fit. Qed.
Print Assumptions C80_text_fit.
(** Short texts: the words are the tokens, the frequencies count them. *)
Theorem C80_text_stream_short : forall fl L thr (Rl : rlaws fl L thr) size inner words z0 N ops z z', new_tstream fl size inner words = Ok z0 -> thist fl z0 ops z ->
  tnormal fl N (ops ++ [TUpdate]) -> troomy fl (if words then WordTok else CharTok) size ops -> ~ In TUpdate ops -> (total_symbols (tfed fl ops) < thr)%Z ->
  t_update fl z = Ok z' ->
  exists al toks, t_alphabet fl z' = Ok al /\ Forall2 (tokens_of (if words then WordTok else CharTok)) (tfed fl ops) toks /\ token_counts (concat toks) al (t_freqs fl z').
Proof. exact text_counts. Qed.
Print Assumptions C80_text_stream_short.
Theorem C80_text_fit_short : forall fl L thr (Rl : rlaws fl L thr) k size N iter w texts codes tk ops al M, tok_transform_all true (new_tok k) texts = Ok (codes, tk) ->
  good_fit fl size N [] w (new_vgram fl size iter) codes ops al -> (forall x : text, In x texts -> (Z.of_nat (length x) <= M)%Z) -> (0 <= M)%Z ->
  (iter * Z.of_nat (length texts) * M < thr)%Z ->
  exists v words toks, tv_fit fl true w (new_tvgram_with fl size iter (new_tok k)) texts = Ok v /\ tv_alphabet fl v = Ok words /\ Forall2 (tokens_of k) texts toks /\
    token_counts (concat toks) words (tv_freqs fl v).
Proof. exact text_fit_counts. Qed.
Print Assumptions C80_text_fit_short.
Theorem C80_double : forall lg, log_ok lg -> log_tenth lg -> forall size inner words z0 N ops z z', new_tstream (ieee lg) size inner words = Ok z0 -> thist (ieee lg) z0 ops z ->
  tnormal (ieee lg) N (ops ++ [TUpdate]) -> troomy (ieee lg) (if words then WordTok else CharTok) size ops -> ~ In TUpdate ops -> (total_symbols (tfed (ieee lg) ops) < 1152)%Z ->
  t_update (ieee lg) z = Ok z' ->
  exists al toks, t_alphabet (ieee lg) z' = Ok al /\ Forall2 (tokens_of (if words then WordTok else CharTok)) (tfed (ieee lg) ops) toks /\
    token_counts (concat toks) al (t_freqs (ieee lg) z').
Proof. exact (fun lg H T => text_counts (ieee lg) (ieee_laws lg H) 1152 (ieee_rlaws lg H T)). Qed.
Print Assumptions C80_double.

(** Two texts; the commas and the blank do not count. *)
Definition counted_ops : list (top exf) := [tfeed (txt "Abba, c"); tfeed (txt "b!")].
Definition counted_sight : outcome (list text * list Z) :=
  z0 <- new_tstream exf 10 false false ;; z <- run_t z0 counted_ops ;; z' <- t_update exf z ;; al <- t_alphabet exf z' ;; Ok (al, t_freqs exf z').
Lemma run_counted : counted_sight = Ok ([txt "a"; txt "b"; txt "c"], [2; 3; 1]%Z).
Proof. vm_compute. reflexivity. Qed.
Example C80_case : exists z0 z z', new_tstream exf 10 false false = Ok z0 /\ thist exf z0 counted_ops z /\ tnormal exf 10 (counted_ops ++ [TUpdate]) /\
  troomy exf CharTok 10 counted_ops /\ ~ In TUpdate counted_ops /\ (total_symbols (tfed exf counted_ops) < 1152)%Z /\ t_update exf z = Ok z' /\
  t_alphabet exf z' = Ok [txt "a"; txt "b"; txt "c"] /\ t_freqs exf z' = [2; 3; 1]%Z.
Proof.
  pose proof run_counted as E. unfold counted_sight in E. apply DictProofs.bind_ok in E as (z0 & E0 & E). apply DictProofs.bind_ok in E as (z & Ez & E).
  apply DictProofs.bind_ok in E as (z' & Eu & E). apply DictProofs.bind_ok in E as (al & Ea & E). injection E as -> Ef. exists z0, z, z'.
  split; [exact E0|]. split; [exact (run_t_ok z0 counted_ops [] z0 z (tt_nil _ _) Ez)|].
  assert (He : forall e s, In (TAccept e s) counted_ops -> e = exenv) by (intros e s [E|[E|[]]]; now injection E).
  split; [split; [|split; [lia|split; [repeat constructor; cbn; lia|split; vm_compute; discriminate]]]|].
  { intros e s Hi. apply in_app_or in Hi as [Hi|[Hi|[]]]; [|discriminate Hi]. rewrite (He e s Hi). exact exenv_ok. }
  split; [|split; [intros [G|[G|[]]]; discriminate G|split; [vm_compute; reflexivity|split; [exact Eu|split; [exact Ea|exact Ef]]]]].
  split; [intros e s Hi; rewrite (He e s Hi); exact exenv_draws|]. split; [lia|]. exists [txt "a"; txt "b"; txt "c"]. split; [cbn; lia|].
  intros w (s & ws & Hs & Hw & Hi). assert (Ha : ascii_text s) by (destruct Hs as [<-|[<-|[]]]; intros c Hc; repeat (destruct Hc as [<-|Hc]; [split; [apply Z.leb_le|apply Z.ltb_lt]; reflexivity|]); destruct Hc).
  destruct Hs as [<-|[<-|[]]].
  - rewrite (char_tokens _ (txt "abbac") ws Ha eq_refl Hw) in Hi. cbn in Hi. cbn. intuition subst; auto.
  - rewrite (char_tokens _ (txt "b") ws Ha eq_refl Hw) in Hi. cbn in Hi. cbn. intuition subst; auto.
Qed.
(** Fitting on two texts (C49). *)
Example C80_fit_case : exists codes tk ops al, tok_transform_all true (new_tok CharTok) pair_texts = Ok (codes, tk) /\
  good_fit exf 10 10 [] (listed [0; 1]%Z 100) (new_vgram exf 10 1) codes ops al /\ (forall x : text, In x pair_texts -> (Z.of_nat (length x) <= 3)%Z) /\
  (1 * Z.of_nat (length pair_texts) * 3 < 1152)%Z.
Proof.
  destruct pair_codes as [tk E]. do 4 eexists. split; [exact E|]. split; [exact pair_good|]. split; [|reflexivity]. intros x [<-|[<-|[]]]; cbn; lia.
Qed.

(** C35: the minimum probability reported is the one right after the latest reduction, however the builder has gone on since. *)
Theorem C35_reported : forall fl size ops m b, mhist fl (new_builder fl size) ops m b ->
  get_min_probability fl b = match m with Some x => x | None => fofZ fl (-1) end.
Proof. exact minp_reported. Qed.
Print Assumptions C35_reported.
Theorem C35_every_history : forall fl b0 ops b, bhist fl b0 ops b -> exists m, mhist fl b0 ops m b.
Proof. exact mhist_exists. Qed.
Print Assumptions C35_every_history.
Example C35_case : exists m b, mhist exf (new_builder exf 7) (accepts exf (runs [first_text; second_text])) (Some m) b.
Proof.
  destruct two_results as (b1 & b2 & _ & H). destruct (rhist_mhist exf _ _ _ _ H) as ([m|] & Hm & E); [now exists m, b2|].
  discriminate (proj1 E eq_refl).
Qed.
