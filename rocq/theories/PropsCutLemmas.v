(** Statements of PropsCut.v: dividing again what has been divided. *)
From Verif Require Import Base Spec FloatOps FloatLaws FloatIEEE FloatExample OrderProofs DictProofs ModelDict Maps ModelCoder ModelTok SpecCoder SpecTok
  CoderProofs TokProofs ModelStat ModelBuilder ModelStream ModelVGram ModelString ModelJson ModelPersist SpecStat SpecBuilder StatProofs RunProofs LearnProofs PropsDictLemmas
  PropsStatLemmas BuilderProofs BuilderSafe BuilderOwn ReachProofs PropsBuilderLemmas StreamProofs PropsStreamLemmas
  VGramProofs PropsVGramLemmas StringProofs PropsStringLemmas TextPersist CountsProofs SaveProofs KeepProofs BestProofs PropsBestLemmas CutProofs
  SpecStream SpecVGram SpecString SpecPersist SpecCounts SpecWeight SpecBest SpecKeep.

Lemma keep_all (S : list Z) s : (forall c, In c s -> In c S) -> restrict S s = s.
Proof.
  intro H. unfold restrict. induction s as [|c s IH]; [reflexivity|]. cbn [filter]. destruct (in_dec Z.eq_dec c S) as [_|n]; [|destruct n; apply H; now left].
  f_equal. apply IH. intros x Hx. apply H. now right.
Qed.

Section P.
  Context (fl : fops) (L : flaws fl).

  Lemma ready_cut S d z s ids a b s1 : ready fl S d z -> Forall (fun f => 0 <= f)%Z (zfreqs z) -> ztotal z = zsum (zfreqs z) -> (zsum (zfreqs z) <= 2 ^ 52)%Z ->
    covers (map (decw S) (seqs d)) (restrict S s) -> (Z.of_nat (length s) <= 2 ^ 40)%Z -> s_parse fl z s = Ok (ids, z) -> ids = a ++ b ->
    spells (map (decw S) (seqs d)) a (restrict S s1) -> s_parse fl z s1 = Ok (a, z).
  Proof.
    intros R Hf Ht Hz Hc Hl Ep Eab Hs1. destruct (ready_best fl L S d z s R Hf Ht Hz Hc Hl) as (ids' & Ep' & Hsp & _). rewrite Ep in Ep'. injection Ep' as <-.
    destruct (ready_cover fl _ _ _ _ R Hc) as [Hk Hcd].
    pose proof (spells_enc S _ _ _ (rd_nodup _ _ _ _ R) (rd_range _ _ _ _ R) Hsp) as Hse. pose proof (spells_enc S _ _ _ (rd_nodup _ _ _ _ R) (rd_range _ _ _ _ R) Hs1) as Hse1.
    unfold s_parse in *. rewrite (like_immutable _ _ s (rd_coder _ _ _ _ R)) in Ep. rewrite (like_immutable _ _ s1 (rd_coder _ _ _ _ R)). unfold alpha in *. destruct (rd_res _ _ _ _ R) as [da Eda].
    rewrite Eda in *. cbn [bind] in *. destruct (mk_dict_spec (seqs da)) as (dm & Edm & _). rewrite Edm in *. cbn [bind] in *. destruct (ready_the fl _ _ _ R) as (p & Ed & Hg & Ethe). rewrite Ethe in *. cbn [bind] in *.
    destruct (dict_best fl L d (enc S (restrict S s)) (zfreqs z) (rd_full _ _ _ _ R) (rd_ne _ _ _ _ R) Hcd Hf Hz) as (ids' & E & _).
    { unfold enc. rewrite map_length. pose proof (restrict_length S s). lia. } { exact (rd_size _ _ _ _ R). }
    rewrite Ht in *. rewrite E in Ep. cbn [bind] in Ep. injection Ep as -> _.
    rewrite (parse_cut fl d (zfreqs z) _ (rd_full _ _ _ _ R) (rd_ne _ _ _ _ R) _ _ _ a b _ E Hcd Eab Hse1 Hse). cbn [bind]. now rewrite put_same.
  Qed.

  Section Sim.
    Context (ws0 : list seq) (syms0 : list Z) (z0 : stream fl) (B Size N T0 : Z).
    Context (Z0 : start_stream fl L ws0 syms0 z0 B Size T0) (HB : (B = kmax + N)%Z) (HSz : (Size <= 2 ^ 49)%Z).
    Context (a0 : nat) (d00 : dict) (st00 : sstat fl).
    Context (S0 : sinv fl L ws0 a0 [] [] (zb z0) d00 d00 st00 []) (Hcl : symbol_closed ws0).
    Context (Hwl : Forall (fun w : seq => Z.of_nat (length w) <= 2 ^ 40)%Z ws0) (Ha : (Z.of_nat a0 <= bsize (zb z0))%Z).
    Context (F0 : hfull fl (zb z0)) (O0 : own_inv fl (0, 0, phase_of fl (zb z0)) [] (zb z0)).

    Lemma hist_cut ops z s al ids z' a b s1 : shist fl z0 ops z -> normal fl N ops -> room T0 -> has_room fl syms0 z0 ops -> calm fl syms0 z0 ops ->
      s_alphabet fl z = Ok al -> covers al (restrict (syms0 ++ seen fl ops) s) -> (Z.of_nat (length s) <= 2 ^ 40)%Z ->
      s_parse fl z s = Ok (ids, z') -> ids = a ++ b -> spells al a (restrict (syms0 ++ seen fl ops) s1) -> s_parse fl z' s1 = Ok (a, z').
    Proof.
      intros H Hn HR Hr Hc Hal Hcov Hl Ep Eab Hs1.
      destruct (hist_best fl L ws0 syms0 z0 B Size N T0 Z0 HB HSz a0 d00 st00 S0 Hcl Hwl Ha F0 O0 ops z s al H Hn HR Hr Hc Hal Hcov Hl) as (ids' & Ep' & _). rewrite Ep in Ep'. injection Ep' as <- ->.
      destruct (sim_exists fl L ws0 syms0 z0 B Size N T0 Z0 HB HSz ops z H Hn) as [bops S].
      destruct (hist_ready fl L ws0 syms0 z0 B Size N T0 Z0 HB HSz a0 d00 st00 S0 Hcl Hwl Ha F0 O0 ops z al H Hn Hr Hc Hal) as (d & R & ->).
      rewrite <- restrict_symbols in *. apply (ready_cut _ d z s ids a b s1 R); try assumption.
      - exact (sm_freqs _ _ _ _ _ _ _ _ _ _ _ _ S).
      - exact (sm_total _ _ _ _ _ _ _ _ _ _ _ _ S).
      - pose proof (sm_sum _ _ _ _ _ _ _ _ _ _ _ _ S) as Hs. pose proof Hn as (_ & (_ & _ & _ & Hu)). unfold room in HR. unfold kmax in Hs. lia.
    Qed.
  End Sim.

  Lemma fresh_cut size N ops z s al ids z' a b s1 : shist fl (new_stream fl size) ops z -> normal fl N ops -> roomy fl size ops ->
    calm fl [] (new_stream fl size) ops -> s_alphabet fl z = Ok al -> covers al (restrict (seen fl ops) s) ->
    (Z.of_nat (length s) <= 2 ^ 40)%Z -> s_parse fl z s = Ok (ids, z') -> ids = a ++ b -> spells al a (restrict (seen fl ops) s1) -> s_parse fl z' s1 = Ok (a, z').
  Proof.
    intros H Hn Hr Hc Hal Hcov Hl. pose proof Hr as (_ & H1 & _).
    refine (hist_cut [] [] (new_stream fl size) (kmax + N) 0 N 0 (fresh_start fl L size N (normal_N fl _ _ Hn)) eq_refl size0
      0 empty_dict _ (fresh_sinv fl L (size - 1)) no_symbols (Forall_nil _) _ (fresh_full fl _) (fresh_own fl _)
      ops z s al ids z' a b s1 H Hn room0 (fresh_room fl _ _ Hr) Hc Hal Hcov Hl).
    cbn. lia.
  Qed.
  Lemma loaded_cut N syms c freqs ws size mp z0 : (0 <= N <= 2 ^ 40)%Z -> loadable fl N syms c freqs ws mp ->
    loaded_stream fl c freqs ws size mp = Ok z0 -> forall ops z s al ids z' a b s1, shist fl z0 ops z -> normal fl N ops -> roomy_loaded fl syms ws ops ->
    calm fl syms z0 ops -> s_alphabet fl z = Ok al -> covers al (restrict (syms ++ seen fl ops) s) -> (Z.of_nat (length s) <= 2 ^ 40)%Z ->
    s_parse fl z s = Ok (ids, z') -> ids = a ++ b -> spells al a (restrict (syms ++ seen fl ops) s1) -> s_parse fl z' s1 = Ok (a, z').
  Proof.
    intros HN HL E ops z s al ids z' a b s1 H Hn Hr Hc Hal Hcov Hl.
    destruct (loaded_safe fl L N syms c freqs ws size mp z0 HN HL E) as (d0 & st0 & S & Ha & F & O & _).
    exact (hist_cut (isort ws) syms z0 (kmax + N) _ N _ (loaded_start fl L N syms c freqs ws size mp z0 HN HL E) eq_refl
      (loaded_size fl N syms c freqs ws mp HL) _ d0 st0 S (loaded_closed fl N syms c freqs ws mp HL) (loaded_words fl N syms c freqs ws mp HL) Ha F O
      ops z s al ids z' a b s1 H Hn room50 (loaded_room fl L N syms c freqs ws size mp z0 HN HL E _ Hr) Hc Hal Hcov Hl).
  Qed.
  Lemma fitted_cut_stream size N ops0 w v xs ops al v' s ids a b s1 : good_fit fl size N ops0 w v xs ops al -> fit fl w v xs = Ok (true, v') ->
    covers al (restrict (seen fl ops) s) -> (Z.of_nat (length s) <= 2 ^ 40)%Z -> s_parse fl (vs v') s = Ok (ids, vs v') -> ids = a ++ b ->
    spells al a (restrict (seen fl ops) s1) -> s_parse fl (vs v') s1 = Ok (a, vs v').
  Proof.
    intros G Ef Hc Hl Ep Eab Hs1. destruct (good_start fl L _ _ _ _ _ _ _ _ G) as (z & d & fs & b0 & acc & E & R & Eal & Hcr & _). rewrite Ef in E. injection E as ->.
    assert (ES : forall s, restrict (seen fl ops) s = restrict (symbols_of fl [] ops) s).
    { intro y. apply restrict_ext. intro c. unfold symbols_of. rewrite adds_in. cbn [In]. tauto. }
    assert (Hne : ~ In [] (map (decw (symbols_of fl [] ops)) (seqs d))).
    { intro Hi. apply in_map_iff in Hi as (u & Eu & Hu). destruct u; [|discriminate Eu]. now apply (rd_ne _ _ _ _ R [] Hu). }
    rewrite Eal in *. destruct (counts_sum _ _ _ Hne Hcr) as [Hf Hz]. destruct G as (_ & _ & _ & _ & _ & _ & _ & _ & _ & _ & Ht). rewrite !ES in *.
    match type of R with ready _ _ _ (vs ?v0) => set (v1 := v0) in * end.
    refine (ready_cut _ d (vs v1) s ids a b s1 R Hf eq_refl _ Hc Hl Ep Eab Hs1). unfold v1. cbn [vs zfreqs]. lia.
  Qed.
  (** A batch of one sequence is not interrupted. *)
  Lemma transform_one w v y ids : s_parse fl (vs v) y = Ok (ids, vs v) -> transform fl w v [y] = Ok ([ids], v).
  Proof. intro E. unfold transform. cbn [transform_loop]. rewrite E. cbn [bind]. unfold on_stream. destruct (w_term w 0); cbn [bind]; now destruct v. Qed.
  Lemma fitted_cut size N ops0 w v xs ops al v' s : good_fit fl size N ops0 w v xs ops al -> fit fl w v xs = Ok (true, v') ->
    covers al (restrict (seen fl ops) s) -> (Z.of_nat (length s) <= 2 ^ 40)%Z ->
    exists ids, (forall w1, transform fl w1 v' [s] = Ok ([ids], v')) /\
      forall a b s1, ids = a ++ b -> spells al a (restrict (seen fl ops) s1) -> forall w1, transform fl w1 v' [s1] = Ok ([a], v').
  Proof.
    intros G Ef Hc Hl. destruct (fitted_best fl L _ _ _ _ _ _ _ _ _ [] G Ef ltac:(easy)) as (_ & _ & _).
    destruct (fitted_parses fl L _ _ _ _ _ _ _ _ v' G Ef s Hc Hl) as (ids & Ep & _). exists ids. split; [intro; now apply transform_one|].
    intros a b s1 Eab Hs1 w1. apply transform_one. exact (fitted_cut_stream _ _ _ _ _ _ _ _ _ _ _ _ _ _ G Ef Hc Hl Ep Eab Hs1).
  Qed.

  (** ** Texts *)
  Lemma decode_same (tk tk' : tokenizer) v : tok_ok tk -> tok_ok tk' -> tok_ext tk tk' -> (forall i, In i v -> exists x, mfind seq_eqb (tfwd tk) [x] = Some i) -> tok_decode tk' v = tok_decode tk v.
  Proof.
    intros (_ & B & _) (_ & B' & _) [_ E]. induction v as [|i v IH]; intro H; [reflexivity|]. cbn [tok_decode]. rewrite IH by (intros; apply H; now right).
    destruct (H i (or_introl eq_refl)) as (x & Hx). now rewrite (proj1 (B _ _) Hx), (proj1 (B' _ _) (E _ _ Hx)).
  Qed.
  Lemma coded_chars tk v : tok_ok tk -> (forall i, In i v -> exists x, mfind seq_eqb (tfwd tk) [x] = Some i) -> coded tk (map (fun c => [c]) (tok_decode tk v)) v.
  Proof.
    intros Hk. pose proof Hk as (_ & B & _). induction v as [|i v IH]; intro H; [constructor|]. cbn [tok_decode]. destruct (H i (or_introl eq_refl)) as (x & Hx).
    rewrite (proj1 (B _ _) Hx). cbn [app map]. constructor; [exact Hx|]. apply IH. intros; apply H; now right.
  Qed.
  (** Reading the normal form of pieces gives the codes that the pieces came from. *)
  Lemma recode tk va y : tok_ok tk -> tkind tk = CharTok -> (forall v i, In v va -> In i v -> exists x, mfind seq_eqb (tfwd tk) [x] = Some i) ->
    ascii_text y -> normal_form y (concat (map (tok_decode tk) va)) ->
    exists tk2, tok_transform true tk y = Ok (concat va, tk2) /\ tok_ok tk2 /\ tok_ext tk tk2 /\ map (tok_decode tk2) va = map (tok_decode tk) va.
  Proof.
    intros Hk Ek H Hy Hn. destruct (transform_total tk y Hk) as (c & tk2 & E); [now rewrite Ek|]. exists tk2.
    destruct (transform_coded _ _ _ _ Hk E) as (ws & Hw & Hk2 & He & Hc). rewrite Ek in Hw.
    assert (Hw' : tokens_of CharTok y (map (fun c => [c]) (concat (map (tok_decode tk) va)))) by (now exists (concat (map (tok_decode tk) va))). rewrite (tokens_fun _ _ _ _ Hw Hw') in Hc.
    rewrite <- decode_concat in Hc. assert (H' : forall i, In i (concat va) -> exists x, mfind seq_eqb (tfwd tk) [x] = Some i) by (intros i Hi; apply in_concat in Hi as (v & Hv & Hi); now apply (H v)).
    rewrite (coded_fun _ _ _ _ Hc (coded_ext _ _ _ _ He (coded_chars tk _ Hk H'))) in E. split; [exact E|]. split; [exact Hk2|]. split; [exact He|].
    apply map_ext_in. intros v Hv. apply decode_same; try assumption. intros i Hi. now apply (H v).
  Qed.
  Lemma single_code tk texts i : (exists w, mfind seq_eqb (tfwd tk) w = Some i /\ token_in CharTok texts w) -> exists x, mfind seq_eqb (tfwd tk) [x] = Some i.
  Proof. intros (w & H1 & H2). destruct (token_alnum _ _ H2) as (x & -> & _). now exists x. Qed.

  Lemma text_cut size inner z0 N ops z s al p q z' : new_tstream fl size inner false = Ok z0 -> thist fl z0 ops z -> tnormal fl N ops -> troomy fl CharTok size ops -> tcalm fl z0 ops ->
    t_alphabet fl z = Ok al -> ascii_text s -> (Z.of_nat (length s) <= 2 ^ 40)%Z -> (forall w, token_in CharTok [s] w -> token_in CharTok (tfed fl ops) w -> In w al) ->
    t_parse fl true z s = Ok (p ++ q, z') -> forall y, ascii_text y -> normal_form y (concat p) -> exists z'', t_parse fl true z' y = Ok (p, z'').
  Proof.
    intros E0 H Hn Hr Hcalm Hal Hs Hl Hcov Ep y Hy Hny. destruct (calm_int fl L size inner z0 N ops z E0 H Hn Hcalm) as (iops & Hsh & Hc & Hk & [Ek _] & Hcl). cbn [tkind new_tok] in Ek.
    destruct (coded_normal fl _ _ _ _ _ Hc Hn) as [Hin _]. pose proof (coded_roomy fl _ _ _ _ _ Hk Hc Hr) as Hir.
    destruct (new_chars fl _ _ _ E0) as [Es Et]. pose proof (met_alnum fl z0 ops z Et H) as Ha.
    unfold t_alphabet in Hal. apply bind_ok in Hal as (ial & Hial & [= <-]).
    unfold t_parse in Ep. apply bind_ok in Ep as ([c tk] & Etr & Ep). apply bind_ok in Ep as ([r z1] & Epp & Ep). apply bind_ok in Ep as (l & El & Ep). injection Ep as -> <-.
    destruct (transform_coded _ _ _ _ Hk Etr) as (ws & Hws & Hk1 & He1 & Hcd). rewrite Ek in Hws.
    pose proof (tokens_len _ _ _ Hws) as L1. pose proof (Forall2_len _ _ _ Hcd) as L2.
    assert (Hlc : (Z.of_nat (length c) <= 2 ^ 40)%Z) by (unfold text, seq in *; lia).
    assert (Hcc : covers ial (restrict (seen fl iops) c)).
    { intros i Hi. apply restrict_in in Hi as [Hi Hk']. destruct (seen_token fl CharTok (ttok z) ops iops i Hk Hc Hk') as (w & Hw' & Htk).
      apply (alphabet_covers fl L size N ops iops (ttok z) (tst z) ial Hsh Hin Hk Ha Hc Hial w i Hw'). apply Hcov; [|exact Htk].
      exists s, ws. split; [now left|]. split; [exact Hws|]. destruct (coded_in _ _ _ _ Hcd Hi) as (w' & Hi' & Hw2). now rewrite (code_inj _ _ _ _ Hk1 (proj2 He1 _ _ Hw') Hw2). }
    destruct (fresh_best fl L size N iops (tst z) c ial Hsh Hin Hir Hcl Hial Hcc Hlc) as (r' & Epp' & Hsp & _). rewrite Epp in Epp'. injection Epp' as <- ->.
    destruct (spells_in _ _ _ Hsp) as (us & Hu & Hcu & Hui). rewrite (token_words_spec fl (tst z) tk ial r us Hial Hu) in El. injection El as El.
    apply map_eq_app in El as (ua & ub & -> & <- & <-). apply Forall2_app_inv_r in Hu as (a & b & Hua & Hub & ->).
    assert (Hch : forall v i, In v ua -> In i v -> exists x, mfind seq_eqb (tfwd tk) [x] = Some i).
    { intros v i Hv Hi. pose proof (words_seen fl L size N iops (tst z) ial Hsh Hin Hial v i (Hui v (in_or_app _ _ _ (or_introl Hv))) Hi) as Hsn.
      destruct (seen_token fl CharTok (ttok z) ops iops i Hk Hc Hsn) as (w & Hw & Htk). apply (single_code tk (tfed fl ops)). exists w. split; [now apply He1|exact Htk]. }
    pose proof He1 as [Ek1 _]. destruct (recode tk ua y Hk1 ltac:(congruence) Hch Hy Hny) as (tk2 & Etr2 & Hk2 & He2 & Hd2).
    unfold t_parse. cbn [ttok tst]. rewrite Etr2. cbn [bind].
    rewrite (fresh_cut size N iops (tst z) c ial (a ++ b) (tst z) a b (concat ua) Hsh Hin Hir Hcl Hial Hcc Hlc Epp eq_refl).
    - cbn [bind]. rewrite (token_words_spec fl (tst z) tk2 ial a ua Hial Hua). cbn [bind]. rewrite Hd2. eexists. reflexivity.
    - rewrite keep_all; [exists ua; now split|]. intros i Hi. apply in_concat in Hi as (v & Hv & Hi). exact (words_seen fl L size N iops (tst z) ial Hsh Hin Hial v i (Hui v (in_or_app _ _ _ (or_introl Hv))) Hi).
  Qed.

  Lemma text_fitted_cut size N iter w texts codes tk ops al : tok_transform_all true (new_tok CharTok) texts = Ok (codes, tk) ->
    good_fit fl size N [] w (new_vgram fl size iter) codes ops al ->
    exists v, tv_fit fl true w (new_tvgram fl size iter) texts = Ok v /\
    forall v1 s, transformed fl v v1 -> ascii_text s -> (Z.of_nat (length s) <= 2 ^ 40)%Z ->
    exists pieces v2, (forall w1, tv_transform fl true w1 v1 [s] = Ok ([join pieces], v2)) /\ ~ In [] pieces /\
      (forall u c, In u pieces -> In c u -> token_in CharTok texts [c]) /\
      forall p q y, pieces = p ++ q -> ascii_text y -> normal_form y (concat p) -> exists v3, forall w1, tv_transform fl true w1 v2 [y] = Ok ([join p], v3).
  Proof.
    intros Et G. destruct (fit_reader fl L CharTok _ _ _ _ _ _ _ _ _ Et G) as (v & Ef & R). exists (mkTVGram v tk). split.
    { unfold tv_fit, new_tvgram, new_tvgram_with. cbn [tvtok tv]. rewrite Et. cbn [bind]. rewrite Ef. reflexivity. }
    intros v1 s Hv1 Hs Hl. destruct (reader_transformed fl _ _ _ _ _ _ _ R Hv1) as (tk1 & -> & R1).
    destruct (transform_total tk1 s (re_tok _ _ _ _ _ _ _ R1)) as (c & tk2 & Etr); [now rewrite (re_kind _ _ _ _ _ _ _ R1)|].
    destruct (transform_coded _ _ _ _ (re_tok _ _ _ _ _ _ _ R1) Etr) as (ws & Hws & Hk2 & He2 & Hcd). rewrite (re_kind _ _ _ _ _ _ _ R1) in Hws.
    pose proof (reader_ext fl _ _ _ _ _ _ _ R1 Hk2 He2) as R2. pose proof (tokens_len _ _ _ Hws) as L1. pose proof (Forall2_len _ _ _ Hcd) as L2.
    assert (Hlc : (Z.of_nat (length c) <= 2 ^ 40)%Z) by (unfold text, seq in *; lia).
    destruct (re_parse _ _ _ _ _ _ _ R2 c Hlc) as (ids & Hp & Hsp). destruct (spells_in _ _ _ Hsp) as (us & Hu & Hcu & Hui).
    assert (Hone : forall tk' tk'' y c' ids' us' w1, reader fl CharTok texts v tk'' (seen fl ops) al -> tok_transform true tk' y = Ok (c', tk'') -> s_parse fl (vs v) c' = Ok (ids', vs v) ->
      Forall2 (word_at al) ids' us' -> (forall u, In u us' -> In u al) -> tv_transform fl true w1 (mkTVGram v tk') [y] = Ok ([join (map (tok_decode tk'') us')], mkTVGram v tk'')).
    { intros tk' tk'' y c' ids' us' w1 R' E1 E2 F2 Hin. unfold tv_transform, tok_transform_all. cbn [mapM tvtok tv]. rewrite E1. cbn [bind]. rewrite (transform_one w1 v c' ids' E2). cbn [bind].
      rewrite (re_al _ _ _ _ _ _ _ R'). cbn [bind decoded_all]. rewrite (decoded_join tk'' al ids' us' F2).
      - reflexivity.
      - intro Hi. apply in_map_iff in Hi as (u & Eu & Hu'). now apply (reader_word fl _ _ _ _ _ _ u R' (Hin u Hu')). }
    exists (map (tok_decode tk2) us), (mkTVGram v tk2). split; [intro w1; now apply (Hone tk1 tk2 s c ids us w1)|].
    split; [intro Hi; apply in_map_iff in Hi as (u & Eu & Hu'); now apply (reader_word fl _ _ _ _ _ _ u R2 (Hui u Hu'))|].
    split.
    { intros u c0 Hiu Hc0. apply in_map_iff in Hiu as (v0 & <- & Hv0). assert (Hkn : forall i, In i v0 -> exists u, mfind seq_eqb (tfwd tk2) u = Some i /\ token_in CharTok texts u)
        by (intros i Hi; exact (re_known _ _ _ _ _ _ _ R2 i (re_sym _ _ _ _ _ _ _ R2 v0 i (Hui v0 Hv0) Hi))). clear -Hk2 Hkn Hc0. destruct Hk2 as (_ & B & _).
      induction v0 as [|i v0 IH]; [destruct Hc0|]. cbn [tok_decode] in Hc0. destruct (Hkn i (or_introl eq_refl)) as (u & Hu1 & Hu2). rewrite (proj1 (B _ _) Hu1) in Hc0.
      apply in_app_or in Hc0 as [Hc0|Hc0]; [|apply IH; [exact Hc0|intros; apply Hkn; now right]]. destruct (token_alnum _ _ Hu2) as (x & -> & _). destruct Hc0 as [<-|[]]. exact Hu2. }
    intros p q y Ea Hy Hny. apply map_eq_app in Ea as (ua & ub & -> & <- & <-). apply Forall2_app_inv_r in Hu as (a & b & Hua & Hub & ->).
    assert (Hua' : forall u, In u ua -> In u al) by (intros u Hx; apply Hui, in_or_app; now left).
    destruct (recode tk2 ua y Hk2 (re_kind _ _ _ _ _ _ _ R2)) as (tk3 & Etr3 & Hk3 & He3 & Hd3); [|exact Hy|exact Hny|].
    { intros u i Hx Hi. apply (single_code tk2 texts). exact (re_known _ _ _ _ _ _ _ R2 i (re_sym _ _ _ _ _ _ _ R2 u i (Hua' u Hx) Hi)). }
    exists (mkTVGram v tk3). intro w1. rewrite <- Hd3. apply (Hone tk2 tk3 y (concat ua) a ua w1); try assumption; [exact (reader_ext fl _ _ _ _ _ _ _ R2 Hk3 He3)|].
    apply (fitted_cut_stream _ _ _ _ _ _ _ _ _ c (a ++ b) a b (concat ua) G Ef); try assumption; [|reflexivity|].
    - intros i Hi. apply restrict_in in Hi as [_ Hi]. pose proof G as (_ & _ & Eops & _ & _ & _ & _ & _ & _ & Hx & _).
      rewrite Eops in Hi. apply drawn_in in Hi as [[]|Hi]. apply in_concat in Hi as (x & Hxx & Hi). exact (proj1 (Hx x Hxx) i Hi).
    - rewrite keep_all; [exists ua; now split|]. intros i Hi. apply in_concat in Hi as (u & Hx & Hi). exact (re_sym _ _ _ _ _ _ _ R2 u i (Hua' u Hx) Hi).
  Qed.

  Lemma kept_lower c l : In (c, l) SpecTok.kept -> In (l, l) SpecTok.kept.
  Proof.
    intro H. assert (G : forallb (fun p => existsb (fun q => Z.eqb (fst q) (snd p) && Z.eqb (snd q) (snd p)) SpecTok.kept) SpecTok.kept = true) by (vm_compute; reflexivity).
    rewrite forallb_forall in G. specialize (G _ H). apply existsb_exists in G as ([x y] & Hi & E). apply andb_true_iff in E as [E1 E2]. apply Z.eqb_eq in E1, E2. cbn [fst snd] in *. now subst.
  Qed.
  Lemma normal_lower s n : normal_form s n -> forall c, In c n -> In (c, c) SpecTok.kept.
  Proof. induction 1 as [|c l s r Hk H IH|c s r Hk H IH]; intros x Hx; [easy| |now apply IH]. destruct Hx as [<-|Hx]; [exact (kept_lower _ _ Hk)|now apply IH]. Qed.
  Lemma normal_app s1 n1 s2 n2 : normal_form s1 n1 -> normal_form s2 n2 -> normal_form (s1 ++ s2) (n1 ++ n2).
  Proof. intros H1 H2. induction H1 as [|c l s r Hk H IH|c s r Hk H IH]; cbn [app]; [exact H2|now apply nf_keep|now apply nf_drop]. Qed.
  Lemma normal_self s : (forall c, In c s -> In (c, c) SpecTok.kept) -> normal_form s s.
  Proof. induction s as [|c s IH]; intro H; constructor; [apply H; now left|]. apply IH. intros; apply H; now right. Qed.
  Lemma normal_join ps : (forall p c, In p ps -> In c p -> In (c, c) SpecTok.kept) -> normal_form (join ps) (concat ps).
  Proof.
    induction ps as [|p ps IH]; intro H; [constructor|]. cbn [concat]. assert (Hp : normal_form p p) by (apply normal_self; intros c Hc; apply (H p); [now left|exact Hc]).
    assert (Ht : normal_form (join ps) (concat ps)) by (apply IH; intros u c Hu; apply H; now right). destruct ps as [|q ps]; [cbn [join concat] in *; now rewrite app_nil_r|].
    change (join (p :: q :: ps)) with (p ++ 32%Z :: join (q :: ps)). apply normal_app; [exact Hp|]. apply nf_drop; [|exact Ht]. intros l Hl. apply kept_lower in Hl as Hl'. apply kept_range in Hl'.
    assert (G : forallb (fun q => negb (Z.eqb (fst q) 32)) SpecTok.kept = true) by (vm_compute; reflexivity). rewrite forallb_forall in G. specialize (G _ Hl). discriminate G.
  Qed.
  Lemma join_chars ps c : In c (join ps) -> c = 32%Z \/ exists p, In p ps /\ In c p.
  Proof.
    induction ps as [|p ps IH]; [easy|]. destruct ps as [|q ps]; [intro H; right; exists p; split; [now left|exact H]|].
    change (join (p :: q :: ps)) with (p ++ 32%Z :: join (q :: ps)). intro H. apply in_app_or in H as [H|[H|H]]; [right; exists p; split; [now left|exact H]|now left|].
    destruct (IH H) as [E|(u & Hu & Hc)]; [now left|]. right. exists u. split; [now right|exact Hc].
  Qed.
  Lemma text_fitted_again size N iter w texts codes tk ops al : tok_transform_all true (new_tok CharTok) texts = Ok (codes, tk) ->
    good_fit fl size N [] w (new_vgram fl size iter) codes ops al ->
    exists v, tv_fit fl true w (new_tvgram fl size iter) texts = Ok v /\
    forall v1 s, transformed fl v v1 -> ascii_text s -> (Z.of_nat (length s) <= 2 ^ 40)%Z ->
    exists pieces v2, (forall w1, tv_transform fl true w1 v1 [s] = Ok ([join pieces], v2)) /\ ~ In [] pieces /\
      (forall p q y, pieces = p ++ q -> ascii_text y -> normal_form y (concat p) -> exists v3, forall w1, tv_transform fl true w1 v2 [y] = Ok ([join p], v3)) /\
      (forall p q, pieces = p ++ q -> exists v3, forall w1, tv_transform fl true w1 v2 [join p] = Ok ([join p], v3)).
  Proof.
    intros Et G. destruct (text_fitted_cut _ _ _ _ _ _ _ _ _ Et G) as (v & Ef & H). exists v. split; [exact Ef|]. intros v1 s H1 H2 H3.
    destruct (H v1 s H1 H2 H3) as (ps & v2 & Ho & Hne & Hc & Hcut). exists ps, v2. split; [exact Ho|]. split; [exact Hne|]. split; [exact Hcut|].
    intros p q E. assert (Hl : forall u c, In u p -> In c u -> In (c, c) SpecTok.kept).
    { intros u c Hu Hcu. destruct (proj1 (token_char texts c) (Hc u c ltac:(rewrite E; apply in_or_app; now left) Hcu)) as (t & m & _ & Hn & Hi). exact (normal_lower _ _ Hn c Hi). }
    apply (Hcut p q (join p) E); [|now apply normal_join]. intros c Hcj. apply join_chars in Hcj as [->|(u & Hu & Hcu)]; [lia|]. exact (proj1 (kept_range _ _ (Hl u c Hu Hcu))).
  Qed.
End P.
