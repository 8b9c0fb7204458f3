(** Statements of PropsTextBest.v: the most probable division of a text. *)
From Coq Require Import Reals.
From Verif Require Import Base Spec FloatOps FloatLaws FloatIEEE FloatExample OrderProofs DictProofs ModelDict Maps ModelCoder ModelTok SpecCoder SpecTok
  CoderProofs TokProofs ModelStat ModelBuilder ModelStream ModelVGram ModelString ModelJson ModelPersist SpecStat SpecBuilder StatProofs RunProofs LearnProofs PropsDictLemmas
  PropsStatLemmas BuilderProofs BuilderSafe BuilderOwn ReachProofs PropsBuilderLemmas StreamProofs PropsStreamLemmas
  VGramProofs PropsVGramLemmas StringProofs PropsStringLemmas TextPersist CountsProofs SaveProofs KeepProofs BestProofs PropsBestLemmas CutProofs PropsCutLemmas
  SpecStream SpecVGram SpecString SpecPersist SpecCounts SpecWeight SpecBest SpecKeep SpecTextBest.

Definition char_code (tk : tokenizer) (i : Z) : Prop := exists x, mfind seq_eqb (tfwd tk) [x] = Some i.
Definition char_codes (tk : tokenizer) (v : seq) : Prop := forall i, In i v -> char_code tk i.

Lemma decode_inj tk v v' : tok_ok tk -> char_codes tk v -> char_codes tk v' -> tok_decode tk v = tok_decode tk v' -> v = v'.
Proof.
  intros Hk H H' E. pose proof (coded_chars tk v Hk H) as C. pose proof (coded_chars tk v' Hk H') as C'. rewrite E in C. exact (coded_fun _ _ _ _ C C').
Qed.
Lemma decode_app tk v v' : tok_decode tk (v ++ v') = tok_decode tk v ++ tok_decode tk v'.
Proof. induction v as [|i v IH]; [reflexivity|]. cbn [tok_decode app]. rewrite IH. destruct (mfind Z.eqb (tbwd tk) i); [now rewrite app_assoc|reflexivity]. Qed.
Lemma words_decoded (f : seq -> text) al : forall ids us, Forall2 (word_at al) ids us -> Forall2 (word_at (map f al)) ids (map f us).
Proof. induction 1 as [|i u ids us H Hr IH]; cbn [map]; constructor; [|exact IH]. unfold word_at in *. now apply map_nth_error. Qed.
Lemma words_coded (f : seq -> text) al : forall ids ws, Forall2 (word_at (map f al)) ids ws -> exists us, Forall2 (word_at al) ids us /\ ws = map f us.
Proof.
  induction 1 as [|i w ids ws H Hr (us & IH & ->)]; [now exists []|]. unfold word_at in H. rewrite nth_error_map in H. destruct (nth_error al i) as [u|] eqn:E; [|discriminate H].
  cbn in H. injection H as <-. exists (u :: us). split; [now constructor|reflexivity].
Qed.
Lemma spells_decoded tk al ids c : tok_ok tk -> (forall u, In u al -> char_codes tk u) -> char_codes tk c ->
  spells (tok_decode_all tk al) ids (tok_decode tk c) <-> spells al ids c.
Proof.
  intros Hk Ha Hc. unfold spells, tok_decode_all. split.
  - intros (ws & Hw & E). apply words_coded in Hw as (us & Hu & ->). exists us. split; [exact Hu|]. rewrite <- decode_concat in E. apply (decode_inj tk); try assumption.
    intros i Hi. apply in_concat in Hi as (u & Hu' & Hi). apply (Ha u); [|exact Hi]. clear -Hu Hu'. induction Hu as [|j w ids us H Hr IH]; [destruct Hu'|].
    destruct Hu' as [->|Hu']; [exact (nth_error_In _ _ H)|exact (IH Hu')].
  - intros (us & Hu & <-). exists (map (tok_decode tk) us). split; [now apply words_decoded|]. symmetry. apply decode_concat.
Qed.
Lemma probable_decoded fl freqs tk al ids c : tok_ok tk -> (forall u, In u al -> char_codes tk u) -> char_codes tk c ->
  most_probable fl freqs al ids c -> most_probable fl freqs (tok_decode_all tk al) ids (tok_decode tk c).
Proof.
  intros Hk Ha Hc [H1 H2]. split; [now apply spells_decoded|]. intros ids' H'. apply (spells_decoded tk al ids' c Hk Ha Hc) in H'. unfold tok_decode_all. rewrite map_length. exact (H2 _ H').
Qed.

Section P.
  Context (fl : fops) (L : flaws fl).

  Lemma known_codes texts known tk s ws c : tok_ok tk -> tokens_of CharTok s ws -> coded tk ws c ->
    (forall i, In i known -> exists w, mfind seq_eqb (tfwd tk) w = Some i /\ token_in CharTok texts w) ->
    (forall w, token_in CharTok texts w -> exists i, In i known /\ mfind seq_eqb (tfwd tk) w = Some i) ->
    known_part texts s (tok_decode tk (restrict known c)) /\ char_codes tk (restrict known c).
  Proof.
    intros Hk (n & Hn & ->) Hc K1 K2. destruct (restrict_only known (token_in CharTok texts) tk _ c Hc) as (ks & Ho & Hck).
    - intros w i Hwi. split.
      + intro Hi. destruct (K1 i Hi) as (w' & H1 & H2). now rewrite (code_inj _ _ _ _ Hk Hwi H1).
      + intro Hi. destruct (K2 w Hi) as (i' & H1 & H2). congruence.
    - split.
      + exists n. split; [exact Hn|]. destruct (only_single _ _ _ Ho) as (r & Hr & E). rewrite (decode_tokens _ _ _ Hk Hck). rewrite E.
        apply (only_ext (fun c => token_in CharTok texts [c])); [intro x; apply token_char|exact Hr].
      + intros i Hi. apply restrict_in in Hi as [_ Hi]. exact (single_code tk texts i (K1 i Hi)).
  Qed.

  Lemma token_seen k tk ops iops w : tok_ok tk -> Forall2 (coded_op fl k tk) ops iops -> token_in k (tfed fl ops) w ->
    exists i, In i (seen fl iops) /\ mfind seq_eqb (tfwd tk) w = Some i.
  Proof.
    intros Hk Hc Hw. assert (E : exists i, mfind seq_eqb (tfwd tk) w = Some i).
    { destruct Hw as (s & ws & Hs & Hws & Hi). unfold tfed in Hs. apply in_flat_map in Hs as (op & Hop & Hs). clear -Hc Hop Hs Hws Hi.
      induction Hc as [|op' iop ops iops Ho Hc IH]; [destruct Hop|]. destruct Hop as [->|Hop]; [|exact (IH Hop)].
      destruct op as [e t|t|], iop as [e' ids|ids|]; cbn [coded_op] in Ho; try easy. destruct Hs as [->|[]]. destruct Ho as (_ & ws' & Hw' & Hcd). rewrite (tokens_fun _ _ _ _ Hws Hw') in Hi.
      clear -Hcd Hi. induction Hcd as [|u j us js Hu Hcd IH]; [destruct Hi|]. destruct Hi as [->|Hi]; [now exists j|exact (IH Hi)]. }
    destruct E as (i & E). exists i. split; [|exact E]. now apply (coded_ops_seen fl k tk ops iops Hk Hc w i E).
  Qed.
  Lemma text_best size inner z0 N ops z s al : new_tstream fl size inner false = Ok z0 -> thist fl z0 ops z -> tnormal fl N ops -> troomy fl CharTok size ops -> tcalm fl z0 ops ->
    t_alphabet fl z = Ok al -> ascii_text s -> (Z.of_nat (length s) <= 2 ^ 40)%Z -> (forall w, token_in CharTok [s] w -> token_in CharTok (tfed fl ops) w -> In w al) ->
    exists ids pieces r z', t_parse fl true z s = Ok (pieces, z') /\ Forall2 (word_at al) ids pieces /\ known_part (tfed fl ops) s r /\ most_probable fl (t_freqs fl z) al ids r.
  Proof.
    intros E0 H Hn Hr Hcalm Hal Hs Hl Hcov. destruct (calm_int fl L size inner z0 N ops z E0 H Hn Hcalm) as (iops & Hsh & Hc & Hk & [Ek _] & Hcl). cbn [tkind new_tok] in Ek.
    destruct (coded_normal fl _ _ _ _ _ Hc Hn) as [Hin _]. pose proof (coded_roomy fl _ _ _ _ _ Hk Hc Hr) as Hir.
    destruct (new_chars fl _ _ _ E0) as [Es Et]. pose proof (met_alnum fl z0 ops z Et H) as Ha.
    unfold t_alphabet in Hal. apply bind_ok in Hal as (ial & Hial & [= <-]).
    destruct (transform_total (ttok z) s Hk) as (c & tk & Etr); [now rewrite Ek|]. unfold t_parse. rewrite Etr. cbn [bind].
    destruct (transform_coded _ _ _ _ Hk Etr) as (ws & Hws & Hk1 & He1 & Hcd). rewrite Ek in Hws.
    pose proof (tokens_len _ _ _ Hws) as L1. pose proof (Forall2_len _ _ _ Hcd) as L2.
    assert (Hlc : (Z.of_nat (length c) <= 2 ^ 40)%Z) by (unfold text, seq in *; lia).
    assert (Hcc : covers ial (restrict (seen fl iops) c)).
    { intros i Hi. apply restrict_in in Hi as [Hi Hk']. destruct (seen_token fl CharTok (ttok z) ops iops i Hk Hc Hk') as (w & Hw' & Htk).
      apply (alphabet_covers fl L size N ops iops (ttok z) (tst z) ial Hsh Hin Hk Ha Hc Hial w i Hw'). apply Hcov; [|exact Htk].
      exists s, ws. split; [now left|]. split; [exact Hws|]. destruct (coded_in _ _ _ _ Hcd Hi) as (w' & Hi' & Hw2). now rewrite (code_inj _ _ _ _ Hk1 (proj2 He1 _ _ Hw') Hw2). }
    destruct (fresh_best fl L size N iops (tst z) c ial Hsh Hin Hir Hcl Hial Hcc Hlc) as (ids & Epp & Hb). rewrite Epp. cbn [bind].
    destruct (spells_in _ _ _ (proj1 Hb)) as (us & Hu & Hcu & Hui). rewrite (token_words_spec fl (tst z) tk ial ids us Hial Hu). cbn [bind].
    assert (K1 : forall i, In i (seen fl iops) -> exists w, mfind seq_eqb (tfwd tk) w = Some i /\ token_in CharTok (tfed fl ops) w).
    { intros i Hi. destruct (seen_token fl CharTok (ttok z) ops iops i Hk Hc Hi) as (w & Hw & Htk). exists w. split; [now apply He1|exact Htk]. }
    assert (K2 : forall w, token_in CharTok (tfed fl ops) w -> exists i, In i (seen fl iops) /\ mfind seq_eqb (tfwd tk) w = Some i).
    { intros w Hw. destruct (token_seen CharTok (ttok z) ops iops w Hk Hc Hw) as (i & Hi & Hm). exists i. split; [exact Hi|now apply He1]. }
    destruct (known_codes _ _ tk s ws c Hk1 Hws Hcd K1 K2) as [Hkp Hcc1].
    assert (Hw1 : forall u, In u ial -> forall i, In i u -> In i (seen fl iops)) by (intros u Hu' i Hi; exact (words_seen fl L size N iops (tst z) ial Hsh Hin Hial u i Hu' Hi)).
    assert (Hsing : forall u, In u ial -> char_codes tk u) by (intros u Hu' i Hi; exact (single_code tk _ i (K1 i (Hw1 u Hu' i Hi)))).
    assert (Hsame : tok_decode_all (ttok z) ial = tok_decode_all tk ial).
    { apply map_ext_in. intros u Hu'. symmetry. apply decode_same; try assumption. intros i Hi. destruct (seen_token fl CharTok (ttok z) ops iops i Hk Hc (Hw1 u Hu' i Hi)) as (w & Hw & Htk).
      apply (single_code (ttok z) (tfed fl ops)). now exists w. }
    eexists ids, _, _, _. split; [reflexivity|]. rewrite Hsame. split; [unfold tok_decode_all; now apply words_decoded|]. split; [exact Hkp|]. now apply probable_decoded.
  Qed.

  Lemma reader_best texts v tk known al freqs : reader fl CharTok texts v tk known al ->
    (forall y : seq, (Z.of_nat (length y) <= 2 ^ 40)%Z -> exists ids, s_parse fl (vs v) y = Ok (ids, vs v) /\ most_probable fl freqs al ids (restrict known y)) ->
    forall ys, (forall y, In y ys -> ascii_text y /\ (Z.of_nat (length y) <= 2 ^ 40)%Z) ->
    exists outs tk', tok_ok tk' /\ tok_ext tk tk' /\ Forall2 (best_reading fl freqs texts (tok_decode_all tk' al)) ys outs /\
      forall w, exists m, kept (w_term w) (length ys) m /\ tv_transform fl true w (mkTVGram v tk) ys = Ok (firstn m outs, mkTVGram v tk').
  Proof.
    intros R P ys Hy. destruct (transform_all_total ys tk (re_tok _ _ _ _ _ _ _ R)) as (cs & tk' & Et).
    { intros s Hs. rewrite (re_kind _ _ _ _ _ _ _ R). now apply Hy. }
    destruct (transform_all_coded _ _ _ _ (re_tok _ _ _ _ _ _ _ R) Et) as (Hk' & He' & Hcs). rewrite (re_kind _ _ _ _ _ _ _ R) in Hcs.
    pose proof (reader_ext fl _ _ _ _ _ _ _ R Hk' He') as R'.
    assert (Hsing : forall u, In u al -> char_codes tk' u) by (intros u Hu i Hi; exact (single_code tk' texts i (re_known _ _ _ _ _ _ _ R' i (re_sym _ _ _ _ _ _ _ R' u i Hu Hi)))).
    assert (E : exists rs outs, Forall2 (fun c ids => s_parse fl (vs v) c = Ok (ids, vs v)) cs rs /\ Forall2 (fun ids out => decoded tk' al ids [] = Ok out) rs outs /\
      Forall2 (best_reading fl freqs texts (tok_decode_all tk' al)) ys outs).
    { clear Et. induction Hcs as [|y c ys cs (ws & Hw & Hc) Hcs IH]; [exists [], []; repeat constructor|].
      destruct IH as (rs & outs & I1 & I2 & I3); [intros u Hu; apply Hy; now right|]. destruct (Hy y (or_introl eq_refl)) as [_ Hl].
      pose proof (Forall2_len _ _ _ Hc) as L1. pose proof (tokens_len _ _ _ Hw) as L2.
      destruct (P c) as (ids & Hp & Hb); [unfold text, seq in *; lia|]. destruct (spells_in _ _ _ (proj1 Hb)) as (vs' & Hv & Hcv & Hva).
      assert (Hne : ~ In [] (map (tok_decode tk') vs')).
      { intro Hi. apply in_map_iff in Hi as (u & Eu & Hu). now apply (reader_word fl _ _ _ _ _ _ u R' (Hva u Hu)). }
      exists (ids :: rs), (join (map (tok_decode tk') vs') :: outs). split; [now constructor|]. split; [constructor; [exact (decoded_join tk' al ids vs' Hv Hne)|exact I2]|].
      constructor; [|exact I3]. destruct (known_codes texts known tk' y ws c Hk' Hw Hc (re_known _ _ _ _ _ _ _ R') (re_tokens _ _ _ _ _ _ _ R')) as [Hkp Hcc].
      exists ids, (map (tok_decode tk') vs'), (tok_decode tk' (restrict known c)). split; [now split|]. split; [now apply words_decoded|]. split; [exact Hkp|]. now apply probable_decoded. }
    destruct E as (rs & outs & E1 & E2 & E3). exists outs, tk'. split; [exact Hk'|]. split; [exact He'|]. split; [exact E3|]. intro w.
    destruct (batch_pure fl v cs rs E1 w) as (m & Hm & Ht). exists m. pose proof (Forall2_len _ _ _ Hcs) as L1. unfold text, seq in *. rewrite L1. split; [exact Hm|].
    unfold tv_transform. cbn [tvtok tv]. unfold text, seq in *. rewrite Et. cbn [bind]. rewrite Ht. cbn [bind]. rewrite (re_al _ _ _ _ _ _ _ R). cbn [bind].
    rewrite (decoded_all_spec tk' al (firstn m rs) (firstn m outs)); [easy|]. clear -E2. revert m. induction E2; intros [|m]; cbn [firstn]; constructor; auto.
  Qed.

  Lemma text_fitted_best size N iter w texts codes tk ops al : tok_transform_all true (new_tok CharTok) texts = Ok (codes, tk) ->
    good_fit fl size N [] w (new_vgram fl size iter) codes ops al ->
    exists v, tv_fit fl true w (new_tvgram fl size iter) texts = Ok v /\
    forall v1, transformed fl v v1 -> forall ys, (forall y, In y ys -> ascii_text y /\ (Z.of_nat (length y) <= 2 ^ 40)%Z) ->
    exists outs words v2, tv_alphabet fl v2 = Ok words /\ Forall2 (best_reading fl (tv_freqs fl v2) texts words) ys outs /\
      forall w', exists m, kept (w_term w') (length ys) m /\ tv_transform fl true w' v1 ys = Ok (firstn m outs, v2).
  Proof.
    intros Et G. destruct (fit_reader fl L CharTok _ _ _ _ _ _ _ _ _ Et G) as (v & Ef & R). exists (mkTVGram v tk). split.
    { unfold tv_fit, new_tvgram, new_tvgram_with. cbn [tvtok tv]. rewrite Et. cbn [bind]. rewrite Ef. reflexivity. }
    intros v1 Hv1 ys Hy. destruct (reader_transformed fl _ _ _ _ _ _ _ R Hv1) as (tk1 & -> & R1).
    destruct (reader_best texts v tk1 _ al (s_freqs fl (vs v)) R1) with (ys := ys) as (outs & tk2 & Hk2 & He2 & Hr & Hw); [|exact Hy|].
    - intros y Hl. assert (Hc : covers al (restrict (seen fl ops) y)).
      { intros i Hi. apply restrict_in in Hi as [_ Hi]. pose proof G as (_ & _ & Eops & _ & _ & _ & _ & _ & _ & Hx & _).
        rewrite Eops in Hi. apply drawn_in in Hi as [[]|Hi]. apply in_concat in Hi as (x & Hxx & Hi). exact (proj1 (Hx x Hxx) i Hi). }
      destruct (fitted_parses fl L _ _ _ _ _ _ _ _ v G Ef y Hc Hl) as (ids & Ep & _). exists ids. split; [exact Ep|].
      destruct (fitted_best fl L _ _ _ _ _ _ _ _ _ [y] G Ef) as (rs & Hrs & Hw); [intros y' [<-|[]]; now split|]. inversion Hrs as [|? ids' ? ? Hb Hnil]; subst. inversion Hnil; subst.
      destruct (Hw w) as (m & _ & Et1). rewrite (transform_one fl w v y ids Ep) in Et1. destruct m; cbn [firstn] in Et1; [discriminate Et1|]. rewrite firstn_nil in Et1. injection Et1 as <-. exact Hb.
    - exists outs, (tok_decode_all tk2 al), (mkTVGram v tk2). split; [|split; [exact Hr|exact Hw]]. unfold tv_alphabet. cbn [tv tvtok]. now rewrite (re_al _ _ _ _ _ _ _ R).
  Qed.
End P.

Lemma only_length {A} (P : A -> Prop) l r : only P l r -> (length r <= length l)%nat.
Proof. induction 1; cbn; lia. Qed.
Local Open Scope R_scope.
(** In exact numbers. *)
Lemma text_fitted_near lg : log_ok lg -> log_close lg -> forall size N iter w texts codes tk ops al, tok_transform_all true (new_tok CharTok) texts = Ok (codes, tk) ->
  good_fit (ieee lg) size N [] w (new_vgram (ieee lg) size iter) codes ops al ->
  exists v, tv_fit (ieee lg) true w (new_tvgram (ieee lg) size iter) texts = Ok v /\
  forall v1, transformed (ieee lg) v v1 -> forall ys, (forall y, In y ys -> ascii_text y /\ (Z.of_nat (length y) <= 2 ^ 40)%Z) ->
  exists outs words v2, tv_alphabet (ieee lg) v2 = Ok words /\ Forall2 (near_best_reading (tv_freqs (ieee lg) v2) texts words) ys outs /\
    forall w', exists m, kept (w_term w') (length ys) m /\ tv_transform (ieee lg) true w' v1 ys = Ok (firstn m outs, v2).
Proof.
  intros Hlg Hc size N iter w texts codes tk ops al Et G.
  destruct (text_fitted_best (ieee lg) (ieee_laws lg Hlg) _ _ _ _ _ _ _ _ _ Et G) as (v & Ef & H). exists v. split; [exact Ef|]. intros v1 Hv1 ys Hy.
  destruct (fit_reader (ieee lg) (ieee_laws lg Hlg) CharTok _ _ _ _ _ _ _ _ _ Et G) as (iv & Eif & R).
  assert (Ev : v = mkTVGram iv tk). { unfold tv_fit, new_tvgram in Ef. cbn [tvtok tv] in Ef. rewrite Et in Ef. cbn [bind] in Ef. rewrite Eif in Ef. cbn [bind] in Ef. now injection Ef as <-. }
  destruct (fitted_sizes (ieee lg) (ieee_laws lg Hlg) _ _ _ _ _ _ _ _ _ G Eif) as (Hf & Hz & Hne).
  subst v. destruct (H v1 Hv1 ys Hy) as (outs & words & v2 & Hal & Hb & Hw). exists outs, words, v2. split; [exact Hal|]. split; [|exact Hw].
  assert (T2 : transformed (ieee lg) (mkTVGram iv tk) v2).
  { destruct (Hw w) as (m & _ & Etr). refine (tf_step _ _ _ _ _ _ _ Hv1 _ Etr). apply Forall_forall. intros y Hyy. exact (proj2 (Hy y Hyy)). }
  destruct (reader_transformed (ieee lg) _ _ _ _ _ _ v2 R T2) as (tk2 & -> & R2). unfold tv_alphabet in Hal. cbn [tv tvtok] in Hal. rewrite (re_al _ _ _ _ _ _ _ R2) in Hal. cbn [bind] in Hal.
  injection Hal as <-. unfold tv_freqs in *. cbn [tv] in *. clear Hw T2.
  induction Hb as [|y out ys outs (ids & pieces & r & H1 & H2 & H3 & H4) Hb IH]; constructor; [|apply IH; intros u Hu; apply Hy; now right].
  exists ids, pieces, r. split; [exact H1|]. split; [exact H2|]. split; [exact H3|]. split; [exact (proj1 H4)|].
  apply (near lg _ _ _ _ Hc Hf); [|intro Hi; apply in_map_iff in Hi as (u & Eu & Hu); now apply (reader_word (ieee lg) _ _ _ _ _ _ u R2 Hu)| |exact H4].
  - unfold tok_decode_all. rewrite map_length. exact Hz.
  - destruct H3 as (n & Hn & Ho). pose proof (normal_form_len _ _ Hn) as L1. pose proof (only_length _ _ _ Ho) as L2. destruct (Hy y (or_introl eq_refl)) as [_ Hl]. unfold text, seq in *. lia.
Qed.
