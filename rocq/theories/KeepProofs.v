(** KeepProofs: a text stream of characters and its loaded copy (C90). *)
From Coq Require Import Ascii String Permutation Sorted.
From Verif Require Import Base Spec FloatOps FloatLaws ModelDict ModelCoder ModelTok Maps ModelStat ModelBuilder ModelStream ModelVGram ModelString ModelJson ModelPersist
  OrderProofs DictProofs CoderProofs TokProofs SpecStat SpecBuilder StatProofs RunProofs LearnProofs BuilderProofs BuilderSafe BuilderOwn PropsDictLemmas PropsStatLemmas ReachProofs PropsBuilderLemmas StreamProofs VGramProofs PropsStreamLemmas PropsVGramLemmas StringProofs PropsStringLemmas
  PersistProofs PropsPersistLemmas TextPersist CountsProofs SaveProofs SpecTok SpecJson SpecStream SpecVGram SpecString SpecPersist SpecCounts SpecSave SpecKeep.
Local Open Scope Z_scope.
Local Open Scope list_scope.

(** ** One-character words *)
Lemma decode_length tk v : tok_ok tk -> alnum_tok tk -> (forall c, In c v -> exists w, mfind seq_eqb (tfwd tk) w = Some c) -> length (tok_decode tk v) = length v.
Proof.
  intros Hk Ha. induction v as [|c v IH]; intro H; [reflexivity|]. cbn [tok_decode]. destruct (H c (or_introl eq_refl)) as (w & Hw).
  destruct (Ha _ _ Hw) as (x & -> & _). rewrite (proj1 (proj1 (proj2 Hk) _ _) Hw), app_length, IH; [reflexivity|]. intros; apply H; now right.
Qed.
Lemma single_word tk v w i : tok_ok tk -> alnum_tok tk -> (forall c, In c v -> exists w, mfind seq_eqb (tfwd tk) w = Some c) ->
  tok_decode tk v = w -> mfind seq_eqb (tfwd tk) w = Some i -> v = [i].
Proof.
  intros Hk Ha Hv E Hi. pose proof (decode_length tk v Hk Ha Hv) as Hl. destruct (Ha _ _ Hi) as (x & Ex & _). rewrite E, Ex in Hl. cbn in Hl.
  destruct v as [|c [|c' v]]; try discriminate Hl. destruct (Hv c (or_introl eq_refl)) as (u & Hu). rewrite (decode_one _ _ _ Hk Hu) in E. congruence.
Qed.

Section H.
  Context (fl : fops) (L : flaws fl).

  Lemma words_seen size N ops z al : shist fl (new_stream fl size) ops z -> normal fl N ops -> s_alphabet fl z = Ok al ->
    forall w c, In w al -> In c w -> In c (seen fl ops).
  Proof.
    intros H Hn Hal w c Hw Hc. assert (Hd0 : zdict z <> None) by (intro E; unfold s_alphabet, the_dict in Hal; rewrite E in Hal; discriminate Hal).
    destruct (hist_dict fl L [] [] (new_stream fl size) (kmax + N) 0 N 0 (fresh_start fl L size N (normal_N _ _ _ Hn)) eq_refl size0 ops z H Hn Hd0)
      as (p & d & al' & Hd & _ & _ & Hcl & Hr). change (symbols_of fl [] ops) with (adds [] (seen fl ops)) in *.
    unfold s_alphabet in Hal. rewrite Hd in Hal. cbn [bind] in Hal. rewrite (like_decode_all _ _ _ Hcl) in Hal by exact Hr. injection Hal as <-.
    apply in_map_iff in Hw as (u & <- & Hu). unfold decw in Hc. apply in_map_iff in Hc as (k & <- & Hk). pose proof (Hr u Hu k Hk) as Hb.
    assert (Hi : In (nth (Z.to_nat k) (adds [] (seen fl ops)) 0) (adds [] (seen fl ops))) by (apply nth_In; lia).
    apply (proj1 (adds_in _ _ _)) in Hi as [[]|Hi]. exact Hi.
  Qed.
  (** The codes of the accepted symbols are codes of tokens. *)
  Lemma seen_token k tk ops iops i : tok_ok tk -> Forall2 (coded_op fl k tk) ops iops -> In i (seen fl iops) ->
    exists w, mfind seq_eqb (tfwd tk) w = Some i /\ token_in k (tfed fl ops) w.
  Proof.
    intros Hk Hc Hi. destruct (coded_fed _ _ _ _ _ Hc) as (toks & Ht & Hcd). destruct (coded_in _ _ _ _ (coded_concat _ _ _ Hcd) Hi) as (w & Hw & E).
    exists w. split; [exact E|]. now apply (coded_ops_seen fl k tk ops iops Hk Hc w i E).
  Qed.
  Lemma alphabet_covers size N ops iops tk z al : shist fl (new_stream fl size) iops z -> normal fl N iops -> tok_ok tk -> alnum_tok tk ->
    Forall2 (coded_op fl CharTok tk) ops iops -> s_alphabet fl z = Ok al ->
    forall w i, mfind seq_eqb (tfwd tk) w = Some i -> In w (tok_decode_all tk al) -> In [i] al.
  Proof.
    intros H Hn Hk Ha Hc Hal w i Hi Hw. apply in_map_iff in Hw as (v & E & Hv). rewrite <- (single_word tk v w i Hk Ha); [exact Hv| |exact E|exact Hi].
    intros c Hcv. destruct (seen_token _ _ _ _ c Hk Hc) as (u & Hu & _); [exact (words_seen _ _ _ _ _ H Hn Hal v c Hv Hcv)|]. now exists u.
  Qed.

  Lemma new_chars size inner z0 : new_tstream fl size inner false = Ok z0 -> tst z0 = new_stream fl size /\ ttok z0 = new_tok CharTok.
  Proof. intro E. destruct (PropsStringLemmas.new_tstream_tok _ _ _ _ _ E) as [E1 E2]. now split. Qed.
  Lemma met_alnum z0 ops z : ttok z0 = new_tok CharTok -> thist fl z0 ops z -> alnum_tok (ttok z).
  Proof.
    intros E H. destruct (thist_toks fl alnum_token z0 ops z) as (_ & G & _); [rewrite E; apply tok_ok_new|rewrite E; intros w i X; discriminate X|exact H| |exact G].
    intros s ws _ Hw. rewrite E in Hw. apply Forall_forall. intros w Hi. apply (token_alnum [s]). exists s, ws. split; [now left|easy].
  Qed.
  Lemma tnormal_snoc N ops op : tnormal fl N (ops ++ [op]) -> tnormal fl N ops.
  Proof.
    intros (H1 & H2 & H3 & H4 & H5). unfold tnormal, tfed, thandled, tupdates in *. rewrite flat_map_app in H3. rewrite map_app in H4. rewrite filter_app, app_length in H5. apply Forall_app in H3 as [H3 _].
    split; [intros e s Hi; apply (H1 e s), in_app_iff; now left|]. split; [exact H2|]. split; [exact H3|]. split.
    - unfold zsum in *. rewrite fold_right_app in H4. cbn [map fold_right] in H4. assert (0 <= top_handled fl op) by (destruct op; cbn; lia).
      assert (G : forall (l : list Z) a b, a <= b -> fold_right Z.add a l <= fold_right Z.add b l) by (induction l as [|x l IH]; intros; cbn; [lia|specialize (IH a b); lia]).
      specialize (G (map (top_handled fl) ops) 0 (top_handled fl op + 0)). lia.
    - nia.
  Qed.
  (** A text history with calm parses is a calm integer history. *)
  Lemma calm_int size inner z0 N ops z : new_tstream fl size inner false = Ok z0 -> thist fl z0 ops z -> tnormal fl N ops -> tcalm fl z0 ops ->
    exists iops, shist fl (new_stream fl size) iops (tst z) /\ Forall2 (coded_op fl CharTok (ttok z)) ops iops /\ tok_ok (ttok z) /\ tok_ext (new_tok CharTok) (ttok z) /\
      calm fl [] (new_stream fl size) iops.
  Proof.
    intros E0 H. destruct (new_chars _ _ _ E0) as [Es Et]. induction H as [|ops z op z' H IH Hs]; intros Hn Hc.
    - exists []. rewrite Es, Et. split; [constructor|]. split; [constructor|]. split; [apply tok_ok_new|]. split; [apply tok_ext_refl|]. intros a s b y al X. destruct a; discriminate X.
    - destruct IH as (iops & I1 & I2 & I3 & I4 & I5); [exact (tnormal_snoc _ _ _ Hn)|intros a s b y al X; apply (Hc a s (b ++ [op]) y al); rewrite X, <- app_assoc; reflexivity|].
      pose proof I4 as [Ik _]. cbn [tkind new_tok] in Ik.
      assert (K : forall iop, ~ (exists s, iop = SParse s) -> calm fl [] (new_stream fl size) (iops ++ [iop])).
      { intros iop Hx a s b y al X. destruct b as [|o b] using rev_ind; [apply app_inj_tail in X as [_ X]; destruct Hx; now exists s|].
        rewrite app_comm_cons, app_assoc in X. apply app_inj_tail in X as [X _]. exact (I5 a s b y al X). }
      destruct op as [e s|s|]; cbn [tstep] in Hs.
      + unfold t_accept in Hs. apply bind_ok in Hs as ([ids tk] & Ht & Hs). apply bind_ok in Hs as (z1 & Ha & Hs). injection Hs as <-. cbn [tst ttok].
        destruct (transform_coded _ _ _ _ I3 Ht) as (ws & Hw & Hk & He & Hcd). rewrite Ik in Hw. exists (iops ++ [SAccept e ids]).
        split; [exact (sh_step fl _ _ _ (SAccept e ids) _ I1 Ha)|]. split; [|split; [easy|split; [now apply tok_ext_trans with (ttok z)|]]].
        * apply Forall2_app; [now apply (coded_ops_ext fl _ (ttok z))|]. constructor; [|constructor]. split; [easy|]. now exists ws.
        * apply K. intros (y & X). discriminate X.
      + destruct Hs as [pieces Hs]. unfold t_parse in Hs. apply bind_ok in Hs as ([ids tk] & Ht & Hs). apply bind_ok in Hs as ([r z1] & Ha & Hs).
        apply bind_ok in Hs as (l & _ & Hs). injection Hs as _ <-. cbn [tst ttok].
        destruct (transform_coded _ _ _ _ I3 Ht) as (ws & Hw & Hk & He & Hcd). rewrite Ik in Hw. exists (iops ++ [SParse ids]).
        assert (I2' : Forall2 (coded_op fl CharTok tk) ops iops) by (now apply (coded_ops_ext fl _ (ttok z))).
        split; [exact (sh_step fl _ _ _ (SParse ids) _ I1 (ex_intro _ r Ha))|]. split; [|split; [easy|split; [now apply tok_ext_trans with (ttok z)|]]].
        * apply Forall2_app; [exact I2'|]. constructor; [|constructor]. now exists ws.
        * intros a s' b y al X Hy Hal. destruct b as [|o b] using rev_ind; [|rewrite app_comm_cons, app_assoc in X; apply app_inj_tail in X as [X _]; exact (I5 a s' b y al X Hy Hal)].
          apply app_inj_tail in X as [<- X]. injection X as <-. rewrite (shist_det fl _ _ _ _ Hy I1) in Hal. cbn [app]. intros i Hi.
          apply restrict_in in Hi as [Hi Hk'].
          destruct (seen_token CharTok (ttok z) ops iops i I3 I2 Hk') as (w & Hw' & Htk).
          apply (alphabet_covers size N ops iops (ttok z) (tst z) al I1 (proj1 (coded_normal fl _ _ _ _ _ I2 (tnormal_snoc _ _ _ Hn))) I3 (met_alnum z0 ops z Et H) I2 Hal w i Hw').
          apply (Hc ops s [] z (tok_decode_all (ttok z) al)); [reflexivity|exact H|unfold t_alphabet; now rewrite Hal| |exact Htk].
          exists s, ws. split; [now left|]. split; [exact Hw|]. destruct (coded_in _ _ _ _ Hcd Hi) as (w' & Hi' & Hw2). pose proof (proj2 He _ _ Hw') as Hw3.
          now rewrite (code_inj _ _ _ _ Hk Hw3 Hw2).
      + unfold t_update in Hs. apply bind_ok in Hs as (z1 & Ha & Hs). injection Hs as <-. cbn [tst ttok]. exists (iops ++ [SUpdate]).
        split; [exact (sh_step fl _ _ _ SUpdate _ I1 Ha)|]. split; [apply Forall2_app; [easy|]; constructor; [easy|constructor]|]. split; [exact I3|]. split; [exact I4|].
        apply K. intros (y & X). discriminate X.
  Qed.
End H.

(** ** Two text streams that read alike *)
Section T.
  Context (fl : fops).
  Lemma twins_parse k texts S known al v tk v' tk' y a b a' b' : twins fl k texts S known al v tk v' tk' -> readable k y -> Z.of_nat (length y) <= 2 ^ 40 ->
    exists pieces tk1 tk1', t_parse fl true (mkTStream (vs v) tk a b) y = Ok (pieces, mkTStream (vs v) tk1 a b) /\
      t_parse fl true (mkTStream (vs v') tk' a' b') y = Ok (pieces, mkTStream (vs v') tk1' a' b') /\ twins fl k texts S known al v tk1 v' tk1'.
  Proof.
    intros T Hr Hl. pose proof (tw_reader _ _ _ _ _ _ _ _ _ _ T) as R. pose proof (tw_reader' _ _ _ _ _ _ _ _ _ _ T) as R'.
    destruct (transform_total tk y (re_tok _ _ _ _ _ _ _ R)) as (c & tk1 & Et); [now rewrite (re_kind _ _ _ _ _ _ _ R)|].
    destruct (transform_total tk' y (re_tok _ _ _ _ _ _ _ R')) as (c' & tk1' & Et'); [now rewrite (re_kind _ _ _ _ _ _ _ R')|].
    destruct (transform_coded _ _ _ _ (re_tok _ _ _ _ _ _ _ R) Et) as (ws & Hw & K1 & E1 & C1). rewrite (re_kind _ _ _ _ _ _ _ R) in Hw.
    destruct (transform_coded _ _ _ _ (re_tok _ _ _ _ _ _ _ R') Et') as (ws' & Hw' & K1' & E1' & C1'). rewrite (re_kind _ _ _ _ _ _ _ R') in Hw'.
    rewrite (tokens_fun _ _ _ _ Hw' Hw) in C1'. pose proof (twins_ext fl _ _ _ _ _ _ _ _ _ _ _ T K1 E1 K1' E1') as T1.
    pose proof (Forall2_len _ _ _ C1) as L1. pose proof (tokens_len _ _ _ Hw) as L2.
    destruct (re_parse _ _ _ _ _ _ _ R c) as (ids & Hp & Hsp); [unfold text, seq in *; lia|].
    assert (Hp' : s_parse fl (vs v') c' = Ok (ids, vs v')).
    { apply (alike_reads fl S (vs v) (vs v') c c' ids (tw_alike _ _ _ _ _ _ _ _ _ _ T)); [|exact Hp].
      rewrite !(restrict_ext S known _ (tw_set _ _ _ _ _ _ _ _ _ _ T)). exact (twins_codes fl _ _ _ _ _ _ _ _ _ ws c c' T1 C1 C1'). }
    destruct (spells_in _ _ _ Hsp) as (us & Hu & _ & Hin). exists (map (tok_decode tk1) us), tk1, tk1'. unfold t_parse. cbn [ttok tst twords tinner]. rewrite Et, Et'. cbn [bind]. rewrite Hp, Hp'. cbn [bind].
    rewrite (token_words_spec fl (vs v) tk1 al ids us (re_al _ _ _ _ _ _ _ R) Hu), (token_words_spec fl (vs v') tk1' al ids us (re_al _ _ _ _ _ _ _ R') Hu). cbn [bind].
    split; [reflexivity|]. split; [|exact T1]. do 2 f_equal. apply map_ext_in. intros u Hi. symmetry. exact (twins_decode fl _ _ _ _ _ _ _ _ _ u T1 (Hin u Hi)).
  Qed.
  Lemma twins_parses k texts S known al v v' a b a' b' ys : forall tk tk', twins fl k texts S known al v tk v' tk' ->
    (forall y, In y ys -> readable k y /\ Z.of_nat (length y) <= 2 ^ 40) ->
    exists outs, tparses fl (mkTStream (vs v) tk a b) ys = Ok outs /\ tparses fl (mkTStream (vs v') tk' a' b') ys = Ok outs.
  Proof.
    induction ys as [|y ys IH]; intros tk tk' T H; [now exists []|]. destruct (H y (or_introl eq_refl)) as [Hr Hl].
    destruct (twins_parse _ _ _ _ _ _ _ _ _ y a b a' b' T Hr Hl) as (pieces & tk1 & tk1' & E & E' & T1).
    destruct (IH _ _ T1) as (outs & G & G'); [intros; apply H; now right|]. exists (pieces :: outs). cbn [tparses]. rewrite E, E'. cbn [bind]. rewrite G, G'. now split.
  Qed.
End T.

Section B.
  Context (fl : fops) (L : flaws fl) (io : float_io (F fl)).
  Lemma thist_split z0 a b z : thist fl z0 (a ++ b) z -> exists z1, thist fl z0 a z1 /\ thist fl z1 b z.
  Proof.
    revert z. induction b as [|op b IH] using rev_ind; intros z H; [rewrite app_nil_r in H; exists z; split; [exact H|constructor]|].
    rewrite app_assoc in H. inversion H as [E|ops z1 op' z2 H1 Hs E]; [destruct (a ++ b); discriminate|]. apply app_inj_tail in E as [-> ->].
    destruct (IH _ H1) as (y & G2 & G3). exists y. split; [exact G2|]. exact (tt_step fl _ _ _ _ _ G3 Hs).
  Qed.
  Lemma met_coded k tk ops iops w : Forall2 (coded_op fl k tk) ops iops -> token_in k (tmet ops) w -> exists i, mfind seq_eqb (tfwd tk) w = Some i.
  Proof.
    intros H (s & ws & H1 & H2 & H3). unfold tmet in H1. induction H as [|op iop ops iops Ho H IH]; [easy|]. cbn [flat_map] in H1. apply in_app_iff in H1 as [H1|H1]; [|now apply IH].
    assert (G : exists ws' ids, tokens_of k s ws' /\ coded tk ws' ids).
    { destruct op as [e s'|s'|], iop as [e' ids|ids|]; cbn [coded_op top_met] in *; try easy; destruct H1 as [->|[]].
      - destruct Ho as (_ & ws' & G1 & G2). now exists ws', ids.
      - destruct Ho as (ws' & G1 & G2). now exists ws', ids. }
    destruct G as (ws' & ids & G1 & G2). rewrite (tokens_fun _ _ _ _ G1 H2) in G2. destruct (coded_in' _ _ _ _ G2 H3) as (i & _ & Hi). now exists i.
  Qed.
  Lemma text_stream_back size inner z0 N a b z al : let ops := a ++ b in new_tstream fl size inner false = Ok z0 -> thist fl z0 ops z -> tnormal fl N ops -> troomy fl CharTok size ops -> tcalm fl z0 ops ->
    t_alphabet fl z = Ok al -> (forall w, token_in CharTok (tmet a) w -> In w al) -> (forall w, token_in CharTok (tfed fl b) w -> token_in CharTok (tmet a) w) -> length (t_freqs fl z) = length al ->
    int32 size -> Forall int32 (t_freqs fl z) -> minp_exact fl io (tst z) ->
    exists file z', save_tstream fl io true z = Ok file /\ load_tstream fl io file = Ok z' /\
      t_alphabet fl z' = Ok al /\ t_freqs fl z' = t_freqs fl z /\ zsize (tst z') = zsize (tst z) /\ zminp (tst z') = zminp (tst z) /\
      forall ys, (forall y, In y ys -> ascii_text y /\ Z.of_nat (length y) <= 2 ^ 40) ->
        exists outs, tparses fl z ys = Ok outs /\ tparses fl z' ys = Ok outs.
  Proof.
    intros ops E0 H Hn Hr Hcalm Hal Hmet Hold Hlf Hsz Hfr Hm. destruct (calm_int fl L size inner z0 N ops z E0 H Hn Hcalm) as (iops & Hs & Hc & Hk & [Ek _] & Hcl). cbn [tkind new_tok] in Ek.
    destruct (coded_normal fl _ _ _ _ _ Hc Hn) as [Hin _]. pose proof (coded_roomy fl _ _ _ _ _ Hk Hc Hr) as Hir.
    destruct (new_chars fl _ _ _ E0) as [Es Et]. pose proof (met_alnum fl z0 ops z Et H) as Ha.
    unfold t_alphabet in Hal. apply bind_ok in Hal as (ial & Hial & [= <-]). unfold t_freqs, tok_decode_all in Hlf. rewrite map_length in Hlf.
    destruct (fresh_tidy fl L size N iops (tst z) ial Hs Hin Hir Hcl Hial) as (p & d & x & T & Eal). destruct (fresh_distinct fl L size N iops (tst z) ial Hs Hin Hir Hcl Hial) as (Hnal & _ & Hne).
    set (S := adds [] (seen fl iops)) in *. set (known := seen fl iops) in *. set (tk1 := ttok z) in *.
    assert (Hset : forall c, In c S <-> In c known) by (intro c; unfold S; rewrite adds_in; cbn [In]; tauto).
    (* the tokens met in [a] have been accepted and are words *)
    destruct (thist_split z0 a b z H) as (za & Haz & Hbz). set (tka := ttok za). pose proof (met_alnum fl z0 a za Et Haz) as Haa. fold tka in Haa.
    destruct (thist_int fl z0 a za) as (ia & _ & Hca & Hka & _); [rewrite Et; apply tok_ok_new|exact Haz|]. rewrite Et in Hca. cbn [tkind new_tok] in Hca. fold tka in Hca, Hka.
    destruct (thist_int fl za b z Hka Hbz) as (_ & _ & _ & _ & [_ Hext]). fold tka tk1 in Hext. set (n := length (tfwd tka)).
    assert (Htoks : forall w i, mfind seq_eqb (tfwd tka) w = Some i -> In [i] ial /\ In i known /\ token_in CharTok (tfed fl ops) w).
    { intros w i Hi. assert (Hw : token_in CharTok (tmet a) w).
      { destruct (thist_toks fl (token_in CharTok (tmet a)) z0 a za) as (_ & G & _); [rewrite Et; apply tok_ok_new|rewrite Et; intros u j X; discriminate X|exact Haz| |exact (G w i Hi)].
        intros s ws Hs' Hws. rewrite Et in Hws. apply Forall_forall. intros u Hu. exists s, ws. now split. }
      apply Hext in Hi.
      assert (G : In [i] ial) by (exact (alphabet_covers fl L size N ops iops tk1 (tst z) ial Hs Hin Hk Ha Hc Hial w i Hi (Hmet w Hw))).
      assert (G' : In i known) by (exact (words_seen fl L size N iops (tst z) ial Hs Hin Hial [i] i G (or_introl eq_refl))).
      split; [exact G|]. split; [exact G'|]. now apply (coded_ops_seen fl CharTok tk1 ops iops Hk Hc w i Hi). }
    assert (Hfed : forall w, token_in CharTok (tfed fl ops) w -> exists i, mfind seq_eqb (tfwd tka) w = Some i).
    { intros w Hw. apply (met_coded CharTok tka a ia w Hca). destruct Hw as (s & ws & H1 & H2 & H3). unfold ops, tfed in H1. rewrite flat_map_app in H1. apply in_app_iff in H1 as [H1|H1].
      - exists s, ws. split; [|now split]. unfold tmet. apply in_flat_map in H1 as (op & H4 & H5). apply in_flat_map. exists op. split; [exact H4|]. now destruct op.
      - apply Hold. now exists s, ws. }
    assert (Hknown : forall i, In i known -> exists u, mfind seq_eqb (tfwd tka) u = Some i /\ token_in CharTok (tfed fl ops) u).
    { intros i Hi. destruct (seen_token fl CharTok tk1 ops iops i Hk Hc Hi) as (u & Hu & Ht). exists u. split; [|exact Ht]. destruct (Hfed u Ht) as (j & Hj). pose proof (Hext _ _ Hj). congruence. }
    assert (Hkn : forall i, In i known <-> 0 <= i < Z.of_nat n).
    { intro i. pose proof Hka as (_ & Hb & Hdom). split.
      - intro Hi. destruct (Hknown i Hi) as (u & Hu & _). apply Hb in Hu. destruct (Z_le_dec 0 i), (Z_lt_dec i (Z.of_nat n)); try lia;
          (assert (Hd : mfind Z.eqb (tbwd tka) i = None) by (apply Hdom; fold n; lia)); congruence.
      - intro Hi. destruct (mfind Z.eqb (tbwd tka) i) as [u|] eqn:Eu; [|apply Hdom in Eu; fold n in Eu; lia]. apply Hb in Eu. now apply (Htoks u i). }
    assert (Hsi : forall i, In i (TextPersist.singles ial) <-> In i known).
    { intro i. rewrite TextPersist.single_in. split; [intro Hi; exact (words_seen fl L size N iops (tst z) ial Hs Hin Hial [i] i Hi (or_introl eq_refl))|].
      intro Hi. destruct (Hknown i Hi) as (u & Hu & _). now apply (Htoks u i). }
    assert (Hperm : Permutation (TextPersist.singles ial) (codes 0 n)).
    { apply NoDup_Permutation; [now apply TextPersist.singles_nodup|apply codes_nodup|]. intro i. rewrite Hsi, Hkn, in_codes. cbn. lia. }
    assert (Htok : forall i, In i known -> exists u, tok_decode tk1 [i] = u /\ mfind seq_eqb (tfwd tk1) u = Some i).
    { intros i Hi. destruct (Hknown i Hi) as (u & Hu & _). apply Hext in Hu. exists u. split; [|exact Hu]. exact (decode_one _ _ _ Hk Hu). }
    assert (Hfst : NoDup (map fst (TextPersist.pairs tk1 ial))).
    { unfold TextPersist.pairs. rewrite map_map. cbn [fst]. pose proof (TextPersist.singles_nodup ial Hnal) as Hss.
      assert (Hi1 : forall i, In i (TextPersist.singles ial) -> In i known) by (intros; now apply Hsi). clear -Hss Hi1 Htok. induction Hss as [|i l Hi Hs IH]; [constructor|]. cbn [map].
      constructor; [|apply IH; intros; apply Hi1; now right]. intro Hx. apply in_map_iff in Hx as (j & Ej & Hj).
      destruct (Htok i (Hi1 i (or_introl eq_refl))) as (u & Eu & Hu). destruct (Htok j (Hi1 j (or_intror Hj))) as (u' & Eu' & Hu'). assert (i = j) by congruence. now subst j. }
    assert (Hlen : length (TextPersist.pairs tk1 ial) = n) by (unfold TextPersist.pairs; rewrite map_length, (Permutation_length Hperm); apply codes_length).
    assert (Hdm : dense_map (TextPersist.pairs tk1 ial)).
    { split; [exact Hfst|]. rewrite Hlen. unfold TextPersist.pairs. rewrite map_map. cbn [snd]. rewrite map_id. exact Hperm. }
    (* the stream *)
    assert (Hld : length (zfreqs (tst z)) = dsize d).
    { unfold s_freqs in Hlf. rewrite Hlf, Eal, map_length. reflexivity. }
    assert (HnS : length S = n).
    { assert (HP : Permutation S (codes 0 n)).
      { apply NoDup_Permutation; [exact (td_nodup _ _ _ _ _ _ T)|apply codes_nodup|]. intro i. rewrite Hset, Hkn, in_codes. cbn. lia. }
      rewrite (Permutation_length HP). apply codes_length. }
    assert (Hroom : Z.of_nat (length S) <= size).
    { destruct Hir as (_ & _ & Hr'). unfold distinct in Hr'. fold (seen fl iops) in Hr'. fold known in Hr'. unfold S. rewrite adds_length. fold known. lia. }
    assert (Hint : int_stream fl (tst z)).
    { apply (tidy_int fl S (tst z) p d x T).
      - rewrite (size_kept fl _ _ _ Hs). exact Hsz.
      - exact Hfr.
      - apply Forall_forall. intros i Hi. apply Hset, Hkn in Hi. unfold int32 in *. lia.
      - unfold int32 in Hsz. lia. }
    assert (Hal' : forall u, In u (seqs d) -> decode (zcoder (tst z)) u = Ok (decw S u)) by (intros u Hu; apply like_decode; [exact (td_coder _ _ _ _ _ _ T)|exact (td_range _ _ _ _ _ _ T u Hu)]).
    pose proof (tidy_the_dict fl _ _ _ _ _ T) as Hthe.
    destruct (entries_exist fl (Some tk1) (tst z) d) as (es0 & He0); [lia|intros t _ u Hu; eexists; now apply Hal'|].
    destruct (save_total fl io (Some tk1) None (tst z) p d es0 Hthe He0) as (file & Hsv).
    { destruct He0 as (_ & _ & _ & H4). eapply Forall_impl; [|exact H4]. intros e (u & _ & Hu). unfold clean_entry. rewrite Hu. now apply alnum_ascii. }
    clear es0 He0. exists file. rewrite save_tstream_any. fold tk1.
    destruct (tidy_read fl io S (tst z) p d x (Some tk1) None file T Hint (Hm x (td_minp _ _ _ _ _ _ T)) Hld (alnum_chars tk1 Hk Ha) Hsv) as (es & c & He & Hfe & Hcc & Hp & Hrd).
    destruct (tidy_loaded fl S (tst z) p d x c T Hcc) as (z' & Hlo & Hzc & Hsame & Hali & Hdn).
    assert (Hlt : load_tokenizer fl io file c = Ok (tok_of_map CharTok (TextPersist.pairs tk1 ial))).
    { rewrite Eal. apply (tokenizer_read fl io tk1 (tst z) d es None S c file Hp Hfe He Hcc (td_coder _ _ _ _ _ _ T) (td_range _ _ _ _ _ _ T)). rewrite <- Eal. exact Hfst. }
    set (tk' := tok_of_map CharTok (TextPersist.pairs tk1 ial)) in *. exists (mkTStream z' tk' false false). split; [exact Hsv|]. split.
    { unfold load_tstream, load_stream, read_dict_json. rewrite Hp. cbn [bind]. rewrite Hrd. cbn [bind md_coder md_freqs md_words md_size md_minp]. rewrite Hlo. cbn [bind]. rewrite Hzc, Hlt. reflexivity. }
    destruct Hsame as (Hsz1 & Hsz2 & Hsf & Hsa & _).
    assert (Hagree : forall u i, token_in CharTok (tfed fl ops) u -> mfind seq_eqb (tfwd tk1) u = Some i -> mfind seq_eqb (tfwd tk') u = Some i).
    { intros u i Hu Hi. assert (Hj : In i known) by (now apply (coded_ops_seen fl CharTok tk1 ops iops Hk Hc u i Hi)).
      apply (mfind_nodup seq_eqb seq_eqb_iff); [exact Hfst|]. unfold tk', tok_of_map. cbn [tfwd]. unfold TextPersist.pairs. apply in_map_iff. exists i. split; [|now apply Hsi].
      destruct (Htok i Hj) as (u' & Eu & Hu'). rewrite Eu. f_equal. exact (code_inj _ _ _ _ Hk Hu' Hi). }
    assert (R1 : reader fl CharTok (tfed fl ops) (mkVGram (tst z) 0 true true) tk1 known ial).
    { split; cbn [vs]; try assumption.
      - intros y Hy. apply (fresh_pure fl L size N iops (tst z) y ial Hs Hin Hir Hcl Hial); [|exact Hy]. intros i Hi. apply restrict_in in Hi as [_ Hi]. apply TextPersist.single_in. now apply Hsi.
      - intros w i Hw Hi. exact (words_seen fl L size N iops (tst z) ial Hs Hin Hial w i Hw Hi).
      - intros i Hi. exact (seen_token fl CharTok tk1 ops iops i Hk Hc Hi).
      - intros w Hw. destruct Hw as (s & ws & H1 & H2 & H3). destruct (coded_fed fl _ _ _ _ Hc) as (toks & Ht1 & Hc1).
        assert (Hi : In w (concat toks)).
        { clear -Ht1 H1 H2 H3. induction Ht1 as [|s0 t0 l l' Hab Ht IH]; [easy|]. cbn [concat]. apply in_app_iff. destruct H1 as [->|H1]; [left; now rewrite (tokens_fun _ _ _ _ Hab H2)|right; now apply IH]. }
        destruct (coded_in' _ _ _ _ (coded_concat _ _ _ Hc1) Hi) as (i & Hi' & Hw). exists i. split; [exact Hi'|exact Hw]. }
    assert (TW : twins fl CharTok (tfed fl ops) S known ial (mkVGram (tst z) 0 true true) tk1 (mkVGram z' 0 true true) tk').
    { split; try assumption. split; cbn [vs].
      - reflexivity.
      - now apply tok_of_map_ok.
      - intros y Hy. destruct (re_parse _ _ _ _ _ _ _ R1 y Hy) as (ids & H1 & H2). exists ids. split; [|exact H2]. exact (alike_pure fl S (tst z) z' y ids Hali H1).
      - rewrite Hsa. exact Hial.
      - exact Hne.
      - exact (re_sym _ _ _ _ _ _ _ R1).
      - intros i Hi. destruct (Hknown i Hi) as (u & Hu & Ht). exists u. split; [apply Hagree; [exact Ht|now apply Hext]|exact Ht].
      - intros u Hu. destruct (re_tokens _ _ _ _ _ _ _ R1 u Hu) as (i & Hi & Hi'). exists i. split; [exact Hi|now apply Hagree]. }
    split; [|split; [exact Hsf|split; [exact Hsz1|split; [exact Hsz2|]]]].
    - unfold t_alphabet. cbn [tst ttok]. rewrite Hsa, Hial. cbn [bind]. f_equal. unfold tok_decode_all. apply map_ext_in. intros u Hu. symmetry. exact (twins_decode fl _ _ _ _ _ _ _ _ _ u TW Hu).
    - intros ys Hys. pose proof (twins_parses fl CharTok (tfed fl ops) S known ial _ _ (twords z) (tinner z) false false ys tk1 tk' TW Hys) as G. cbn [vs] in G.
      replace (mkTStream (tst z) tk1 (twords z) (tinner z)) with z in G by (unfold tk1; now destruct z). exact G.
  Qed.
End B.
