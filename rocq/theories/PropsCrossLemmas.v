(** PropsCrossLemmas: lemmas behind C87. *)
From Coq Require Import Ascii String Permutation Sorted.
From Verif Require Import Base Spec FloatOps FloatLaws ModelDict ModelCoder ModelTok Maps ModelStat ModelBuilder ModelStream ModelVGram ModelString ModelJson ModelPersist
  OrderProofs DictProofs CoderProofs TokProofs SpecStat SpecBuilder StatProofs RunProofs StreamProofs VGramProofs PropsStreamLemmas PropsVGramLemmas StringProofs PropsStringLemmas
  PersistProofs PropsPersistLemmas TextPersist CrossProofs SpecTok SpecJson SpecStream SpecVGram SpecString SpecPersist.
Local Open Scope Z_scope.
Local Open Scope list_scope.

Section X.
  Context (fl : fops) (L : flaws fl) (io : float_io (F fl)).

  Lemma same_parts file :
    (forall v, load_vgram fl io file = Ok v -> load_stream fl io file = Ok (vs v)) /\
    (forall t, load_tstream fl io file = Ok t -> load_stream fl io file = Ok (tst t)) /\
    ((exists v, load_tvgram fl io file = Ok v) <-> (exists v, load_vgram fl io file = Ok v) /\ (exists t, load_tstream fl io file = Ok t)) /\
    (forall v t, load_tvgram fl io file = Ok v -> load_tstream fl io file = Ok t ->
      load_vgram fl io file = Ok (tv v) /\ t_freqs fl t = tv_freqs fl v /\ t_alphabet fl t = tv_alphabet fl v /\
      forall w y outs v', tv_transform fl true w v [y] = Ok (outs, v') ->
        exists out pieces t', outs = [out] /\ t_parse fl true t y = Ok (pieces, t') /\ (~ In [] pieces -> out = join pieces)).
  Proof.
    split; [exact (loads_vgram fl io file)|]. split; [exact (loads_tstream fl io file)|]. split; [exact (loads_tvgram fl io file)|].
    intros v t Hv Ht. destruct (loads_parts fl io file v t Hv Ht) as (H & E1 & E2). split; [exact H|]. unfold t_freqs, tv_freqs, t_alphabet, tv_alphabet. rewrite E1, E2.
    split; [reflexivity|]. split; [reflexivity|]. intros w y outs v' Hy. destruct (reads_alike fl w v y outs v' t Hy E1 E2) as (out & pieces & t' & A & B & C & _). now exists out, pieces, t'.
  Qed.

  Lemma tidy_matrix S z p d x : tidy fl S z p d x -> int_stream fl z -> io_ok io x -> length (zfreqs z) = dsize d ->
    exists file z', save_stream fl io true z = Ok file /\ load_stream fl io file = Ok z' /\ same_stream fl z z' /\
      load_vgram fl io file = Throw JsonType /\ load_tvgram fl io file = Throw JsonType /\
      ((exists s, In [s] (map (decw S) (seqs d))) -> load_tstream fl io file = UB EndDeref).
  Proof.
    intros T Hi Hx Hl. destruct (stream_back fl io S z p d x T Hi Hx Hl) as (file & z' & H1 & H2 & H3). exists file, z'. do 3 (split; [assumption|]).
    rewrite save_stream_any in H1.
    assert (Hm : minp_file fl io z) by (intros y Hy; rewrite (td_minp _ _ _ _ _ _ T) in Hy; injection Hy as <-; now right).
    destruct (no_flags fl io None z file H1 Hi I Hm) as [A B]. split; [exact A|]. split; [exact B|].
    exact (no_texts_file fl io S z p d x None file T Hi Hx Hl H1).
  Qed.
  Lemma fresh_int size N ops z p d x : shist fl (new_stream fl size) ops z -> normal fl N ops -> roomy fl size ops -> tidy fl (adds [] (seen fl ops)) z p d x ->
    int32 size -> Forall int32 (seen fl ops) -> Forall int32 (s_freqs fl z) -> int_stream fl z.
  Proof.
    intros H Hn Hr T Hs Hsy Hf. apply (tidy_int fl _ z p d x T).
    - now rewrite (size_kept fl _ _ _ H).
    - exact Hf.
    - apply Forall_forall. intros y Hy. apply (proj1 (adds_in _ _ _)) in Hy as [[]|Hy]. exact (proj1 (Forall_forall _ _) Hsy y Hy).
    - destruct Hr as (_ & _ & Hr). rewrite adds_length. unfold distinct in Hr. fold (seen fl ops) in Hr. unfold int32 in Hs. lia.
  Qed.
  Lemma stream_matrix size N ops z al : shist fl (new_stream fl size) ops z -> normal fl N ops -> roomy fl size ops ->
    calm fl [] (new_stream fl size) ops -> s_alphabet fl z = Ok al -> length (s_freqs fl z) = length al ->
    int32 size -> Forall int32 (seen fl ops) -> Forall int32 (s_freqs fl z) -> minp_exact fl io z ->
    exists file z', save_stream fl io true z = Ok file /\ load_stream fl io file = Ok z' /\ same_stream fl z z' /\
      load_vgram fl io file = Throw JsonType /\ load_tvgram fl io file = Throw JsonType /\ ((exists s, In [s] al) -> load_tstream fl io file = UB EndDeref).
  Proof.
    intros H Hn Hr Hc Hal Hl Hs Hsy Hf Hm. destruct (fresh_tidy fl L _ _ _ _ _ H Hn Hr Hc Hal) as (p & d & x & T & ->).
    apply (tidy_matrix _ z p d x T (fresh_int _ _ _ _ _ _ _ H Hn Hr T Hs Hsy Hf) (Hm x (td_minp _ _ _ _ _ _ T))). rewrite map_length in Hl. exact Hl.
  Qed.
  Lemma text_matrix size N iops (z : tstream fl) al file : shist fl (new_stream fl size) iops (tst z) -> normal fl N iops -> roomy fl size iops ->
    calm fl [] (new_stream fl size) iops -> s_alphabet fl (tst z) = Ok al -> length (t_freqs fl z) = length al ->
    int32 size -> Forall int32 (seen fl iops) -> Forall int32 (t_freqs fl z) -> minp_exact fl io (tst z) -> char_tok (ttok z) ->
    save_tstream fl io true z = Ok file ->
    (exists z', load_stream fl io file = Ok z' /\ same_stream fl (tst z) z') /\ load_vgram fl io file = Throw JsonType /\ load_tvgram fl io file = Throw JsonType.
  Proof.
    intros H Hn Hr Hc Hal Hl Hs Hsy Hf Hm Ht Hsv. destruct (fresh_tidy fl L _ _ _ _ _ H Hn Hr Hc Hal) as (p & d & x & T & ->).
    pose proof (fresh_int _ _ _ _ _ _ _ H Hn Hr T Hs Hsy Hf) as Hi. rewrite save_tstream_any in Hsv. rewrite map_length in Hl. split.
    - exact (any_stream fl io _ (tst z) p d x (Some (ttok z)) None file T Hi (Hm x (td_minp _ _ _ _ _ _ T)) Hl Ht Hsv).
    - apply (no_flags fl io (Some (ttok z)) (tst z) file Hsv Hi Ht). intros y Hy. right. now apply Hm.
  Qed.
  Lemma fitted_int size N ops0 w v xs ops al v' p d x : good_fit fl size N ops0 w v xs ops al -> tidy fl (symbols_of fl [] ops) (vs v') p d x -> zsize (vs v') = size ->
    int32 size -> Forall int32 (seen fl ops) -> Forall int32 (s_freqs fl (vs v')) -> int_stream fl (vs v').
  Proof.
    intros G T Es Hsz Hsy Hf. apply (tidy_int fl _ (vs v') p d x T); [now rewrite Es|exact Hf| |].
    - apply Forall_forall. intros y Hy. unfold symbols_of in Hy. apply (proj1 (adds_in _ _ _)) in Hy as [[]|Hy]. exact (proj1 (Forall_forall _ _) Hsy y Hy).
    - destruct G as (_ & _ & _ & _ & _ & _ & (_ & _ & Hr) & _). unfold symbols_of. rewrite adds_length. unfold distinct in Hr. fold (seen fl ops) in Hr. unfold int32 in Hsz. lia.
  Qed.
  Lemma fit_matrix size N ops0 w v xs ops al : good_fit fl size N ops0 w v xs ops al -> int32 size -> Forall int32 (seen fl ops) ->
    exists v', fit fl w v xs = Ok (true, v') /\ (Forall int32 (s_freqs fl (vs v')) -> minp_exact fl io (vs v') ->
      exists file z', save_vgram fl io true v' = Ok file /\ load_stream fl io file = Ok z' /\ same_stream fl (vs v') z' /\
        load_vgram fl io file = Throw JsonType /\ load_tvgram fl io file = Throw JsonType /\ ((exists s, In [s] al) -> load_tstream fl io file = UB EndDeref)).
  Proof.
    intros G Hsz Hsy. destruct (fit_tidy fl L _ _ _ _ _ _ _ _ G) as (v' & p & d & x & E & T & Hl & Es & Eal). exists v'. split; [exact E|]. intros Hf Hm. rewrite Eal.
    apply (tidy_matrix _ (vs v') p d x T (fitted_int _ _ _ _ _ _ _ _ _ _ _ _ G T Es Hsz Hsy Hf) (Hm x (td_minp _ _ _ _ _ _ T)) Hl).
  Qed.

  (** The codes of the fitted texts are numbers below the size. *)
  Lemma text_codes size N iter w texts data tk ops al : tok_transform_all true (new_tok CharTok) texts = Ok (data, tk) ->
    good_fit fl size N [] w (new_vgram fl size iter) data ops al -> int32 size -> Forall int32 (seen fl ops).
  Proof.
    intros Et G Hsz. destruct (fit_reader fl L _ _ _ _ _ _ _ _ _ _ Et G) as (v & _ & R). set (known := seen fl ops) in *. set (n := length (tfwd tk)).
    destruct (transform_all_coded _ _ _ _ (tok_ok_new CharTok) Et) as (Hk & _ & _).
    assert (Hkn : forall i, In i known <-> 0 <= i < Z.of_nat n).
    { intro i. pose proof Hk as (_ & Hb & Hdom). split.
      - intro Hi. destruct (re_known _ _ _ _ _ _ _ R i Hi) as (u & Hu & _). apply Hb in Hu. destruct (Z_le_dec 0 i), (Z_lt_dec i (Z.of_nat n)); try lia;
          (assert (Hd : mfind Z.eqb (tbwd tk) i = None) by (apply Hdom; fold n; lia)); congruence.
      - intro Hi. destruct (mfind Z.eqb (tbwd tk) i) as [u|] eqn:Eu; [|apply Hdom in Eu; fold n in Eu; lia]. apply Hb in Eu.
        destruct (transform_all_only _ _ _ _ (tok_ok_new CharTok) Et u i Eu) as [Hx|Hx]; [discriminate Hx|]. cbn [tkind new_tok] in Hx.
        destruct (re_tokens _ _ _ _ _ _ _ R u Hx) as (j & Hj & Hj'). assert (i = j) by congruence. now subst j. }
    destruct G as (_ & _ & _ & _ & _ & _ & (_ & _ & Hr) & _). unfold distinct in Hr. fold (seen fl ops) in Hr. fold known in Hr.
    assert (HP : Permutation (nodup Z.eq_dec known) (codes 0 n)).
    { apply NoDup_Permutation; [apply NoDup_nodup|apply codes_nodup|]. intro i. rewrite nodup_In, Hkn, in_codes. cbn. lia. }
    apply Permutation_length in HP. rewrite codes_length in HP. apply Forall_forall. intros i Hi. apply Hkn in Hi. unfold int32 in *. lia.
  Qed.
  Lemma model_matrix size N iter w texts data tk ops al : tok_transform_all true (new_tok CharTok) texts = Ok (data, tk) ->
    good_fit fl size N [] w (new_vgram fl size iter) data ops al -> int32 size ->
    exists v, tv_fit fl true w (new_tvgram fl size iter) texts = Ok v /\
    forall v1, transformed fl v v1 -> Forall int32 (tv_freqs fl v1) -> minp_exact fl io (vs (tv v1)) ->
    exists file z' v' t', save_tvgram fl io true v1 = Ok file /\
      load_stream fl io file = Ok z' /\ same_stream fl (vs (tv v1)) z' /\
      load_vgram fl io file = Ok v' /\ vs v' = z' /\ vfitted v' = vfitted (tv v1) /\ vcomputed v' = vcomputed (tv v1) /\
      load_tstream fl io file = Ok t' /\ tst t' = z' /\ t_alphabet fl t' = tv_alphabet fl v1 /\
      (forall w' y, ascii_text y -> Z.of_nat (length y) <= 2 ^ 40 ->
        exists out pieces v2 t2, tv_transform fl true w' v1 [y] = Ok ([out], v2) /\ t_parse fl true t' y = Ok (pieces, t2) /\ spaced out pieces).
  Proof.
    intros Et G Hsz. destruct (text_back fl L io _ _ _ _ _ _ _ _ _ Et G Hsz) as (v & Hv & H). exists v. split; [exact Hv|]. intros v1 H1 Hf Hm.
    destruct (H v1 H1 Hf Hm) as (file & u & S1 & S2 & S3 & S4 & S5 & S6).
    destruct (proj1 (loads_tvgram fl io file) (ex_intro _ u S2)) as [_ [t' Ht]]. destruct (loads_parts fl io file u t' S2 Ht) as (Hu & E1 & E2).
    exists file, (vs (tv u)), (tv u), t'. split; [exact S1|]. split; [exact (loads_vgram fl io _ _ Hu)|]. split.
    { destruct (fit_reader fl L _ _ _ _ _ _ _ _ _ _ Et G) as (v0 & Ef & R). destruct (fit_tidy fl L _ _ _ _ _ _ _ _ G) as (v' & p & d & x & E & T & Hl & Es & _).
      rewrite Ef in E. injection E as <-. assert (Ev : v = mkTVGram v0 tk).
      { unfold tv_fit, new_tvgram in Hv. cbn [tvtok tv] in Hv. rewrite Et in Hv. cbn [bind] in Hv. rewrite Ef in Hv. cbn [bind] in Hv. now injection Hv. }
      subst v. destruct (transform_all_coded _ _ _ _ (tok_ok_new CharTok) Et) as (Hk & [Ek _] & _). cbn [tkind new_tok] in Ek.
      assert (Ha : alnum_tok tk) by (refine (transform_all_alnum _ _ _ _ (tok_ok_new CharTok) eq_refl _ Et); intros q i Hq; discriminate Hq).
      destruct (transformed_alnum fl _ _ H1 Hk Ek Ha) as (Hk1 & _ & Ha1).
      destruct (reader_transformed fl _ _ _ _ _ _ _ R H1) as (tk1 & -> & _). cbn [tv tvtok] in *. unfold tv_freqs in Hf. cbn [tv] in Hf.
      pose proof (fitted_int _ _ _ _ _ _ _ _ _ _ _ _ G T Es Hsz (text_codes _ _ _ _ _ _ _ _ _ Et G Hsz) Hf) as Hi. rewrite save_tvgram_any in S1. cbn [tv tvtok] in S1.
      destruct (any_stream fl io _ (vs v0) p d x (Some tk1) _ file T Hi (Hm x (td_minp _ _ _ _ _ _ T)) Hl (alnum_chars tk1 Hk1 Ha1) S1) as (z' & A & B).
      rewrite (loads_vgram fl io _ _ Hu) in A. injection A as <-. exact B. }
    split; [exact Hu|]. split; [reflexivity|]. split; [exact S4|]. split; [exact S5|]. split; [exact Ht|]. split; [exact E1|].
    destruct (S6 v1 u (tf_refl _ _) (tf_refl _ _)) as ((words & W1 & W2) & S7). split.
    { rewrite W1, <- W2. unfold t_alphabet, tv_alphabet. now rewrite E1, E2. }
    intros w' y Hy Hlen. destruct (S7 w' [y]) as (outs & v3 & v3' & T1 & T2); [intros q [<-|[]]; now split|].
    destruct (reads_alike fl w' u y outs v3' t' T2 E1 E2) as (out & pieces & t2 & -> & P1 & P2 & P3). exists out, pieces, v3, t2. split; [exact T1|]. split; [exact P1|].
    assert (X : transformed fl v1 v3) by (apply (tf_step fl v1 v1 w' [y] [out] v3); [constructor|constructor; [exact Hlen|constructor]|exact T1]).
    assert (X' : transformed fl u v3') by (apply (tf_step fl u u w' [y] [out] v3'); [constructor|constructor; [exact Hlen|constructor]|exact T2]).
    destruct (S6 v3 v3' X X') as ((ws & W3 & W4) & _). assert (Hne : ~ In [] pieces); [|split; [exact Hne|exact (P2 Hne)]].
    intro Hi. apply (P3 ws W4) in Hi. destruct (fit_reader fl L _ _ _ _ _ _ _ _ _ _ Et G) as (v0 & Ef & R).
    assert (Ev : v = mkTVGram v0 tk).
    { unfold tv_fit, new_tvgram in Hv. cbn [tvtok tv] in Hv. rewrite Et in Hv. cbn [bind] in Hv. rewrite Ef in Hv. cbn [bind] in Hv. now injection Hv. }
    subst v. destruct (reader_transformed fl _ _ _ _ _ _ _ R H1) as (tk1 & -> & R1). destruct (reader_transformed fl _ _ _ _ _ _ _ R1 X) as (tk3 & -> & R3).
    unfold tv_alphabet in W3. cbn [tv tvtok] in W3. rewrite (re_al _ _ _ _ _ _ _ R3) in W3. injection W3 as <-. unfold tok_decode_all in Hi. apply in_map_iff in Hi as (q & Eq & Hq).
    exact (reader_word fl _ _ _ _ _ _ q R3 Hq Eq).
  Qed.
End X.
