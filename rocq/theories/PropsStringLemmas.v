(** PropsStringLemmas: lemmas behind C48-C50. *)
From Verif Require Import Base Spec FloatOps FloatLaws ModelDict ModelCoder ModelTok Maps ModelStat ModelBuilder ModelStream ModelVGram ModelString
  SpecTok CoderProofs TokProofs DictProofs SpecStat SpecBuilder StreamProofs VGramProofs PropsStreamLemmas PropsVGramLemmas StringProofs SpecStream SpecVGram SpecString.

Lemma spells_in al ids x : spells al ids x -> exists vs, Forall2 (word_at al) ids vs /\ concat vs = x /\ forall v, In v vs -> In v al.
Proof.
  intros (vs & H & E). exists vs. split; [exact H|]. split; [exact E|]. clear E. induction H as [|i v ids vs Hi H IH]; intros u Hu; [easy|].
  destruct Hu as [<-|Hu]; [exact (nth_error_In _ _ Hi)|now apply IH].
Qed.

(** ** Joining with spaces *)
Lemma join_cons p ps : join (p :: ps) = p ++ concat (map (fun q => 32%Z :: q) ps).
Proof.
  revert p. induction ps as [|q ps IH]; intro p; [cbn; now rewrite app_nil_r|].
  change (join (p :: q :: ps)) with (p ++ 32%Z :: join (q :: ps)). rewrite IH. reflexivity.
Qed.
Lemma decoded_acc tk al ids : forall vs acc, Forall2 (word_at al) ids vs -> acc <> [] ->
  decoded tk al ids acc = Ok (acc ++ concat (map (fun q => 32%Z :: q) (map (tok_decode tk) vs))).
Proof.
  induction ids as [|i ids IH]; intros vs acc H Ha; inversion H as [|? v ? vs' Hi Hv]; subst.
  - cbn. now rewrite app_nil_r.
  - cbn [decoded]. unfold vget. unfold word_at in Hi. rewrite Hi. cbn [bind]. destruct acc as [|a acc]; [easy|].
    rewrite (IH vs'); [|exact Hv|destruct acc; discriminate]. cbn [map concat]. now rewrite <- !app_assoc.
Qed.
Lemma decoded_join tk al ids vs : Forall2 (word_at al) ids vs -> ~ In [] (map (tok_decode tk) vs) ->
  decoded tk al ids [] = Ok (join (map (tok_decode tk) vs)).
Proof.
  intros H Hne. destruct ids as [|i ids]; inversion H as [|? v ? vs' Hi Hv]; subst; [easy|].
  cbn [decoded]. unfold vget. unfold word_at in Hi. rewrite Hi. cbn [bind app]. cbn [map]. rewrite join_cons. apply decoded_acc; [exact Hv|].
  intro E. apply Hne. left. exact E.
Qed.
Lemma decoded_all_spec tk al rs outs : Forall2 (fun ids out => decoded tk al ids [] = Ok out) rs outs -> decoded_all tk al rs = Ok outs.
Proof. induction 1 as [|ids out rs outs H1 H2 IH]; [easy|]. cbn [decoded_all]. rewrite H1. cbn [bind]. now rewrite IH. Qed.

(** ** Batches of texts *)
Lemma transform_all_coded ss : forall t cs t', tok_ok t -> tok_transform_all true t ss = Ok (cs, t') ->
  tok_ok t' /\ tok_ext t t' /\ Forall2 (fun s ids => exists ws, tokens_of (tkind t) s ws /\ coded t' ws ids) ss cs.
Proof.
  unfold tok_transform_all. induction ss as [|s ss IH]; intros t cs t' Ht H; cbn [mapM] in H.
  - injection H as <- <-. split; [exact Ht|]. split; [apply tok_ext_refl|constructor].
  - apply bind_ok in H as ([ids t1] & H1 & H). apply bind_ok in H as ([cs' t2] & H2 & H). injection H as <- <-.
    destruct (transform_coded _ _ _ _ Ht H1) as (ws & Hw & Hk & He & Hc). destruct (IH _ _ _ Hk H2) as (G1 & G2 & G3).
    split; [exact G1|]. split; [now apply tok_ext_trans with t1|]. destruct He as [Ek _]. rewrite Ek in G3. constructor; [|exact G3].
    exists ws. split; [exact Hw|]. exact (coded_ext _ _ _ _ G2 Hc).
Qed.
Lemma transform_all_total ss : forall t, tok_ok t -> (forall s, In s ss -> readable (tkind t) s) -> exists cs t', tok_transform_all true t ss = Ok (cs, t').
Proof.
  unfold tok_transform_all. induction ss as [|s ss IH]; intros t Ht H; cbn [mapM].
  - now exists [], t.
  - destruct (transform_total t s Ht (H s (or_introl eq_refl))) as (ids & t1 & E1). rewrite E1. cbn [bind].
    destruct (transform_coded _ _ _ _ Ht E1) as (_ & _ & Hk & [Ek _] & _).
    destruct (IH t1 Hk) as (cs & t2 & E2); [intros u Hu; rewrite Ek; apply H; now right|]. rewrite E2. cbn [bind]. now exists (ids :: cs), t2.
Qed.

Section P.
  Context (fl : fops) (L : flaws fl).

  (** ** C48 *)
  Lemma new_tstream_tok size inner words z0 : new_tstream fl size inner words = Ok z0 ->
    tst z0 = new_stream fl size /\ ttok z0 = new_tok (if words then WordTok else CharTok).
  Proof. unfold new_tstream, check_args. cbn [twords tinner]. destruct (words && inner); [discriminate|]. now intros [= <-]. Qed.

  Lemma text_lossless size inner words z0 N ops z s : new_tstream fl size inner words = Ok z0 -> thist fl z0 ops z -> tnormal fl N ops -> In TUpdate ops ->
    readable (if words then WordTok else CharTok) s -> (thandled fl ops + Z.of_nat (length s) <= 2 ^ 48)%Z -> (Z.of_nat (length s) <= 2 ^ 40)%Z ->
    exists pieces z' al, t_parse fl true z s = Ok (pieces, z') /\ t_alphabet fl z' = Ok al /\ incl pieces al /\
    exists ws ks, tokens_of (if words then WordTok else CharTok) s ws /\ only (token_in (if words then WordTok else CharTok) (tfed fl ops)) ws ks /\
      concat pieces = concat ks.
  Proof.
    intros E0 H Hn Hu Hr Hh Hl. set (k := if words then WordTok else CharTok) in *. destruct (new_tstream_tok _ _ _ _ E0) as [Es Et].
    assert (Hk0 : tok_ok (ttok z0)) by (rewrite Et; apply tok_ok_new).
    destruct (thist_int fl z0 ops z Hk0 H) as (iops & Hs & Hc & Hk & He). rewrite Es in Hs. rewrite Et in Hc. cbn [tkind new_tok] in Hc. fold k in Hc.
    assert (Ek : tkind (ttok z) = k) by (destruct He as [-> _]; now rewrite Et).
    destruct (coded_normal fl _ _ _ _ _ Hc Hn) as [Hin Hih]. rewrite <- Ek in Hr.
    destruct (transform_total _ _ Hk Hr) as (ids & tk & Etr). destruct (transform_coded _ _ _ _ Hk Etr) as (ws & Hws & Hk' & He' & Hcd). rewrite Ek in Hws.
    pose proof (tokens_len _ _ _ Hws) as Hlen. pose proof (Forall2_len _ _ _ Hcd) as Hlen'.
    assert (Hl1 : (Z.of_nat (length ids) <= Z.of_nat (length s))%Z) by (unfold text, seq in *; lia).
    destruct (fresh_lossless fl L size N iops (tst z) ids Hs Hin (coded_update fl _ _ _ _ Hc Hu)) as (r & z' & al & al' & Ep & Hal & Hal' & Hsp & _); [lia|lia|].
    destruct (spells_in _ _ _ Hsp) as (vs & Hv & Hcv & Hva).
    exists (map (tok_decode tk) vs), (mkTStream z' tk (twords z) (tinner z)), (tok_decode_all tk al'). split; [|split; [|split]].
    - unfold t_parse. rewrite Etr. cbn [bind]. rewrite Ep. cbn [bind]. now rewrite (token_words_spec fl z' tk al' r vs Hal' Hv).
    - unfold t_alphabet. cbn [tst ttok]. now rewrite Hal'.
    - intros p Hp. apply in_map_iff in Hp as (v & <- & Hv'). apply in_map. now apply Hva.
    - destruct (restrict_only (seen fl iops) (token_in k (tfed fl ops)) tk ws ids Hcd) as (ks & Ho & Hcks).
      + intros w i Hw. exact (coded_ops_seen fl k tk ops iops Hk' (coded_ops_ext fl k _ _ _ _ He' Hc) w i Hw).
      + exists ws, ks. split; [exact Hws|]. split; [exact Ho|]. rewrite <- (decode_tokens _ _ _ Hk' Hcks), <- Hcv. symmetry. apply decode_concat.
  Qed.

  (** One-character tokens. *)
  Lemma only_single (P : text -> Prop) n ks : only P (map (fun c => [c]) n) ks -> exists r, only (fun c => P [c]) n r /\ concat ks = r.
  Proof.
    revert ks. induction n as [|c n IH]; cbn [map]; intros ks H; inversion H as [|x l r Hp Hr|x l r Hp Hr]; subst.
    - exists []. split; [constructor|easy].
    - destruct (IH _ Hr) as (r' & H1 & <-). exists (c :: concat r). split; [now constructor|easy].
    - destruct (IH _ Hr) as (r' & H1 & <-). exists (concat ks). split; [now constructor|easy].
  Qed.
  Lemma token_char texts c : token_in CharTok texts [c] <-> exists t m, In t texts /\ normal_form t m /\ In c m.
  Proof.
    split.
    - intros (s & ws & H1 & (m & Hm & ->) & H3). apply in_map_iff in H3 as (c' & [= ->] & H3). now exists s, m.
    - intros (t & m & H1 & H2 & H3). exists t, (map (fun c => [c]) m). split; [exact H1|]. split; [now exists m|]. now apply (in_map (fun c => [c])).
  Qed.
  Lemma only_ext {A} (P Q : A -> Prop) l r : (forall x, P x <-> Q x) -> only P l r -> only Q l r.
  Proof. intros H. induction 1; [constructor|apply only_keep; [now apply H|easy]|apply only_drop; [now rewrite <- H|easy]]. Qed.
  Lemma text_chars size inner z0 N ops z s : new_tstream fl size inner false = Ok z0 -> thist fl z0 ops z -> tnormal fl N ops -> In TUpdate ops ->
    ascii_text s -> (thandled fl ops + Z.of_nat (length s) <= 2 ^ 48)%Z -> (Z.of_nat (length s) <= 2 ^ 40)%Z ->
    exists pieces z' al n r, t_parse fl true z s = Ok (pieces, z') /\ t_alphabet fl z' = Ok al /\ incl pieces al /\
    normal_form s n /\ only (fun c => exists t m, In t (tfed fl ops) /\ normal_form t m /\ In c m) n r /\ concat pieces = r.
  Proof.
    intros E0 H Hn Hu Hr Hh Hl. destruct (text_lossless size inner false z0 N ops z s E0 H Hn Hu Hr Hh Hl) as (pieces & z' & al & H1 & H2 & H3 & ws & ks & (n & Hn' & ->) & Ho & Hc).
    destruct (only_single _ _ _ Ho) as (r & Hr' & E). exists pieces, z', al, n, r. do 4 (split; [assumption|]). split; [|now rewrite Hc].
    apply (only_ext (fun c => token_in CharTok (tfed fl ops) [c])); [intro c; apply token_char|exact Hr'].
  Qed.
  Lemma text_words size inner z0 N ops z s : new_tstream fl size inner true = Ok z0 -> thist fl z0 ops z -> tnormal fl N ops -> In TUpdate ops ->
    (thandled fl ops + Z.of_nat (length s) <= 2 ^ 48)%Z -> (Z.of_nat (length s) <= 2 ^ 40)%Z ->
    exists pieces z' al ks, t_parse fl true z s = Ok (pieces, z') /\ t_alphabet fl z' = Ok al /\ incl pieces al /\
    only (fun w => exists t, In t (tfed fl ops) /\ In w (tokenize WordTok t)) (tokenize WordTok s) ks /\ concat pieces = concat ks.
  Proof.
    intros E0 H Hn Hu Hh Hl. destruct (text_lossless size inner true z0 N ops z s E0 H Hn Hu I Hh Hl) as (pieces & z' & al & H1 & H2 & H3 & ws & ks & Hw & Ho & Hc).
    cbn [tokens_of] in Hw. subst ws. exists pieces, z', al, ks. do 3 (split; [assumption|]). split; [|exact Hc].
    apply (only_ext (token_in WordTok (tfed fl ops))); [|exact Ho]. intro w. split.
    - intros (t & ws & G1 & -> & G3). now exists t.
    - intros (t & G1 & G2). exists t, (tokenize WordTok t). now split.
  Qed.

  (** ** C49 *)
  (** An object that parses without change and whose words are made of known tokens. *)
  Record reader (k : tok_kind) (texts : list text) (v : vgram fl) (tk : tokenizer) (known : list Z) (al : list seq) : Prop := {
    re_kind : tkind tk = k;
    re_tok : tok_ok tk;
    re_parse : forall y : seq, (Z.of_nat (length y) <= 2 ^ 40)%Z -> exists ids, s_parse fl (vs v) y = Ok (ids, vs v) /\ spells al ids (restrict known y);
    re_al : s_alphabet fl (vs v) = Ok al;
    re_ne : ~ In [] al;
    re_sym : forall w c, In w al -> In c w -> In c known;
    re_known : forall i, In i known -> exists w, mfind seq_eqb (tfwd tk) w = Some i /\ token_in k texts w;
    re_tokens : forall w, token_in k texts w -> exists i, In i known /\ mfind seq_eqb (tfwd tk) w = Some i
  }.
  Lemma reader_ext k texts v tk tk' known al : reader k texts v tk known al -> tok_ok tk' -> tok_ext tk tk' -> reader k texts v tk' known al.
  Proof.
    intros R Hk He. destruct R as [R1 R2 R3 R4 R5 R6 R7 R8]. split; try assumption.
    - destruct He as [-> _]. exact R1.
    - intros i Hi. destruct (R7 i Hi) as (w & H1 & H2). exists w. split; [now apply He|exact H2].
    - intros w Hw. destruct (R8 w Hw) as (i & H1 & H2). exists i. split; [exact H1|now apply He].
  Qed.
  Lemma token_nonempty k texts w : token_in k texts w -> w <> [].
  Proof. intros (s & ws & _ & H & Hi). exact (tokens_nonempty _ _ _ _ H Hi). Qed.
  Lemma reader_word k texts v tk known al w : reader k texts v tk known al -> In w al -> tok_decode tk w <> [].
  Proof.
    intros R Hw. destruct w as [|c w]; [destruct (re_ne _ _ _ _ _ _ R Hw)|]. cbn [tok_decode].
    destruct (re_known _ _ _ _ _ _ R c (re_sym _ _ _ _ _ _ R _ c Hw (or_introl eq_refl))) as (u & Hu & Ht).
    pose proof (re_tok _ _ _ _ _ _ R) as (_ & Hb & _). rewrite (proj1 (Hb u c) Hu). apply token_nonempty in Ht. now destruct u.
  Qed.
  Lemma reader_batch k texts v tk known al : reader k texts v tk known al -> forall ys,
    (forall y, In y ys -> readable k y /\ (Z.of_nat (length y) <= 2 ^ 40)%Z) ->
    exists outs tk', tok_ok tk' /\ tok_ext tk tk' /\ Forall2 (reads k texts (tok_decode_all tk' al)) ys outs /\
      forall w, exists m, kept (w_term w) (length ys) m /\ tv_transform fl true w (mkTVGram v tk) ys = Ok (firstn m outs, mkTVGram v tk').
  Proof.
    intros R ys Hy. destruct (transform_all_total ys tk (re_tok _ _ _ _ _ _ R)) as (cs & tk' & Et).
    { intros s Hs. rewrite (re_kind _ _ _ _ _ _ R). now apply Hy. }
    destruct (transform_all_coded _ _ _ _ (re_tok _ _ _ _ _ _ R) Et) as (Hk' & He' & Hcs). rewrite (re_kind _ _ _ _ _ _ R) in Hcs.
    pose proof (reader_ext _ _ _ _ _ _ _ R Hk' He') as R'.
    assert (E : exists rs outs, Forall2 (fun c ids => s_parse fl (vs v) c = Ok (ids, vs v)) cs rs /\ Forall2 (fun ids out => decoded tk' al ids [] = Ok out) rs outs /\
      Forall2 (reads k texts (tok_decode_all tk' al)) ys outs).
    { clear Et. induction Hcs as [|y c ys cs (ws & Hw & Hc) Hcs IH]; [exists [], []; repeat constructor|].
      destruct IH as (rs & outs & I1 & I2 & I3); [intros u Hu; apply Hy; now right|]. destruct (Hy y (or_introl eq_refl)) as [_ Hl].
      pose proof (Forall2_len _ _ _ Hc) as L1. pose proof (tokens_len _ _ _ Hw) as L2.
      destruct (re_parse _ _ _ _ _ _ R' c) as (ids & Hp & Hs); [unfold text, seq in *; lia|]. destruct (spells_in _ _ _ Hs) as (vs' & Hv & Hcv & Hva).
      assert (Hne : ~ In [] (map (tok_decode tk') vs')).
      { intro Hi. apply in_map_iff in Hi as (u & Eu & Hu). now apply (reader_word _ _ _ _ _ _ u R' (Hva u Hu)). }
      exists (ids :: rs), (join (map (tok_decode tk') vs') :: outs). split; [now constructor|]. split; [constructor; [exact (decoded_join tk' al ids vs' Hv Hne)|exact I2]|].
      constructor; [|exact I3]. destruct (restrict_only known (token_in k texts) tk' ws c Hc) as (ks & Ho & Hck).
      - intros w i Hwi. split.
        + intro Hi. destruct (re_known _ _ _ _ _ _ R' i Hi) as (w' & H1 & H2). now rewrite (code_inj _ _ _ _ Hk' Hwi H1).
        + intro Hi. destruct (re_tokens _ _ _ _ _ _ R' w Hi) as (i' & H1 & H2). congruence.
      - exists ws, ks, (map (tok_decode tk') vs'). split; [exact Hw|]. split; [exact Ho|]. split; [now split|]. split.
        + intros p Hin. apply in_map_iff in Hin as (u & <- & Hu). apply in_map. now apply Hva.
        + rewrite <- (decode_tokens _ _ _ Hk' Hck), <- Hcv. symmetry. apply decode_concat. }
    destruct E as (rs & outs & E1 & E2 & E3). exists outs, tk'. split; [exact Hk'|]. split; [exact He'|]. split; [exact E3|]. intro w.
    destruct (batch_pure fl v cs rs E1 w) as (m & Hm & Ht). exists m. pose proof (Forall2_len _ _ _ Hcs) as L1. unfold text, seq in *. rewrite L1. split; [exact Hm|].
    unfold tv_transform. cbn [tvtok tv]. unfold text, seq in *. rewrite Et. cbn [bind]. rewrite Ht. cbn [bind]. rewrite (re_al _ _ _ _ _ _ R). cbn [bind].
    rewrite (decoded_all_spec tk' al (firstn m rs) (firstn m outs)); [easy|]. clear -E2. revert m. induction E2; intros [|m]; cbn [firstn]; constructor; auto.
  Qed.

  (** Earlier transforms change nothing but the tokenizer. *)
  Lemma reader_transformed_ext k texts v tk known al v2 : reader k texts v tk known al -> transformed fl (mkTVGram v tk) v2 ->
    exists tk2, v2 = mkTVGram v tk2 /\ reader k texts v tk2 known al /\ tok_ext tk tk2.
  Proof.
    intros R H. induction H as [|v1 w xs r v2 H (tk1 & -> & R1 & X1) Hl Ht]; [exists tk; split; [easy|split; [exact R|apply tok_ext_refl]]|]. unfold tv_transform in Ht. cbn [tvtok tv] in Ht.
    apply bind_ok in Ht as ([cs tk2] & Et & Ht). destruct (transform_all_coded _ _ _ _ (re_tok _ _ _ _ _ _ R1) Et) as (Hk2 & He2 & Hcs).
    apply bind_ok in Ht as ([rs v'] & Etr & Ht). apply bind_ok in Ht as (al' & _ & Ht). apply bind_ok in Ht as (l & _ & Ht). injection Ht as _ <-.
    exists tk2. split; [|split; [exact (reader_ext _ _ _ _ _ _ _ R1 Hk2 He2)|exact (tok_ext_trans _ _ _ X1 He2)]]. f_equal.
    assert (E : exists ids, Forall2 (fun c ids => s_parse fl (vs v) c = Ok (ids, vs v)) cs ids).
    { clear Etr Et. induction Hcs as [|y c ys cs (ws & Hw & Hc) Hcs IH]; [now exists []|]. inversion Hl; subst. destruct IH as (rs' & IH); [assumption|].
      pose proof (Forall2_len _ _ _ Hc) as L1. pose proof (tokens_len _ _ _ Hw) as L2.
      destruct (re_parse _ _ _ _ _ _ R1 c) as (ids & Hp & _); [unfold text, seq in *; lia|]. exists (ids :: rs'). now constructor. }
    destruct E as (ids & E). destruct (batch_pure fl v cs ids E w) as (m & _ & E'). congruence.
  Qed.
  Lemma reader_transformed k texts v tk known al v2 : reader k texts v tk known al -> transformed fl (mkTVGram v tk) v2 ->
    exists tk2, v2 = mkTVGram v tk2 /\ reader k texts v tk2 known al.
  Proof. intros R H. destruct (reader_transformed_ext _ _ _ _ _ _ _ R H) as (tk2 & E & R2 & _). now exists tk2. Qed.

  (** A good fit makes a reader. *)
  Lemma drawn_in w xs ops0 n i : In i (seen fl (ops0 ++ sampling fl w xs n)) -> In i (seen fl ops0) \/ In i (concat xs).
  Proof.
    unfold seen, fed. rewrite flat_map_app, concat_app, in_app_iff. intros [H|H]; [now left|right].
    apply in_concat in H as (s & Hs & Hi). apply in_flat_map in Hs as (op & Hop & Hs). unfold sampling in Hop. apply in_flat_map in Hop as (j & _ & Hop).
    unfold round in Hop. apply in_app_or in Hop as [Hop|[<-|[]]]; [|easy]. apply in_map_iff in Hop as (t & <- & _). unfold draw in Hs. cbn [op_fed] in Hs.
    destruct Hs as [<-|[]]. unfold drawn in Hi. apply in_concat. exists (nth (Z.to_nat (w_rand w t mod Z.of_nat (length xs))) xs []). split; [|exact Hi].
    destruct (nth_in_or_default (Z.to_nat (w_rand w t mod Z.of_nat (length xs))) xs []) as [G|G]; [exact G|]. rewrite G in Hi. easy.
  Qed.
  Lemma fit_reader k size N iter w texts codes tk ops al : tok_transform_all true (new_tok k) texts = Ok (codes, tk) ->
    good_fit fl size N [] w (new_vgram fl size iter) codes ops al ->
    exists v, fit fl w (new_vgram fl size iter) codes = Ok (true, v) /\ reader k texts v tk (seen fl ops) al.
  Proof.
    intros Et G. destruct (transform_all_coded _ _ _ _ (tok_ok_new k) Et) as (Hk & [Ek _] & Hcs). cbn [tkind new_tok] in *.
    destruct (good_start fl L _ _ _ _ _ _ _ _ G) as (z & d & fs & b & acc & E & R & Eal & _).
    set (v := mkVGram _ _ _ _) in *. exists v. split; [exact E|].
    assert (Hsym : forall u c, In u al -> In c u -> In c (seen fl ops)).
    { intros u c Hu Hc. rewrite Eal in Hu. apply in_map_iff in Hu as (x & <- & Hx). unfold decw in Hc. apply in_map_iff in Hc as (q & <- & Hq).
      pose proof (rd_range _ _ _ _ R x Hx q Hq) as Hr. assert (Hi : In (nth (Z.to_nat q) (symbols_of fl [] ops) 0%Z) (symbols_of fl [] ops)) by (apply nth_In; lia).
      unfold symbols_of in Hi at 2. apply adds_in in Hi as [[]|Hi]. exact Hi. }
    assert (Hdata : forall i, In i (seen fl ops) <-> In i (concat codes)).
    { intro i. pose proof G as (_ & _ & Eops & _ & _ & _ & _ & _ & _ & Hx & _). split.
      - rewrite Eops. intro Hi. apply drawn_in in Hi as [[]|Hi]. exact Hi.
      - intro Hi. apply in_concat in Hi as (x & Hxx & Hi). destruct (Hx x Hxx) as [Hc _]. exact (Hsym [i] i (Hc i Hi) (or_introl eq_refl)). }
    split.
    - exact Ek.
    - exact Hk.
    - intros y Hl. refine (fitted_parses fl L _ _ _ _ _ _ _ _ v G E y _ Hl). intros c Hc. unfold restrict in Hc. apply filter_In in Hc as [_ Hc].
      destruct (in_dec Z.eq_dec c (seen fl ops)) as [Hi|]; [|discriminate]. apply (proj1 (Hdata c)) in Hi. apply in_concat in Hi as (x & Hx & Hi).
      destruct G as (_ & _ & _ & _ & _ & _ & _ & _ & _ & Hd & _). exact (proj1 (Hd x Hx) c Hi).
    - rewrite Eal. exact (ready_alphabet fl _ _ _ R).
    - rewrite Eal. intro Hi. apply in_map_iff in Hi as (u & Eu & Hu). destruct u; [|discriminate Eu]. now apply (rd_ne _ _ _ _ R [] Hu).
    - exact Hsym.
    - intros i Hi. apply Hdata in Hi. clear -Hi Hcs. induction Hcs as [|s c ss cs (ws & Hw & Hc) Hcs IH]; [easy|]. cbn [concat] in Hi.
      apply in_app_or in Hi as [Hi|Hi].
      + assert (Hx : exists u, In u ws /\ mfind seq_eqb (tfwd tk) u = Some i).
        { clear -Hc Hi. induction Hc as [|u j ws c Hu Hc IH]; [easy|]. destruct Hi as [->|Hi]; [exists u; split; [now left|exact Hu]|].
          destruct (IH Hi) as (u' & H1 & H2). exists u'. split; [now right|exact H2]. }
        destruct Hx as (u & Hu & Hf). exists u. split; [exact Hf|]. exists s, ws. split; [now left|easy].
      + destruct (IH Hi) as (u & H1 & s' & ws' & H2 & H3). exists u. split; [exact H1|]. exists s', ws'. split; [now right|exact H3].
    - intros u (s & ws & Hs & Hw & Hu). clear -Hdata Hcs Hs Hw Hu. assert (Hx : exists i, In i (concat codes) /\ mfind seq_eqb (tfwd tk) u = Some i).
      { clear Hdata. induction Hcs as [|s' c ss cs (ws' & Hw' & Hc) Hcs IH]; [easy|]. destruct Hs as [->|Hs].
        - rewrite <- (tokens_fun _ _ _ _ Hw Hw') in Hc. clear -Hc Hu. induction Hc as [|u' j ws c Hu' Hc IH]; [easy|]. destruct Hu as [->|Hu].
          + exists j. split; [now left|exact Hu'].
          + destruct (IH Hu) as (i & H1 & H2). exists i. split; [|exact H2]. cbn [concat app]. now right.
        - destruct (IH Hs) as (i & H1 & H2). exists i. split; [|exact H2]. cbn [concat]. apply in_or_app. now right. }
      destruct Hx as (i & H1 & H2). exists i. split; [now apply Hdata|exact H2].
  Qed.

  Lemma fitted_texts k size N iter w texts codes tk ops al : tok_transform_all true (new_tok k) texts = Ok (codes, tk) ->
    good_fit fl size N [] w (new_vgram fl size iter) codes ops al ->
    exists v, tv_fit fl true w (new_tvgram_with fl size iter (new_tok k)) texts = Ok v /\
    forall v1, transformed fl v v1 -> forall ys, (forall y, In y ys -> readable k y /\ (Z.of_nat (length y) <= 2 ^ 40)%Z) ->
    exists outs words v2, tv_alphabet fl v2 = Ok words /\ Forall2 (reads k texts words) ys outs /\
      forall w', exists m, kept (w_term w') (length ys) m /\ tv_transform fl true w' v1 ys = Ok (firstn m outs, v2).
  Proof.
    intros Et G. destruct (fit_reader _ _ _ _ _ _ _ _ _ _ Et G) as (v & Ef & R). exists (mkTVGram v tk). split.
    - unfold tv_fit, new_tvgram_with. cbn [tvtok tv]. rewrite Et. cbn [bind]. rewrite Ef. reflexivity.
    - intros v1 Hv1 ys Hy. destruct (reader_transformed _ _ _ _ _ _ _ R Hv1) as (tk1 & -> & R1).
      destruct (reader_batch _ _ _ _ _ _ R1 ys Hy) as (outs & tk2 & Hk2 & He2 & Hr & Hw). exists outs, (tok_decode_all tk2 al), (mkTVGram v tk2).
      split; [|split; [exact Hr|exact Hw]]. unfold tv_alphabet. cbn [tv tvtok]. now rewrite (re_al _ _ _ _ _ _ R).
  Qed.

  (** Characters: removing the spaces. *)
  Lemma no_spaces_app a b : no_spaces (a ++ b) = no_spaces a ++ no_spaces b.
  Proof. apply filter_app. Qed.
  Lemma no_spaces_id s : ~ In 32%Z s -> no_spaces s = s.
  Proof.
    induction s as [|c s IH]; intro H; [easy|]. unfold no_spaces in *. cbn [filter]. destruct (Z.eqb_spec c 32) as [->|_]; [destruct H; now left|].
    cbn [negb]. now rewrite IH by (intro Hi; apply H; now right).
  Qed.
  Lemma no_spaces_join ps : (forall p, In p ps -> ~ In 32%Z p) -> no_spaces (join ps) = concat ps.
  Proof.
    destruct ps as [|p ps]; intro H; [easy|]. rewrite join_cons, no_spaces_app, no_spaces_id by (apply H; now left). cbn [concat]. f_equal.
    induction ps as [|q ps IH]; [easy|]. cbn [map concat]. change ((32%Z :: q) ++ ?x) with ([32%Z] ++ q ++ x). rewrite !no_spaces_app.
    rewrite (no_spaces_id q) by (apply H; right; now left). cbn [no_spaces filter Z.eqb Pos.eqb negb app]. f_equal. apply IH.
    intros u [->|Hu]; apply H; [now left|right; now right].
  Qed.
  Lemma normal_form_space s n : normal_form s n -> ~ In 32%Z n.
  Proof. induction 1 as [|c l s r Hk H IH|c s r Hk H IH]; [easy| |exact IH]. intros [->|Hi]; [apply kept_range in Hk; lia|easy]. Qed.
  Lemma only_incl {A} (P : A -> Prop) l r : only P l r -> incl r l.
  Proof. induction 1 as [|x l r Hp H IH|x l r Hp H IH]; intros y Hy; [easy| |right; now apply IH]. destruct Hy as [->|Hy]; [now left|right; now apply IH]. Qed.
  Lemma reads_chars texts words y out : reads CharTok texts words y out ->
    exists n r pieces, normal_form y n /\ only (fun c => exists t m, In t texts /\ normal_form t m /\ In c m) n r /\
      spaced out pieces /\ incl pieces words /\ concat pieces = r /\ no_spaces out = r.
  Proof.
    intros (ws & ks & pieces & (n & Hn & ->) & Ho & [Hne Ej] & Hi & Hc). destruct (only_single _ _ _ Ho) as (r & Hr & E). exists n, r, pieces.
    split; [exact Hn|]. split; [apply (only_ext (fun c => token_in CharTok texts [c])); [intro c; apply token_char|exact Hr]|]. split; [now split|]. split; [exact Hi|].
    split; [congruence|]. rewrite Ej, no_spaces_join; [congruence|]. intros p Hp H32. apply (normal_form_space _ _ Hn), (only_incl _ _ _ Hr).
    rewrite <- E, <- Hc. apply in_concat. now exists p.
  Qed.
  Lemma fitted_chars size N iter w texts codes tk ops al : tok_transform_all true (new_tok CharTok) texts = Ok (codes, tk) ->
    good_fit fl size N [] w (new_vgram fl size iter) codes ops al ->
    exists v, tv_fit fl true w (new_tvgram fl size iter) texts = Ok v /\
    forall v1, transformed fl v v1 -> forall ys, (forall y, In y ys -> ascii_text y /\ (Z.of_nat (length y) <= 2 ^ 40)%Z) ->
    exists outs words v2, tv_alphabet fl v2 = Ok words /\
      Forall2 (fun y out => exists n r pieces, normal_form y n /\ only (fun c => exists t m, In t texts /\ normal_form t m /\ In c m) n r /\
        spaced out pieces /\ incl pieces words /\ concat pieces = r /\ no_spaces out = r) ys outs /\
      forall w', exists m, kept (w_term w') (length ys) m /\ tv_transform fl true w' v1 ys = Ok (firstn m outs, v2).
  Proof.
    intros Et G. destruct (fitted_texts CharTok _ _ _ _ _ _ _ _ _ Et G) as (v & Ef & H). exists v. split; [exact Ef|]. intros v1 H1 ys Hy.
    destruct (H v1 H1 ys Hy) as (outs & words & v2 & Ha & Hr & Hw). exists outs, words, v2. split; [exact Ha|]. split; [|exact Hw].
    clear -Hr. induction Hr as [|y out ys outs Hr1 Hr IH]; constructor; [exact (reads_chars _ _ _ _ Hr1)|exact IH].
  Qed.

  (** ** C50 *)
  Lemma options size inner words :
    (new_tstream fl size inner words = Throw InvalidArg <-> inner = true /\ words = true) /\
    (~ (inner = true /\ words = true) -> exists z, new_tstream fl size inner words = Ok z /\
      forall e s z', t_accept fl true e z s = Ok z' -> exists ws ids, tokens_of (if words then WordTok else CharTok) s ws /\
        s_accept fl e (new_stream fl size) ids = Ok (tst z') /\ length ws = length ids /\
        forall i j w w' x y, nth_error ws i = Some w -> nth_error ws j = Some w' -> nth_error ids i = Some x -> nth_error ids j = Some y -> (w = w' <-> x = y)).
  Proof.
    unfold new_tstream, check_args. cbn [twords tinner]. split; [destruct inner, words; cbn; intuition discriminate|].
    intro H. assert (E : words && inner = false) by (destruct words, inner; cbn; try easy; now destruct H). rewrite E. eexists. split; [reflexivity|].
    intros e s z' Ha. unfold t_accept in Ha. cbn [ttok tst] in Ha. apply bind_ok in Ha as ([ids tk] & Et & Ha). apply bind_ok in Ha as (z1 & Hz & Ha). injection Ha as <-.
    cbn [tst]. destruct (transform_coded _ _ _ _ (tok_ok_new _) Et) as (ws & Hw & Hk & _ & Hc). exists ws, ids. split; [exact Hw|]. split; [exact Hz|].
    split; [exact (Forall2_len _ _ _ Hc)|]. intros i j w w' x y Hi Hj Hx Hy.
    destruct (Forall2_nth _ _ _ i x Hc Hx) as (u & Hu & Hfu). destruct (Forall2_nth _ _ _ j y Hc Hy) as (u' & Hu' & Hfu').
    assert (u = w) as -> by (unfold text, seq in *; congruence). assert (u' = w') as -> by (unfold text, seq in *; congruence).
    cbn beta in Hfu, Hfu'. split; [intros ->; congruence|]. intros ->. exact (code_inj _ _ _ _ Hk Hfu Hfu').
  Qed.

  (** ** C61 *)
  Lemma unfitted_transform (v : tvgram fl) : tok_ok (tvtok v) -> zdict (vs (tv v)) = None -> (forall s, s_parse fl (vs (tv v)) s = UB NullDeref) ->
    forall w ys, (forall y, In y ys -> readable (tkind (tvtok v)) y) -> tv_transform fl true w v ys = UB NullDeref.
  Proof.
    intros Hk Hd Hp w ys Hy. destruct (transform_all_total ys (tvtok v) Hk Hy) as (cs & tk & E). unfold tv_transform. rewrite E. cbn [bind].
    unfold transform. destruct cs as [|c cs]; cbn [transform_loop bind].
    - unfold on_stream. cbn [vs]. unfold s_alphabet, the_dict. now rewrite Hd.
    - rewrite Hp. easy.
  Qed.
  Lemma interrupted_text size iter w texts N codes tk k : tok_transform_all true (new_tok CharTok) texts = Ok (codes, tk) ->
    normal fl N (sampling fl w codes (Z.to_nat iter)) -> roomy fl size (sampling fl w codes (Z.to_nat iter)) ->
    k < Z.to_nat iter * length codes -> w_term w k = true ->
    exists v, tv_fit fl true w (new_tvgram fl size iter) texts = Ok v /\ vfitted (tv v) = false /\
      (k < length texts -> forall w' ys, (forall y, In y ys -> ascii_text y) -> tv_transform fl true w' v ys = UB NullDeref).
  Proof.
    intros Et Hn Hr Hk Hw. destruct (transform_all_coded _ _ _ _ (tok_ok_new CharTok) Et) as (Hok & [Ek _] & Hcs). cbn [tkind new_tok] in Ek.
    pose proof (Forall2_len _ _ _ Hcs) as Hlen.
    destruct (interruption fl L size N [] w (new_vgram fl size iter) codes k eq_refl (sh_nil _ _) Hn Hr Hk Hw) as (v & Ef).
    destruct (fit_interrupted fl _ _ _ _ Ef) as (_ & Hv & _). exists (mkTVGram v tk). split; [|split; [exact Hv|]].
    - unfold tv_fit, new_tvgram. cbn [tvtok tv]. rewrite Et. cbn [bind]. rewrite Ef. reflexivity.
    - intros Hk1 w' ys Hy. unfold text, seq in *. rewrite Hlen in Hk1.
      assert (Hs : exists m, m < length codes /\ shist fl (new_stream fl size) (map (draw fl w codes) (List.seq 0 (S m))) (vs v)).
      { unfold fit in Ef. cbn [new_vgram vfitted vs viter] in Ef. destruct (Z.to_nat iter) as [|n]; [cbn in Hk; lia|]. cbn [rounds] in Ef.
        apply bind_ok in Ef as ([[stop t] z] & E & Ef). apply bind_ok in E as ([[stop1 t1] z1] & Es & E).
        apply sample_run in Es as [(_ & _ & _ & Hu)|(-> & m & Hm & _ & _ & Hs)]; [rewrite Hu in Hw; [discriminate Hw|unfold text, seq in *; lia]|].
        injection E as <- <- <-. injection Ef as <-. exists m. split; [exact Hm|exact Hs]. }
      destruct Hs as (m & Hm & Hs).
      assert (Hnu : ~ In SUpdate (map (draw fl w codes) (List.seq 0 (S m)))).
      { intro Hi. apply in_map_iff in Hi as (j & Ej & _). unfold draw in Ej. discriminate Ej. }
      assert (Hnm : normal fl N (map (draw fl w codes) (List.seq 0 (S m)))).
      { destruct (Z.to_nat iter) as [|n]; [cbn in Hk; lia|]. unfold sampling in Hn. cbn [List.seq flat_map] in Hn. unfold round in Hn at 1.
        assert (Es : List.seq (0 * length codes) (length codes) = List.seq 0 (S m) ++ List.seq (S m) (length codes - S m)).
        { change (S m) with (0 + S m) at 2. rewrite <- seq_app. f_equal. lia. }
        unfold text, seq in *. rewrite Es, map_app, <- !app_assoc in Hn. exact (normal_prefix fl N _ _ Hn). }
      destruct (before_update fl L size N _ _ Hs Hnm Hnu) as (Hp & _ & _). apply unfitted_transform; cbn [tvtok tv vs].
      + exact Hok.
      + exact (proj1 (no_update fl _ _ _ Hs eq_refl Hnu)).
      + exact Hp.
      + rewrite Ek. exact Hy.
  Qed.
  Lemma transform_before_fit size iter : forall w ys, (forall y, In y ys -> ascii_text y) ->
    tv_transform fl true w (new_tvgram fl size iter) ys = UB NullDeref.
  Proof.
    intros w ys Hy. apply unfitted_transform; [apply tok_ok_new|reflexivity| |exact Hy].
    assert (Hn : normal fl 0 []).
    { split; [intros e s []|]. split; [lia|]. split; [constructor|]. split; vm_compute; discriminate. }
    exact (proj1 (before_update fl L size 0 [] (new_stream fl size) (sh_nil _ _) Hn (fun x => x))).
  Qed.
End P.
