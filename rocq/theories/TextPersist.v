(** TextPersist: a fitted text model and its loaded copy (C52). *)
From Coq Require Import Ascii String Permutation Sorted.
From Verif Require Import Base Spec FloatOps FloatLaws ModelDict ModelCoder ModelTok Maps ModelStat ModelBuilder ModelStream ModelVGram ModelString ModelJson ModelPersist
  OrderProofs DictProofs CoderProofs TokProofs SpecStat SpecBuilder StatProofs RunProofs StreamProofs VGramProofs PropsStreamLemmas PropsVGramLemmas StringProofs PropsStringLemmas
  PersistProofs PropsPersistLemmas SpecTok SpecJson SpecStream SpecVGram SpecString SpecPersist.
Local Open Scope Z_scope.
Local Open Scope list_scope.

Lemma upd_id {A} (l : list A) : forall i x, nth_error l i = Some x -> upd l i x = l.
Proof. induction l as [|a l IH]; intros [|i] x H; cbn in *; try easy; [now injection H as ->|now rewrite IH]. Qed.

(** ** What a tokenizer knows *)
Lemma code_tokens_only ws : forall t ids t', tok_ok t -> mapM (code_token true) ws t = Ok (ids, t') ->
  forall w i, mfind seq_eqb (tfwd t') w = Some i -> mfind seq_eqb (tfwd t) w = Some i \/ In w ws.
Proof.
  induction ws as [|u ws IH]; intros t ids t' Ht H w i Hw; cbn [mapM] in H; [injection H as <- <-; now left|].
  destruct (code_token_ok t u Ht) as (j & t1 & E & H1 & _ & _ & _ & Ho). rewrite E in H. cbn [bind] in H.
  apply bind_ok in H as ([js t2] & H2 & H). injection H as <- <-. destruct (IH _ _ _ H1 H2 w i Hw) as [G|G]; [|right; now right].
  destruct (Ho w i G) as [G'|G']; [now left|right; now left].
Qed.
Lemma transform_only t s ids t' : tok_ok t -> tok_transform true t s = Ok (ids, t') ->
  forall w i, mfind seq_eqb (tfwd t') w = Some i -> mfind seq_eqb (tfwd t) w = Some i \/ exists ws, tokens_of (tkind t) s ws /\ In w ws.
Proof.
  intros Ht H w i Hw. unfold tok_transform in H. apply bind_ok in H as (n & Hn & H). destruct (code_tokens_only _ _ _ _ Ht H w i Hw) as [G|G]; [now left|right].
  exists (tokenize (tkind t) n). split; [exact (tokens_norm _ _ _ Hn)|exact G].
Qed.
Lemma transform_all_only ss : forall t cs t', tok_ok t -> tok_transform_all true t ss = Ok (cs, t') ->
  forall w i, mfind seq_eqb (tfwd t') w = Some i -> mfind seq_eqb (tfwd t) w = Some i \/ token_in (tkind t) ss w.
Proof.
  unfold tok_transform_all. induction ss as [|s ss IH]; intros t cs t' Ht H w i Hw; cbn [mapM] in H; [injection H as <- <-; now left|].
  apply bind_ok in H as ([ids t1] & H1 & H). apply bind_ok in H as ([cs' t2] & H2 & H). injection H as <- <-.
  destruct (transform_coded _ _ _ _ Ht H1) as (_ & _ & Hk & [Ek _] & _). destruct (IH _ _ _ Hk H2 w i Hw) as [G|G].
  - destruct (transform_only _ _ _ _ Ht H1 w i G) as [G'|(ws & G1 & G2)]; [now left|right]. exists s, ws. split; [now left|easy].
  - right. destruct G as (s' & ws & G1 & G2 & G3). exists s', ws. rewrite Ek in G2. split; [now right|easy].
Qed.

(** A token of the character tokenizer is one letter or digit. *)
Definition alnum_token (w : text) : Prop := exists c, w = [c] /\ 48 <= c < 128.
Definition alnum_tok (t : tokenizer) : Prop := forall w i, mfind seq_eqb (tfwd t) w = Some i -> alnum_token w.
Lemma normal_alnum s n : normal_form s n -> forall c, In c n -> 48 <= c < 128.
Proof.
  induction 1 as [|c l s r Hk H IH|c s r Hk H IH]; intros x Hx; [easy| |now apply IH]. destruct Hx as [<-|Hx]; [|now apply IH]. exact (proj2 (kept_range _ _ Hk)).
Qed.
Lemma token_alnum ss w : token_in CharTok ss w -> alnum_token w.
Proof. intros (s & ws & _ & (n & Hn & ->) & Hw). apply in_map_iff in Hw as (c & <- & Hc). exists c. split; [easy|exact (normal_alnum _ _ Hn c Hc)]. Qed.
Lemma transform_all_alnum ss t cs t' : tok_ok t -> tkind t = CharTok -> alnum_tok t -> tok_transform_all true t ss = Ok (cs, t') -> alnum_tok t'.
Proof.
  intros Ht Hk Ha H w i Hw. destruct (transform_all_only _ _ _ _ Ht H w i Hw) as [G|G]; [exact (Ha w i G)|]. rewrite Hk in G. exact (token_alnum _ _ G).
Qed.
Lemma alnum_chars t : tok_ok t -> alnum_tok t -> char_tok t.
Proof.
  intros (_ & Hb & _) Ha i w Hw. apply Hb in Hw. destruct (Ha w i Hw) as (c & -> & Hc). constructor; [lia|constructor].
Qed.
Lemma alnum_ascii t v : tok_ok t -> alnum_tok t -> ascii_text (tok_decode t v).
Proof.
  intros (_ & Hb & _) Ha. induction v as [|i v IH]; [intros c []|]. cbn [tok_decode]. destruct (mfind Z.eqb (tbwd t) i) as [w|] eqn:E; [|exact IH].
  apply Hb in E. destruct (Ha w i E) as (c & -> & Hc). intros x [<-|Hx]; [lia|now apply IH].
Qed.

(** ** Symbols that are words *)
Definition single (w : seq) : list Z := match w with [s] => [s] | _ => [] end.
Definition singles (al : list seq) : list Z := flat_map single al.
Lemma single_in al s : In s (singles al) <-> In [s] al.
Proof.
  unfold singles. rewrite in_flat_map. split.
  - intros (w & Hw & Hs). destruct w as [|a [|b w]]; try easy. destruct Hs as [->|[]]. exact Hw.
  - intro H. exists [s]. split; [exact H|now left].
Qed.
Lemma singles_nodup al : NoDup al -> NoDup (singles al).
Proof.
  induction 1 as [|w al Hn Hd IH]; [constructor|]. unfold singles. cbn [flat_map]. destruct w as [|a [|b w]]; try exact IH. cbn [single app]. constructor; [|exact IH].
  intro H. apply Hn. now apply single_in.
Qed.

(** ** Two models that read alike *)
Section T.
  Context (fl : fops).
  Lemma alike_pure S z z' s ids : alike fl S z z' -> s_parse fl z s = Ok (ids, z) -> s_parse fl z' s = Ok (ids, z').
  Proof.
    intros [C C' Ef Et R R' (p & p' & d & Ep & Ep' & Hd & Hd')]. unfold s_parse, the_dict. rewrite (like_immutable S _ s C), (like_immutable S _ s C').
    destruct (alpha_total fl _ R) as (a & ->), (alpha_total fl _ R') as (a' & ->). cbn [bind]. rewrite Ep, Ep', Hd, Hd'. cbn [bind]. rewrite Ef, Et.
    destruct (parse_weighted fl d (enc S (restrict S s)) (zfreqs z) (fofZ fl (ztotal z)) []) as [[[i n] d1]|k|e|]; cbn [bind]; try discriminate.
    intro H. injection H as <- E. assert (d1 = d).
    { pose proof (put_get fl _ p d d1 Hd) as G. rewrite <- E in Hd. unfold put_dict in Hd. cbn [zb] in Hd. rewrite G in Hd. now injection Hd. }
    subst d1. do 2 f_equal. unfold put_dict, hput. destruct z' as [sz b zd c f t m]. cbn [zdict zb zcoder zfreqs ztotal zminp zsize] in *. f_equal. destruct b as [h b1 b2 b3 b4 b5 b6 b7 b8 b9]. unfold hget in Hd'. cbn [ModelBuilder.bheap bsize bsymb bptr bcur bres bpop bprob bbest bturns] in *. f_equal.
    apply vget_ok in Hd'. now apply upd_id.
  Qed.
  Lemma alike_reads S z z' s s' ids : alike fl S z z' -> restrict S s = restrict S s' -> s_parse fl z s = Ok (ids, z) -> s_parse fl z' s' = Ok (ids, z').
  Proof.
    intros H E Hp. rewrite <- (alike_pure S z z' s ids H Hp). unfold s_parse. now rewrite !(like_immutable S _ _ (ak_coder' _ _ _ _ H)), E.
  Qed.
  Lemma decoded_same tk tk' al ids : (forall w, In w al -> tok_decode tk w = tok_decode tk' w) -> forall acc, decoded tk al ids acc = decoded tk' al ids acc.
  Proof.
    intro H. induction ids as [|i ids IH]; intro acc; [reflexivity|]. cbn [decoded]. destruct (vget al i) as [w| | |] eqn:E; [|reflexivity..]. cbn [bind].
    apply vget_ok in E. rewrite (H w (nth_error_In _ _ E)). apply IH.
  Qed.
  Lemma decoded_all_same tk tk' al l : (forall w, In w al -> tok_decode tk w = tok_decode tk' w) -> decoded_all tk al l = decoded_all tk' al l.
  Proof. intro H. induction l as [|i l IH]; [reflexivity|]. cbn [decoded_all]. now rewrite (decoded_same tk tk' al i H), IH. Qed.
  Lemma loops_same w z z' xs xs' rs : Forall2 (fun x ids => s_parse fl z x = Ok (ids, z)) xs rs -> Forall2 (fun x ids => s_parse fl z' x = Ok (ids, z')) xs' rs ->
    forall t, exists r, transform_loop fl w xs t z = Ok (r, z) /\ transform_loop fl w xs' t z' = Ok (r, z').
  Proof.
    intro H. revert xs'. induction H as [|x ids xs rs Hx H IH]; intros xs' H' t; inversion H' as [|x' ids' xs1 rs' Hx' H1]; subst; [now exists []|].
    cbn [transform_loop]. rewrite Hx, Hx'. cbn [bind]. destruct (w_term w t); [now exists [ids]|]. destruct (IH _ H1 (Datatypes.S t)) as (r & -> & ->). cbn [bind]. now exists (ids :: r).
  Qed.

  (** [v] with [tk] and [v'] with [tk'] are two readers of the same texts. *)
  Record twins (k : tok_kind) (texts : list text) (S known : list Z) (al : list seq) (v : vgram fl) (tk : tokenizer) (v' : vgram fl) (tk' : tokenizer) : Prop := {
    tw_reader : reader fl k texts v tk known al;
    tw_reader' : reader fl k texts v' tk' known al;
    tw_alike : alike fl S (vs v) (vs v');
    tw_set : forall c, In c S <-> In c known;
    tw_agree : forall u i, token_in k texts u -> mfind seq_eqb (tfwd tk) u = Some i -> mfind seq_eqb (tfwd tk') u = Some i
  }.
  Lemma twins_ext k texts S known al v tk v' tk' tk1 tk1' : twins k texts S known al v tk v' tk' ->
    tok_ok tk1 -> tok_ext tk tk1 -> tok_ok tk1' -> tok_ext tk' tk1' -> twins k texts S known al v tk1 v' tk1'.
  Proof.
    intros [R R' A E G] H1 H2 H3 H4. split; [exact (reader_ext fl _ _ _ _ _ _ _ R H1 H2)|exact (reader_ext fl _ _ _ _ _ _ _ R' H3 H4)|exact A|exact E|].
    intros u i Hu Hi. apply H4. apply G; [exact Hu|]. destruct (re_tokens _ _ _ _ _ _ _ R u Hu) as (j & _ & Hj). pose proof (proj2 H2 u j Hj). congruence.
  Qed.
  Lemma twins_decode k texts S known al v tk v' tk' w : twins k texts S known al v tk v' tk' -> In w al -> tok_decode tk w = tok_decode tk' w.
  Proof.
    intros [R R' A E G] Hw. assert (H : forall c, In c w -> In c known) by (intros c Hc; exact (re_sym _ _ _ _ _ _ _ R w c Hw Hc)). clear Hw.
    induction w as [|c w IH]; [reflexivity|]. cbn [tok_decode]. rewrite IH by (intros; apply H; now right).
    destruct (re_known _ _ _ _ _ _ _ R c (H c (or_introl eq_refl))) as (u & Hu & Ht). pose proof (G u c Ht Hu) as Hu'.
    apply (proj1 (proj2 (re_tok _ _ _ _ _ _ _ R))) in Hu. apply (proj1 (proj2 (re_tok _ _ _ _ _ _ _ R'))) in Hu'. now rewrite Hu, Hu'.
  Qed.
  Lemma twins_codes k texts S known al v tk v' tk' ws c c' : twins k texts S known al v tk v' tk' -> coded tk ws c -> coded tk' ws c' -> restrict known c = restrict known c'.
  Proof.
    intros [R R' A E G] Hc. revert c'. induction Hc as [|u i ws c Hu Hc IH]; intros c' Hc'; inversion Hc' as [|? i' ? c1' Hu' Hc1]; subst; [reflexivity|].
    unfold restrict in *. cbn [filter]. rewrite (IH _ Hc1). destruct (in_dec Z.eq_dec i known) as [Hi|Hi].
    - destruct (re_known _ _ _ _ _ _ _ R i Hi) as (w & Hw & Ht). rewrite (code_inj _ _ _ _ (re_tok _ _ _ _ _ _ _ R) Hw Hu) in Ht.
      pose proof (G u i Ht Hu) as Hu''. assert (i' = i) by congruence. subst i'. destruct (in_dec Z.eq_dec i known); [reflexivity|easy].
    - destruct (in_dec Z.eq_dec i' known) as [Hi'|Hi']; [exfalso|reflexivity].
      destruct (re_known _ _ _ _ _ _ _ R' i' Hi') as (w & Hw & Ht). rewrite (code_inj _ _ _ _ (re_tok _ _ _ _ _ _ _ R') Hw Hu') in Ht.
      destruct (re_tokens _ _ _ _ _ _ _ R u Ht) as (j & Hj & Hj'). apply Hi. congruence.
  Qed.
  Lemma twins_transform k texts S known al v tk v' tk' ys : twins k texts S known al v tk v' tk' ->
    (forall y, In y ys -> readable k y /\ Z.of_nat (length y) <= 2 ^ 40) ->
    forall w, exists outs u u', tv_transform fl true w (mkTVGram v tk) ys = Ok (outs, u) /\ tv_transform fl true w (mkTVGram v' tk') ys = Ok (outs, u').
  Proof.
    intros T Hy w. pose proof (tw_reader _ _ _ _ _ _ _ _ _ T) as R. pose proof (tw_reader' _ _ _ _ _ _ _ _ _ T) as R'.
    destruct (reader_batch fl _ _ _ _ _ _ R ys Hy) as (outs & tk0 & _ & _ & _ & Ho). destruct (Ho w) as (m & _ & Ev). clear Ho.
    destruct (transform_all_total ys tk (re_tok _ _ _ _ _ _ _ R)) as (cs & tk1 & Et).
    { intros s Hs. rewrite (re_kind _ _ _ _ _ _ _ R). now apply Hy. }
    destruct (transform_all_total ys tk' (re_tok _ _ _ _ _ _ _ R')) as (cs' & tk1' & Et').
    { intros s Hs. rewrite (re_kind _ _ _ _ _ _ _ R'). now apply Hy. }
    destruct (transform_all_coded _ _ _ _ (re_tok _ _ _ _ _ _ _ R) Et) as (K1 & E1 & C1). rewrite (re_kind _ _ _ _ _ _ _ R) in C1.
    destruct (transform_all_coded _ _ _ _ (re_tok _ _ _ _ _ _ _ R') Et') as (K1' & E1' & C1'). rewrite (re_kind _ _ _ _ _ _ _ R') in C1'.
    pose proof (twins_ext _ _ _ _ _ _ _ _ _ _ _ T K1 E1 K1' E1') as T1.
    assert (G : exists rs, Forall2 (fun x ids => s_parse fl (vs v) x = Ok (ids, vs v)) cs rs /\ Forall2 (fun x ids => s_parse fl (vs v') x = Ok (ids, vs v')) cs' rs).
    { clear Et Et' Ev. revert cs' C1'. induction C1 as [|y c ys cs (ws & Hw & Hc) C1 IH]; intros cs' C1'; inversion C1' as [|? c' ? cs1' (ws' & Hw' & Hc') C1'']; subst; [exists []; now split|].
      destruct (IH (fun u Hu => Hy u (or_intror Hu)) _ C1'') as (rs & G1 & G2). rewrite (tokens_fun _ _ _ _ Hw' Hw) in Hc'. destruct (Hy y (or_introl eq_refl)) as [_ Hl].
      pose proof (Forall2_len _ _ _ Hc) as L1. pose proof (tokens_len _ _ _ Hw) as L2.
      destruct (re_parse _ _ _ _ _ _ _ R c) as (ids & Hp & _); [unfold text, seq in *; lia|]. exists (ids :: rs). split; [now constructor|]. constructor; [|exact G2].
      apply (alike_reads S (vs v) (vs v') c c' ids (tw_alike _ _ _ _ _ _ _ _ _ T)); [|exact Hp].
      rewrite !(restrict_ext S known _ (tw_set _ _ _ _ _ _ _ _ _ T)). exact (twins_codes _ _ _ _ _ _ _ _ _ ws c c' T1 Hc Hc'). }
    destruct G as (rs & G1 & G2). destruct (loops_same w _ _ _ _ _ G1 G2 0) as (r & L1 & L2).
    unfold tv_transform in Ev |- *. cbn [tvtok tv] in *. unfold text, seq in *. rewrite Et in Ev. rewrite Et, Et'. cbn [bind] in *. unfold transform in *. rewrite L1 in Ev. rewrite L1, L2. cbn [bind on_stream vs] in *.
    rewrite (re_al _ _ _ _ _ _ _ R) in Ev. rewrite (re_al _ _ _ _ _ _ _ R), (re_al _ _ _ _ _ _ _ R'). cbn [bind] in *.
    apply bind_ok in Ev as (l & El & _). rewrite <- (decoded_all_same tk1 tk1' al r) by (intros u Hu; exact (twins_decode _ _ _ _ _ _ _ _ _ u T1 Hu)). rewrite El. cbn [bind]. do 3 eexists. now split.
  Qed.
  Lemma twins_alphabet k texts S known al v tk v' tk' : twins k texts S known al v tk v' tk' ->
    exists words, tv_alphabet fl (mkTVGram v tk) = Ok words /\ tv_alphabet fl (mkTVGram v' tk') = Ok words.
  Proof.
    intro T. unfold tv_alphabet. cbn [tv tvtok]. rewrite (re_al _ _ _ _ _ _ _ (tw_reader _ _ _ _ _ _ _ _ _ T)), (re_al _ _ _ _ _ _ _ (tw_reader' _ _ _ _ _ _ _ _ _ T)). cbn [bind].
    eexists. split; [reflexivity|]. f_equal. unfold tok_decode_all. apply map_ext_in. intros w Hw. symmetry. exact (twins_decode _ _ _ _ _ _ _ _ _ w T Hw).
  Qed.
  Lemma twins_transformed k texts S known al v tk v' tk' u u' : twins k texts S known al v tk v' tk' ->
    transformed fl (mkTVGram v tk) u -> transformed fl (mkTVGram v' tk') u' ->
    exists tk1 tk1', u = mkTVGram v tk1 /\ u' = mkTVGram v' tk1' /\ twins k texts S known al v tk1 v' tk1'.
  Proof.
    intros [R R' A E G] H H'. destruct (reader_transformed_ext fl _ _ _ _ _ _ _ R H) as (tk1 & -> & R1 & E1). destruct (reader_transformed_ext fl _ _ _ _ _ _ _ R' H') as (tk1' & -> & R1' & E1').
    exists tk1, tk1'. split; [reflexivity|]. split; [reflexivity|]. apply (twins_ext k texts S known al v tk v' tk'); [now split| | | |]; try assumption.
    - exact (re_tok _ _ _ _ _ _ _ R1).
    - exact (re_tok _ _ _ _ _ _ _ R1').
  Qed.
End T.

(** ** Saving again *)
Section R.
  Context (fl : fops) (io : float_io (F fl)).
  Lemma alike_save S z z' tok tok' ex al : NoDup S -> alike fl S z z' -> zsize z' = zsize z -> zminp z' = zminp z -> s_alphabet fl z = Ok al ->
    match tok, tok' with
    | None, None => True
    | Some tk, Some tk' => forall w, In w al -> tok_decode tk' w = tok_decode tk w
    | _, _ => False
    end -> save_any fl io true tok' ex z' = save_any fl io true tok ex z.
  Proof.
    intros Hn [C C' Ef Et R R' (p & p' & d & Ep & Ep' & Hd & Hd')] Es Em Hal Ht. rewrite !save_any_eq. unfold coder_json, minp_json.
    rewrite (like_sorted S _ Hn C), (like_sorted S _ Hn C'), Es, Em.
    assert (E : alphabet_to_json fl tok' z' = alphabet_to_json fl tok z); [|now rewrite E].
    unfold s_alphabet, the_dict in Hal. rewrite Ep, Hd in Hal. cbn [bind] in Hal.
    unfold alphabet_to_json, the_dict. rewrite Ep, Ep', Hd, Hd'. cbn [bind].
    assert (G : forall i, word_json fl tok' z' d i = word_json fl tok z d i).
    { intro i. unfold word_json, get, s_freqs. rewrite Ef. destruct (vget (seqs d) i) as [w| | |] eqn:Ew; [|reflexivity..]. cbn [bind].
      destruct (vget (zfreqs z) i) as [f| | |]; [|reflexivity..]. cbn [bind]. destruct tok as [tk|], tok' as [tk'|]; try easy.
      rewrite (like_decode_eq S _ _ w C C'). destruct (decode (zcoder z) w) as [v| | |] eqn:Ev; [|reflexivity..]. cbn [bind]. rewrite (Ht v); [reflexivity|].
      clear Ht. apply vget_ok in Ew. revert al Hal i Ew. induction (seqs d) as [|u ws IH]; intros al Hal [|i] Ew; try discriminate Ew; cbn [decode_all] in Hal;
        apply bind_ok in Hal as (v1 & H1 & Hal); apply bind_ok in Hal as (r & H2 & Hal); injection Hal as <-; cbn [nth_error] in Ew.
      - injection Ew as <-. rewrite Ev in H1. injection H1 as <-. now left.
      - right. exact (IH r H2 i Ew). }
    assert (K : forall l acc, foldM (fun l i => w <- word_json fl tok' z' d i ;; Ok (l ++ [w])) l acc = foldM (fun l i => w <- word_json fl tok z d i ;; Ok (l ++ [w])) l acc).
    { induction l as [|i l IH]; intro acc; [reflexivity|]. cbn [foldM]. rewrite G. destruct (word_json fl tok z d i) as [w| | |]; [|reflexivity..]. cbn [bind]. apply IH. }
    now rewrite K.
  Qed.
End R.

(** ** Saving and loading *)
Section B.
  Context (fl : fops) (L : flaws fl) (io : float_io (F fl)).

  Definition pairs (tk : tokenizer) (al : list seq) : list (text * Z) := map (fun s => (tok_decode tk [s], s)) (singles al).
  Lemma tokenizer_read tk z d es ex S c file : parse io file = Ok (JObj (file_obj fl io z es ex)) -> Forall fits_entry es -> entries_of fl (Some tk) z d es ->
    coder_like S c -> coder_like S (zcoder z) -> (forall w, In w (seqs d) -> in_range S w) -> NoDup (map fst (pairs tk (map (decw S) (seqs d)))) ->
    load_tokenizer fl io file c = Ok (tok_of_map CharTok (pairs tk (map (decw S) (seqs d)))).
  Proof.
    intros Hp Hf (E1 & _ & _ & E4) Hc Hz Hr Hn. unfold load_tokenizer, read_dict_json. rewrite Hp. cbn [bind]. unfold file_obj. rewrite field_alphabet. cbn [bind]. rewrite items_pushed.
    assert (G : forall es, Forall fits_entry es -> Forall (text_of (Some tk) (zcoder z)) es -> (forall e, In e es -> in_range S (en_vec e)) ->
      forall m0, NoDup (map fst (m0 ++ pairs tk (map (decw S) (map en_vec es)))) ->
      foldM (fun m w => v <- (x <- jmember fl w (txt "vec"%string) ;; get_seq fl x) ;; vec <- decode c v ;;
               match vec with
               | [s] => key <- (x <- jmember fl w (txt "text"%string) ;; get_string fl x) ;; Ok (mset seq_eqb m key s)
               | _ => Ok m
               end) (map (entry_json fl) es) m0 = Ok (m0 ++ pairs tk (map (decw S) (map en_vec es)))).
    { clear Hp Hf E1 E4 Hn es. induction es as [|e es IH]; intros Hf Ht Hv m0 Hn; [cbn; now rewrite app_nil_r|].
      inversion Hf as [|? ? (_ & F2 & _) Hf']; subst. inversion Ht as [|? ? (v & Hv1 & Hv2) Ht']; subst. cbn [map foldM].
      rewrite member_vec. cbn [bind get_seq]. rewrite (get_ints_of _ _ F2). cbn [bind].
      pose proof (Hv e (or_introl eq_refl)) as Hve. rewrite (like_decode S c _ Hc Hve). rewrite (like_decode S _ _ Hz Hve) in Hv1. injection Hv1 as <-. cbn [bind].
      assert (Hv' : forall e0, In e0 es -> in_range S (en_vec e0)) by (intros; apply Hv; now right).
      unfold pairs, singles in *. cbn [map flat_map] in *. destruct (decw S (en_vec e)) as [|s [|s' r]] eqn:Ed; cbn [single app bind] in *; [now apply IH| |now apply IH].
      rewrite (member_text _ _ _ Hv2). cbn [bind get_string]. cbn [map] in Hn. rewrite mset_absent.
      - rewrite (IH Hf' Ht' Hv'); [now rewrite <- app_assoc|now rewrite <- app_assoc].
      - apply (mfind_none_in seq_eqb seq_eqb_iff). rewrite map_app in Hn. cbn [map fst] in Hn. apply NoDup_remove_2 in Hn. intro Hi. apply Hn. apply in_app_iff. now left. }
    rewrite (G es Hf E4); [now rewrite E1| |now rewrite E1]. intros e He. apply Hr. rewrite <- E1. now apply in_map.
  Qed.

  (** The words of a fitted model. *)
  Lemma ready_words S d z : ready fl S d z -> NoDup (map (decw S) (seqs d)).
  Proof.
    intro R. pose proof (rd_nodup _ _ _ _ R) as Hn. pose proof (rd_range _ _ _ _ R) as Hr. destruct (rd_full _ _ _ _ R) as [Hs _]. apply strict_nodup in Hs.
    induction Hs as [|w ws Hw Hs IH]; [constructor|]. cbn [map]. constructor; [|apply IH; intros; apply Hr; now right].
    intro Hi. apply in_map_iff in Hi as (u & Eu & Hu). apply Hw. rewrite <- (decw_inj 0%nat S u w Hn); [exact Hu|apply Hr; now right|apply Hr; now left|exact Eu].
  Qed.
  Lemma reader_single k texts v tk known al i : reader fl k texts v tk known al -> In i known -> In [i] al.
  Proof.
    intros R Hi. destruct (re_parse _ _ _ _ _ _ _ R [i]) as (ids & _ & Hs); [cbn; lia|].
    assert (E : restrict known [i] = [i]) by (unfold restrict; cbn [filter]; destruct (in_dec Z.eq_dec i known); [reflexivity|easy]). rewrite E in Hs.
    destruct (spells_in _ _ _ Hs) as (ws & _ & Hc & Hal). destruct ws as [|w ws]; [discriminate Hc|].
    destruct w as [|a w]; [destruct (re_ne _ _ _ _ _ _ _ R); apply Hal; now left|]. destruct w as [|b w].
    - cbn [concat app] in Hc. injection Hc as <- _. apply Hal. now left.
    - discriminate Hc.
  Qed.
  Lemma transformed_alnum v v1 : transformed fl v v1 -> tok_ok (tvtok v) -> tkind (tvtok v) = CharTok -> alnum_tok (tvtok v) ->
    tok_ok (tvtok v1) /\ tkind (tvtok v1) = CharTok /\ alnum_tok (tvtok v1).
  Proof.
    intros H H1 H2 H3. induction H as [|v1 w xs r v2 H (I1 & I2 & I3) Hl Ht]; [easy|]. unfold tv_transform in Ht.
    apply bind_ok in Ht as ([cs tk2] & Et & Ht). apply bind_ok in Ht as ([rs v'] & _ & Ht). apply bind_ok in Ht as (al' & _ & Ht). apply bind_ok in Ht as (l & _ & Ht). injection Ht as _ <-.
    cbn [tvtok]. destruct (transform_all_coded _ _ _ _ I1 Et) as (Hk2 & [Ek _] & _). split; [exact Hk2|]. split; [congruence|]. exact (transform_all_alnum _ _ _ _ I1 I2 I3 Et).
  Qed.

  Lemma text_again size N iter w texts data tk ops al : tok_transform_all true (new_tok CharTok) texts = Ok (data, tk) ->
    good_fit fl size N [] w (new_vgram fl size iter) data ops al -> int32 size ->
    exists v, tv_fit fl true w (new_tvgram fl size iter) texts = Ok v /\
    forall v1, transformed fl v v1 -> Forall int32 (tv_freqs fl v1) -> minp_exact fl io (vs (tv v1)) ->
    exists file v1', save_tvgram fl io true v1 = Ok file /\ load_tvgram fl io file = Ok v1' /\
      tv_freqs fl v1' = tv_freqs fl v1 /\ vfitted (tv v1') = vfitted (tv v1) /\ vcomputed (tv v1') = vcomputed (tv v1) /\
      forall v2 v2', transformed fl v1 v2 -> transformed fl v1' v2' ->
        (save_tvgram fl io true v2 = Ok file /\ save_tvgram fl io true v2' = Ok file) /\
        (exists words, tv_alphabet fl v2 = Ok words /\ tv_alphabet fl v2' = Ok words) /\
        forall w' ys, (forall y, In y ys -> ascii_text y /\ Z.of_nat (length y) <= 2 ^ 40) ->
          exists outs v3 v3', tv_transform fl true w' v2 ys = Ok (outs, v3) /\ tv_transform fl true w' v2' ys = Ok (outs, v3').
  Proof.
    intros Et G Hsz. destruct (fit_reader fl L _ _ _ _ _ _ _ _ _ _ Et G) as (v & Ef & R).
    destruct (good_start fl L _ _ _ _ _ _ _ _ G) as (z & d & fs & b & acc & E & Rd & Eal & Hcr & _ & Hz). cbv zeta in E, Rd. rewrite Ef in E.
    match type of E with _ = Ok (true, ?v0) => assert (Ev : v = v0) by congruence end. rewrite <- Ev in Rd. clear E.
    exists (mkTVGram v tk). split; [unfold tv_fit, new_tvgram; cbn [tvtok tv]; rewrite Et; cbn [bind]; now rewrite Ef|].
    intros v1 Hv1 Hfr Hm. set (S := symbols_of fl [] ops) in *.
    assert (Hset : forall c, In c S <-> In c (seen fl ops)) by (intro c; unfold S, symbols_of; rewrite adds_in; cbn [In]; tauto).
    (* the tokenizer *)
    destruct (transform_all_coded _ _ _ _ (tok_ok_new CharTok) Et) as (Hk & [Ek _] & _). cbn [tkind new_tok] in Ek.
    assert (Ha : alnum_tok tk) by (refine (transform_all_alnum _ _ _ _ (tok_ok_new CharTok) eq_refl _ Et); intros u i Hu; discriminate Hu).
    destruct (transformed_alnum _ _ Hv1 Hk Ek Ha) as (Hk1 & Ek1 & Ha1).
    destruct (reader_transformed fl _ _ _ _ _ _ _ R Hv1) as (tk1 & -> & R1). cbn [tvtok tv] in *. unfold tv_freqs in Hfr |- *. cbn [tv] in *.
    (* the codes are 0..n-1 *)
    set (known := seen fl ops) in *. set (n := length (tfwd tk)).
    assert (Hkn : forall i, In i known <-> 0 <= i < Z.of_nat n).
    { intro i. pose proof Hk as (_ & Hb & Hdom). split.
      - intro Hi. destruct (re_known _ _ _ _ _ _ _ R i Hi) as (u & Hu & _). apply Hb in Hu. destruct (Z_le_dec 0 i), (Z_lt_dec i (Z.of_nat n)); try lia;
          (assert (Hd : mfind Z.eqb (tbwd tk) i = None) by (apply Hdom; fold n; lia)); congruence.
      - intro Hi. destruct (mfind Z.eqb (tbwd tk) i) as [u|] eqn:Eu; [|apply Hdom in Eu; fold n in Eu; lia]. apply Hb in Eu.
        destruct (transform_all_only _ _ _ _ (tok_ok_new CharTok) Et u i Eu) as [Hx|Hx]; [discriminate Hx|]. cbn [tkind new_tok] in Hx.
        destruct (re_tokens _ _ _ _ _ _ _ R u Hx) as (j & Hj & Hj'). assert (i = j) by congruence. now subst j. }
    pose proof (ready_words S d _ Rd) as Hnal. rewrite <- Eal in Hnal.
    assert (Hsi : forall i, In i (singles al) <-> In i known).
    { intro i. rewrite single_in. split; [intro Hi; exact (re_sym _ _ _ _ _ _ _ R _ i Hi (or_introl eq_refl))|]. exact (reader_single _ _ _ _ _ _ _ R). }
    assert (Hperm : Permutation (singles al) (codes 0 n)).
    { apply NoDup_Permutation; [now apply singles_nodup|apply codes_nodup|]. intro i. rewrite Hsi, Hkn, in_codes. cbn. lia. }
    assert (Htok : forall i, In i known -> exists u, tok_decode tk1 [i] = u /\ mfind seq_eqb (tfwd tk1) u = Some i).
    { intros i Hi. destruct (re_known _ _ _ _ _ _ _ R1 i Hi) as (u & Hu & _). exists u. split; [|exact Hu]. cbn [tok_decode].
      rewrite (proj1 (proj1 (proj2 Hk1) u i) Hu). now rewrite app_nil_r. }
    assert (Hfst : NoDup (map fst (pairs tk1 al))).
    { unfold pairs. rewrite map_map. cbn [fst]. pose proof (singles_nodup al Hnal) as Hs.
      assert (Hin : forall i, In i (singles al) -> In i known) by (intros; now apply Hsi). clear -Hs Hin Htok. induction Hs as [|i l Hi Hs IH]; [constructor|]. cbn [map].
      constructor; [|apply IH; intros; apply Hin; now right]. intro Hx. apply in_map_iff in Hx as (j & Ej & Hj).
      destruct (Htok i (Hin i (or_introl eq_refl))) as (u & Eu & Hu). destruct (Htok j (Hin j (or_intror Hj))) as (u' & Eu' & Hu'). assert (i = j) by congruence. now subst j. }
    assert (Hlen : length (pairs tk1 al) = n).
    { unfold pairs. rewrite map_length, (Permutation_length Hperm). apply codes_length. }
    assert (Hdm : dense_map (pairs tk1 al)).
    { split; [exact Hfst|]. rewrite Hlen. unfold pairs. rewrite map_map. cbn [snd]. rewrite map_id. exact Hperm. }
    (* the stream *)
    destruct (ready_the _ _ _ _ Rd) as (p & Ep & Hg & Hthe).
    assert (Hx : exists x, zminp (vs v) = Some x).
    { rewrite Ev in Ep |- *. cbn [vs zminp zdict] in *. destruct (zminp z) as [x|] eqn:Ex; [now exists x|]. exfalso. refine (minp_set fl _ _ _ Hz _ _ Ex); [intro C; now elim C|congruence]. }
    destruct Hx as (x & Hx).
    assert (T : tidy fl S (vs v) p d x).
    { split; try assumption.
      - exact (rd_nodup _ _ _ _ Rd).
      - exact (rd_coder _ _ _ _ Rd).
      - exact (rd_full _ _ _ _ Rd).
      - exact (rd_range _ _ _ _ Rd).
      - rewrite Ev. cbn [vs ztotal zfreqs]. symmetry. apply isum_zsum.
      - destruct (rd_res _ _ _ _ Rd) as (da & Hda). unfold hget in Hda. apply vget_ok in Hda. apply nth_error_Some. congruence. }
    assert (Hlf : length (zfreqs (vs v)) = dsize d).
    { rewrite Ev. cbn [vs zfreqs]. destruct Hcr as (rd & _ & Hl & _). rewrite Hl, Eal, map_length. reflexivity. }
    assert (HnS : length S = n).
    { rewrite <- (Permutation_length Hperm) || idtac. assert (HP : Permutation S (codes 0 n)).
      { apply NoDup_Permutation; [exact (rd_nodup _ _ _ _ Rd)|apply codes_nodup|]. intro i. rewrite Hset. fold known. rewrite Hkn, in_codes. cbn. lia. }
      rewrite (Permutation_length HP). apply codes_length. }
    assert (Hroom : Z.of_nat (length S) <= size).
    { destruct G as (_ & _ & _ & _ & _ & _ & (_ & _ & Hr) & _). unfold distinct in Hr. fold (seen fl ops) in Hr. unfold S, symbols_of. rewrite adds_length. fold known. fold known in Hr. lia. }
    assert (Hint : int_stream fl (vs v)).
    { apply (tidy_int fl S (vs v) p d x T).
      - rewrite Ev. cbn [vs zsize]. rewrite (size_kept fl _ _ _ Hz). exact Hsz.
      - exact Hfr.
      - apply Forall_forall. intros i Hi. apply Hset, Hkn in Hi. unfold int32 in *. lia.
      - unfold int32 in Hsz. lia. }
    assert (Hal' : forall u, In u (seqs d) -> decode (zcoder (vs v)) u = Ok (decw S u)) by (intros u Hu; apply like_decode; [exact (td_coder _ _ _ _ _ _ T)|exact (td_range _ _ _ _ _ _ T u Hu)]).
    destruct (entries_exist fl (Some tk1) (vs v) d) as (es0 & He0); [lia|intros t _ u Hu; eexists; now apply Hal'|].
    set (ex := Some (vfitted v, vcomputed v)).
    destruct (save_total fl io (Some tk1) ex (vs v) p d es0 Hthe He0) as (file & Hsv).
    { destruct He0 as (_ & _ & _ & H4). eapply Forall_impl; [|exact H4]. intros e (u & _ & Hu). unfold clean_entry. rewrite Hu. now apply alnum_ascii. }
    clear es0 He0. exists file. rewrite save_tvgram_any. cbn [tv tvtok]. fold ex.
    destruct (tidy_read fl io S (vs v) p d x (Some tk1) ex file T Hint (Hm x Hx) Hlf (alnum_chars tk1 Hk1 Ha1) Hsv) as (es & c & He & Hfe & Hc & Hp & Hrd).
    destruct (tidy_loaded fl S (vs v) p d x c T Hc) as (z' & Hld & Hzc & Hsame & Hali & Hdn).
    assert (Hlt : load_tokenizer fl io file c = Ok (tok_of_map CharTok (pairs tk1 al))).
    { rewrite Eal. apply (tokenizer_read tk1 (vs v) d es ex S c file Hp Hfe He Hc (td_coder _ _ _ _ _ _ T) (td_range _ _ _ _ _ _ T)). rewrite <- Eal. exact Hfst. }
    set (v' := mkVGram z' 0 (vfitted v) (vcomputed v)). set (tk' := tok_of_map CharTok (pairs tk1 al)) in *.
    exists (mkTVGram v' tk'). split; [exact Hsv|]. split.
    { unfold load_tvgram, load_vgram, read_dict_json. rewrite Hp. cbn [bind]. rewrite Hrd. cbn [bind md_coder md_freqs md_words md_size md_minp]. unfold file_obj at 1 2. rewrite field_fitted. unfold ex at 1. cbn [bind get_bool].
      rewrite field_computed. unfold ex at 1. cbn [bind get_bool]. unfold loaded_vgram. rewrite Hld. cbn [bind vs]. rewrite Hzc. rewrite Hlt. reflexivity. }
    destruct Hsame as (Hsz1 & Hsz2 & Hsf & Hsa & _). cbn [tv v' vs vfitted vcomputed]. split; [exact Hsf|]. split; [reflexivity|]. split; [reflexivity|].
    assert (Hagree : forall u i, token_in CharTok texts u -> mfind seq_eqb (tfwd tk1) u = Some i -> mfind seq_eqb (tfwd tk') u = Some i).
    { intros u i Hu Hi. destruct (re_tokens _ _ _ _ _ _ _ R1 u Hu) as (j & Hj & Hj'). assert (i = j) by congruence. subst j.
      apply (mfind_nodup seq_eqb seq_eqb_iff); [exact Hfst|]. unfold tk', tok_of_map. cbn [tfwd]. unfold pairs. apply in_map_iff. exists i. split; [|now apply Hsi].
      destruct (Htok i Hj) as (u' & Eu & Hu'). rewrite Eu. f_equal. exact (code_inj _ _ _ _ Hk1 Hu' Hi). }
    assert (TW : twins fl CharTok texts S known al v tk1 v' tk').
    { split; try assumption. split.
      - reflexivity.
      - now apply tok_of_map_ok.
      - intros y Hy. destruct (re_parse _ _ _ _ _ _ _ R1 y Hy) as (ids & H1 & H2). exists ids. split; [|exact H2]. exact (alike_pure fl S (vs v) z' y ids Hali H1).
      - cbn [v' vs]. rewrite Hsa. exact (re_al _ _ _ _ _ _ _ R1).
      - exact (re_ne _ _ _ _ _ _ _ R1).
      - exact (re_sym _ _ _ _ _ _ _ R1).
      - intros i Hi. destruct (re_known _ _ _ _ _ _ _ R1 i Hi) as (u & Hu & Ht). exists u. split; [now apply Hagree|exact Ht].
      - intros u Hu. destruct (re_tokens _ _ _ _ _ _ _ R1 u Hu) as (i & Hi & Hi'). exists i. split; [exact Hi|now apply Hagree]. }
    intros v2 v2' H2 H2'. destruct (reader_transformed_ext fl _ _ _ _ _ _ _ R1 H2) as (tk3 & E3 & R3 & X3).
    destruct (twins_transformed fl _ _ _ _ _ _ _ _ _ _ _ TW H2 H2') as (tk2 & tk2' & -> & -> & TW2). injection E3 as <-. split.
    { rewrite !save_tvgram_any. cbn [tv tvtok]. cbn [v' vfitted vcomputed vs]. fold ex.
      assert (Hsave : save_any fl io true (Some tk2) ex (vs v) = Ok file).
      { rewrite <- Hsv. apply (alike_save fl io S (vs v) (vs v) (Some tk1) (Some tk2) ex al); try reflexivity.
        - exact (td_nodup _ _ _ _ _ _ T).
        - split; try reflexivity; try exact (td_coder _ _ _ _ _ _ T); try exact (td_res _ _ _ _ _ _ T). exists p, p, d. now split.
        - exact (re_al _ _ _ _ _ _ _ R1).
        - intros u Hu. assert (TS : forall c, In c u -> exists t, mfind Z.eqb (tbwd tk1) c = Some t /\ mfind Z.eqb (tbwd tk2) c = Some t).
          { intros c0 Hc0. destruct (re_known _ _ _ _ _ _ _ R1 c0 (re_sym _ _ _ _ _ _ _ R1 u c0 Hu Hc0)) as (t & Htt & _). exists t.
            pose proof (proj2 X3 _ _ Htt) as Ht3. split; [now apply (proj1 (proj2 Hk1))|now apply (proj1 (proj2 (re_tok _ _ _ _ _ _ _ R3)))]. }
          clear -TS. induction u as [|c0 u IH]; [reflexivity|]. cbn [tok_decode]. destruct (TS c0 (or_introl eq_refl)) as (t & -> & ->). f_equal. apply IH. intros; apply TS; now right. }
      split; [exact Hsave|]. rewrite <- Hsave. apply (alike_save fl io S (vs v) z' (Some tk2) (Some tk2') ex al).
      - exact (td_nodup _ _ _ _ _ _ T).
      - exact Hali.
      - exact Hsz1.
      - exact Hsz2.
      - exact (re_al _ _ _ _ _ _ _ R1).
      - intros u Hu. symmetry. exact (twins_decode fl _ _ _ _ _ _ _ _ _ u TW2 Hu). }
    split; [exact (twins_alphabet fl _ _ _ _ _ _ _ _ _ TW2)|].
    intros w' ys Hys. exact (twins_transform fl _ _ _ _ _ _ _ _ _ ys TW2 Hys w').
  Qed.
  Lemma text_back size N iter w texts data tk ops al : tok_transform_all true (new_tok CharTok) texts = Ok (data, tk) ->
    good_fit fl size N [] w (new_vgram fl size iter) data ops al -> int32 size ->
    exists v, tv_fit fl true w (new_tvgram fl size iter) texts = Ok v /\
    forall v1, transformed fl v v1 -> Forall int32 (tv_freqs fl v1) -> minp_exact fl io (vs (tv v1)) ->
    exists file v1', save_tvgram fl io true v1 = Ok file /\ load_tvgram fl io file = Ok v1' /\
      tv_freqs fl v1' = tv_freqs fl v1 /\ vfitted (tv v1') = vfitted (tv v1) /\ vcomputed (tv v1') = vcomputed (tv v1) /\
      forall v2 v2', transformed fl v1 v2 -> transformed fl v1' v2' ->
        (exists words, tv_alphabet fl v2 = Ok words /\ tv_alphabet fl v2' = Ok words) /\
        forall w' ys, (forall y, In y ys -> ascii_text y /\ Z.of_nat (length y) <= 2 ^ 40) ->
          exists outs v3 v3', tv_transform fl true w' v2 ys = Ok (outs, v3) /\ tv_transform fl true w' v2' ys = Ok (outs, v3').
  Proof.
    intros Et G Hsz. destruct (text_again size N iter w texts data tk ops al Et G Hsz) as (v & Hf & H). exists v. split; [exact Hf|].
    intros v1 H1 H2 H3. destruct (H v1 H1 H2 H3) as (file & v1' & A & B & C & D & E & K). exists file, v1'. do 5 (split; [assumption|]).
    intros v2 v2' T1 T2. exact (proj2 (K v2 v2' T1 T2)).
  Qed.
End B.
