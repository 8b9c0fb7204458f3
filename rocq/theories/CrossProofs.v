(** CrossProofs: loading a file as another class than the one that saved it (C87). *)
From Coq Require Import Ascii String Permutation Sorted.
From Verif Require Import Base Spec FloatOps FloatLaws ModelDict ModelCoder ModelTok Maps ModelStat ModelBuilder ModelStream ModelVGram ModelString ModelJson ModelPersist
  OrderProofs DictProofs CoderProofs TokProofs SpecStat SpecBuilder StatProofs RunProofs StreamProofs VGramProofs PropsStreamLemmas PropsVGramLemmas StringProofs PropsStringLemmas
  PersistProofs PropsPersistLemmas TextPersist SpecTok SpecJson SpecStream SpecVGram SpecString SpecPersist.
Local Open Scope Z_scope.
Local Open Scope list_scope.

Section X.
  Context (fl : fops) (io : float_io (F fl)).

  (** ** Any file *)
  Lemma loads_vgram file v : load_vgram fl io file = Ok v -> load_stream fl io file = Ok (vs v).
  Proof.
    unfold load_vgram, load_stream. intro H. apply bind_ok in H as (j & -> & H). cbn [bind]. apply bind_ok in H as (m & -> & H). cbn [bind].
    apply bind_ok in H as (f & _ & H). apply bind_ok in H as (g & _ & H). unfold loaded_vgram in H. apply bind_ok in H as (z & -> & [= <-]). reflexivity.
  Qed.
  Lemma loads_tstream file t : load_tstream fl io file = Ok t -> load_stream fl io file = Ok (tst t).
  Proof. unfold load_tstream. intro H. apply bind_ok in H as (z & -> & H). apply bind_ok in H as (tk & _ & [= <-]). reflexivity. Qed.
  Lemma loads_tvgram file : (exists v, load_tvgram fl io file = Ok v) <-> (exists v, load_vgram fl io file = Ok v) /\ (exists t, load_tstream fl io file = Ok t).
  Proof.
    split.
    - intros [u H]. unfold load_tvgram in H. apply bind_ok in H as (v & Hv & H). apply bind_ok in H as (tk & Hk & [= <-]). split; [now exists v|].
      unfold load_tstream. rewrite (loads_vgram _ _ Hv). cbn [bind]. rewrite Hk. eexists. reflexivity.
    - intros [[v Hv] [t Ht]]. unfold load_tvgram, load_tstream in *. rewrite Hv. rewrite (loads_vgram _ _ Hv) in Ht. cbn [bind] in *.
      apply bind_ok in Ht as (tk & -> & _). eexists. reflexivity.
  Qed.
  Lemma loads_parts file v t : load_tvgram fl io file = Ok v -> load_tstream fl io file = Ok t -> load_vgram fl io file = Ok (tv v) /\ tst t = vs (tv v) /\ ttok t = tvtok v.
  Proof.
    unfold load_tvgram, load_tstream. intros H Ht. apply bind_ok in H as (u & Hu & H). apply bind_ok in H as (tk & Hk & [= <-]). rewrite (loads_vgram _ _ Hu) in Ht. cbn [bind] in Ht.
    rewrite Hk in Ht. injection Ht as <-. now split.
  Qed.

  (** ** A text model and a text stream with the same parts read alike *)
  Lemma at_alphabet c ws : forall al, decode_all c ws = Ok al -> forall i w, nth_error al i = Some w -> exists raw, nth_error ws i = Some raw /\ decode c raw = Ok w.
  Proof.
    induction ws as [|u ws IH]; intros al H i w Hi; cbn [decode_all] in H; [injection H as <-; now destruct i|].
    apply bind_ok in H as (v & Hv & H). apply bind_ok in H as (r & Hr & [= <-]). destruct i as [|i]; cbn [nth_error] in *; [injection Hi as <-; now exists u|]. exact (IH r Hr i w Hi).
  Qed.
  Lemma words_at z p d al tk : the_dict fl z = Ok (p, d) -> s_alphabet fl z = Ok al -> forall ids acc out, decoded tk al ids acc = Ok out ->
    exists ws, Forall2 (word_at al) ids ws /\ token_words fl z tk ids = Ok (map (tok_decode tk) ws).
  Proof.
    intros Hd Hal. unfold s_alphabet in Hal. rewrite Hd in Hal. cbn [bind] in Hal. induction ids as [|i ids IH]; intros acc out H; [exists []; now split|]. cbn [decoded] in H.
    apply bind_ok in H as (w & Hw & H). destruct (IH _ _ H) as (ws & H1 & H2). apply vget_ok in Hw. destruct (at_alphabet _ _ _ Hal i w Hw) as (raw & Hr & Hdc).
    exists (w :: ws). split; [now constructor|]. cbn [token_words map]. rewrite Hd. cbn [bind]. rewrite (vget_some _ _ _ Hr). cbn [bind]. rewrite Hdc. cbn [bind]. now rewrite H2.
  Qed.
  Lemma reads_alike w (v : tvgram fl) y outs v' (t : tstream fl) : tv_transform fl true w v [y] = Ok (outs, v') -> tst t = vs (tv v) -> ttok t = tvtok v ->
    exists out pieces t', outs = [out] /\ t_parse fl true t y = Ok (pieces, t') /\ (~ In [] pieces -> out = join pieces) /\
      forall words, tv_alphabet fl v' = Ok words -> incl pieces words.
  Proof.
    intros H E1 E2. unfold tv_transform in H. apply bind_ok in H as ([ids tk] & Hi & H). unfold tok_transform_all in Hi. cbn [mapM] in Hi.
    apply bind_ok in Hi as ([q tk1] & Hq & Hi). cbn [bind] in Hi. injection Hi as <- <-. apply bind_ok in H as ([rs u] & Ht & H). unfold transform in Ht. cbn [transform_loop] in Ht.
    apply bind_ok in Ht as ([rs' z1] & Ht & [= <- <-]). apply bind_ok in Ht as ([r z2] & Hp & Ht).
    assert (E : rs' = [r] /\ z1 = z2) by (destruct (w_term w 0); [now injection Ht as <- <-|cbn [bind] in Ht; now injection Ht as <- <-]). destruct E as [-> ->]. clear Ht.
    apply bind_ok in H as (al & Hal & H). unfold on_stream in Hal. cbn [vs] in Hal. apply bind_ok in H as (l & Hl & [= <- <-]).
    cbn [decoded_all] in Hl. apply bind_ok in Hl as (s & Hs & Hl). cbn [bind] in Hl. injection Hl as <-.
    pose proof Hal as Hal0. unfold s_alphabet in Hal0. apply bind_ok in Hal0 as ([p d] & Hd & _).
    destruct (words_at z2 p d al tk1 Hd Hal r [] s Hs) as (ws & Hw & Hk). exists s, (map (tok_decode tk1) ws). eexists. split; [reflexivity|].
    unfold t_parse. rewrite E1, E2, Hq. cbn [bind]. rewrite Hp. cbn [bind]. rewrite Hk. cbn [bind]. split; [reflexivity|]. split.
    - intro Hne. rewrite (decoded_join tk1 al r ws Hw Hne) in Hs. now injection Hs.
    - intros words Hws. unfold tv_alphabet in Hws. cbn [tv tvtok on_stream vs] in Hws. rewrite Hal in Hws. cbn [bind] in Hws. injection Hws as <-.
      intros g Hg. apply in_map_iff in Hg as (g0 & <- & Hu). unfold tok_decode_all. apply in_map. clear -Hw Hu. induction Hw as [|i w0 ids ws Hi Hw IH]; [easy|].
      destruct Hu as [<-|Hu]; [exact (nth_error_In _ _ Hi)|now apply IH].
  Qed.

  (** ** Saved files *)
  Lemma no_flags tok z file : save_any fl io true tok None z = Ok file -> int_stream fl z -> tok_chars tok -> minp_file fl io z ->
    load_vgram fl io file = Throw JsonType /\ load_tvgram fl io file = Throw JsonType.
  Proof.
    intros H Hi Ht Hm. assert (G : load_vgram fl io file = Throw JsonType); [|split; [exact G|unfold load_tvgram; now rewrite G]].
    destruct (saved fl io tok None z file H Hi Ht Hm) as (p & d & es & t & Hd & He & Hf & Hdu & Hp & ->).
    unfold load_vgram, read_dict_json. rewrite (proj1 (JsonRoundTrip.file_back Hdu Hp)). cbn [bind]. clear Hdu Hp. unfold file_obj. set (o := full_obj _ _ _ _ _ _).
    assert (Hc : exists c, read_coder fl (JObj o) = Ok c).
    { apply (read_coder_any _ _ (map fst (sort_codes (fwd (zcoder z))))). unfold o. rewrite field_coder. unfold coder_json. now rewrite map_map. }
    destruct Hc as (c & Hc). unfold read_dict. rewrite Hc, (read_alphabet_of fl (JObj o) es (field_alphabet _ _ _ _ _ _) Hf). unfold o. rewrite field_size, field_minp, field_fitted. cbn [bind get_int].
    unfold minp_written. destruct (zminp z) as [y|]; [|reflexivity]. destruct (io_show io y); reflexivity.
  Qed.
  (** Every file of a stream in good order loads as an integer stream. *)
  Lemma any_stream S z p d x tok ex file : tidy fl S z p d x -> int_stream fl z -> io_ok io x -> length (zfreqs z) = dsize d -> tok_chars tok ->
    save_any fl io true tok ex z = Ok file -> exists z', load_stream fl io file = Ok z' /\ same_stream fl z z'.
  Proof.
    intros T Hi Hx Hl Ht Hs. destruct (tidy_read fl io S z p d x tok ex file T Hi Hx Hl Ht Hs) as (es & c & He & Hf & Hc & Hp & Hr).
    destruct (tidy_loaded fl S z p d x c T Hc) as (z' & E & _ & Hz & _). exists z'. split; [|exact Hz].
    unfold load_stream, read_dict_json. rewrite Hp. cbn [bind]. rewrite Hr. exact E.
  Qed.
  (** A file without texts has no tokenizer. *)
  Lemma no_texts_file S z p d x ex file : tidy fl S z p d x -> int_stream fl z -> io_ok io x -> length (zfreqs z) = dsize d ->
    save_any fl io true None ex z = Ok file -> (exists s, In [s] (map (decw S) (seqs d))) -> load_tstream fl io file = UB EndDeref.
  Proof.
    intros T Hi Hx Hl Hs (s & Hw). destruct (tidy_read fl io S z p d x None ex file T Hi Hx Hl I Hs) as (es & c & He & Hf & Hc & Hp & Hr).
    destruct (tidy_loaded fl S z p d x c T Hc) as (z' & E & Ec & _).
    unfold load_tstream, load_stream, read_dict_json. rewrite Hp. cbn [bind]. rewrite Hr. cbn [bind md_coder md_freqs md_words md_size md_minp]. rewrite E. cbn [bind]. rewrite Ec.
    unfold load_tokenizer, read_dict_json. rewrite Hp. cbn [bind]. unfold file_obj. rewrite field_alphabet. cbn [bind]. rewrite items_pushed.
    destruct He as (E1 & _ & _ & E4). rewrite <- E1 in Hw.
    assert (Hv : forall e, In e es -> in_range S (en_vec e)) by (intros e He; apply (td_range _ _ _ _ _ _ T); rewrite <- E1; now apply in_map).
    clear -Hf E4 Hw Hv Hc. generalize (@nil (text * Z)). induction es as [|e es IH]; [destruct Hw|]. intro m. cbn [map foldM].
    inversion Hf as [|? ? (_ & F2 & _) Hf']; subst. inversion E4 as [|? ? Ht Ht']; subst. cbn [text_of] in Ht.
    rewrite member_vec. cbn [bind get_seq]. rewrite (get_ints_of _ _ F2). cbn [bind]. rewrite (like_decode S c _ Hc (Hv e (or_introl eq_refl))). cbn [bind].
    assert (Hm : jmember fl (entry_json fl e) (txt "text"%string) = UB EndDeref) by (unfold entry_json; rewrite Ht; reflexivity).
    cbn [map In] in Hw. destruct (decw S (en_vec e)) as [|a [|b r]].
    - cbn [bind]. apply IH; try assumption; [now destruct Hw as [Hw|Hw]|intros; apply Hv; now right].
    - rewrite Hm. reflexivity.
    - cbn [bind]. apply IH; try assumption; [now destruct Hw as [Hw|Hw]|intros; apply Hv; now right].
  Qed.
End X.
