(** SaveProofs: when saving a text model succeeds, and what a save that throws leaves behind (C72). *)
From Coq Require Import Ascii String Sorted.
From Verif Require Import Base FloatOps FloatLaws ModelDict ModelCoder ModelTok Maps ModelStat ModelBuilder ModelStream ModelVGram ModelString ModelJson ModelPersist ModelSave
  DictProofs TokProofs StringProofs PropsStringLemmas JsonProofs JsonRoundTrip PersistProofs PropsPersistLemmas TextPersist Utf8Proofs EmitProofs
  SpecTok SpecJson SpecStream SpecVGram SpecString SpecPersist SpecSave.
Local Open Scope Z_scope.
Local Open Scope list_scope.

(** ** Tokens with a property *)
Definition all_toks (P : text -> Prop) (t : tokenizer) : Prop := forall w i, mfind seq_eqb (tfwd t) w = Some i -> P w.
Lemma all_decode (P : text -> Prop) t v : P [] -> (forall a b, P a -> P b -> P (a ++ b)) -> tok_ok t -> all_toks P t -> P (tok_decode t v).
Proof.
  intros P0 Pa (_ & Hb & _) Ha. induction v as [|i v IH]; [exact P0|]. cbn [tok_decode]. destruct (mfind Z.eqb (tbwd t) i) as [w|] eqn:E; [|exact IH].
  apply Hb in E. apply Pa; [exact (Ha w i E)|exact IH].
Qed.
Lemma transform_all_toks P t s ids t' : tok_ok t -> all_toks P t -> (forall ws, tokens_of (tkind t) s ws -> Forall P ws) -> tok_transform true t s = Ok (ids, t') -> all_toks P t'.
Proof.
  intros Ht Ha Hs H w i Hw. destruct (transform_only _ _ _ _ Ht H w i Hw) as [G|(ws & G1 & G2)]; [exact (Ha w i G)|]. specialize (Hs ws G1). rewrite Forall_forall in Hs. now apply Hs.
Qed.
Lemma char_tokens_utf8 s ws : tokens_of CharTok s ws -> Forall utf8 ws.
Proof. intros (n & Hn & ->). apply Forall_map, Forall_forall. intros c Hc. apply utf8_ascii. constructor; [|constructor]. pose proof (normal_alnum _ _ Hn c Hc). lia. Qed.
Lemma ascii_utf8 s : ascii_text s -> utf8 s.
Proof. intro H. apply utf8_ascii, Forall_forall. exact H. Qed.

Section S.
  Context (fl : fops).
  Lemma thist_toks P z0 ops z : tok_ok (ttok z0) -> all_toks P (ttok z0) -> thist fl z0 ops z ->
    (forall s ws, In s (tmet ops) -> tokens_of (tkind (ttok z0)) s ws -> Forall P ws) -> tok_ok (ttok z) /\ all_toks P (ttok z) /\ tkind (ttok z) = tkind (ttok z0).
  Proof.
    intros H0 A0 H. induction H as [|ops z op z' H IH Hs]; intro Hm; [easy|].
    assert (Hm' : forall s ws, In s (tmet ops) -> tokens_of (tkind (ttok z0)) s ws -> Forall P ws) by (intros s ws Hi; apply Hm; unfold tmet; rewrite flat_map_app; apply in_app_iff; now left).
    destruct (IH Hm') as (I1 & I2 & I3). clear IH Hm'.
    assert (G : forall s ids tk, In s (top_met op) -> tok_transform true (ttok z) s = Ok (ids, tk) -> tok_ok tk /\ all_toks P tk /\ tkind tk = tkind (ttok z0)).
    { intros s ids tk Hi Ht. destruct (transform_coded _ _ _ _ I1 Ht) as (ws & Hw & Hk & [Ek _] & _). split; [exact Hk|]. split; [|congruence].
      apply (transform_all_toks P (ttok z) s ids tk I1 I2); [|exact Ht]. intros ws' Hw'. rewrite I3 in Hw'. apply (Hm s ws'); [|exact Hw'].
      unfold tmet. rewrite flat_map_app. apply in_app_iff. right. cbn [flat_map]. now rewrite app_nil_r. }
    destruct op as [e s|s|]; cbn [tstep] in Hs.
    - unfold t_accept in Hs. apply bind_ok in Hs as ([ids tk] & Ht & Hs). apply bind_ok in Hs as (z1 & _ & Hs). injection Hs as <-. exact (G s ids tk (or_introl eq_refl) Ht).
    - destruct Hs as [pieces Hs]. unfold t_parse in Hs. apply bind_ok in Hs as ([ids tk] & Ht & Hs). apply bind_ok in Hs as ([r z1] & _ & Hs). apply bind_ok in Hs as (l & _ & Hs).
      injection Hs as _ <-. exact (G s ids tk (or_introl eq_refl) Ht).
    - unfold t_update in Hs. apply bind_ok in Hs as (z1 & _ & Hs). injection Hs as <-. easy.
  Qed.
  Lemma new_tstream_tok size inner words z : new_tstream fl size inner words = Ok z -> tok_ok (ttok z) /\ tfwd (ttok z) = [] /\ tkind (ttok z) = (if words then WordTok else CharTok) /\ tst z = new_stream fl size.
  Proof.
    unfold new_tstream, check_args. cbn [twords tinner]. destruct (words && inner); [discriminate|]. intros [= <-]. cbn [ttok tst]. split; [apply tok_ok_new|]. now destruct words.
  Qed.
  (** Texts of characters are read by words or by characters. *)
  Lemma met_utf8 size inner words z0 ops z : new_tstream fl size inner words = Ok z0 -> thist fl z0 ops z -> (words = true -> Forall utf8 (tmet ops)) ->
    forall al, t_alphabet fl z = Ok al -> Forall utf8 al.
  Proof.
    intros H0 H Hm al Hal. destruct (new_tstream_tok _ _ _ _ H0) as (T1 & T2 & T3 & _).
    destruct (thist_toks utf8 z0 ops z T1) as (K1 & K2 & _); [intros w i; rewrite T2; discriminate|exact H| |].
    - intros s ws Hs Hw. rewrite T3 in Hw. destruct words; [|exact (char_tokens_utf8 s ws Hw)]. rewrite Hw. apply tokens_utf8. specialize (Hm eq_refl). rewrite Forall_forall in Hm. now apply Hm.
    - unfold t_alphabet in Hal. apply bind_ok in Hal as (ws & _ & [= <-]). unfold tok_decode_all. apply Forall_map, Forall_forall. intros v _.
      apply all_decode; [exact utf8_nil|exact utf8_app|exact K1|exact K2].
  Qed.
End S.

(** ** Which texts can be saved *)
Section F.
  Context (fl : fops) (io : float_io (F fl)).
  Notation json := (json (F fl)).

  Definition text_ok (e : entry) : Prop := match en_text e with Some t => utf8 t | None => True end.
  Lemma ok_clean e : text_ok e -> clean fl (entry_json fl e).
  Proof.
    intro H. unfold text_ok in H. assert (Hv : clean fl (JArr (map JInt (en_vec e)))) by (constructor; apply Forall_map, Forall_forall; intros; constructor).
    unfold entry_json. constructor. constructor; [split; [eexists; reflexivity|constructor]|]. destruct (en_text e) as [t|]; cbn [app].
    - constructor; [split; [eexists; reflexivity|]|]; [apply utf8_dump in H as (u & Hu); now apply cl_str with u|].
      constructor; [split; [eexists; reflexivity|exact Hv]|constructor].
    - constructor; [split; [eexists; reflexivity|exact Hv]|constructor].
  Qed.
  Lemma dump_list_in ind l ts : dump_list io ind l = Ok ts -> forall j, In j l -> exists t, dump io (2 + ind) j = Ok t.
  Proof.
    revert ts. induction l as [|v l IH]; intros ts H j Hj; [easy|]. cbn [dump_list] in H. apply bind_ok in H as (t & Ht & H). apply bind_ok in H as (us & Hu & _).
    destruct Hj as [<-|Hj]; [now exists t|]. exact (IH us Hu j Hj).
  Qed.
  Lemma dump_members_in ind m ts : dump_members io ind m = Ok ts -> forall k j, In (k, j) m -> exists t, dump io (2 + ind) j = Ok t.
  Proof.
    revert ts. induction m as [|[k' v] m IH]; intros ts H k j Hj; [easy|]. cbn [dump_members] in H. apply bind_ok in H as (kt & _ & H). apply bind_ok in H as (t & Ht & H).
    apply bind_ok in H as (us & Hu & _). destruct Hj as [[= <- <-]|Hj]; [now exists t|]. exact (IH us Hu k j Hj).
  Qed.
  Lemma obj_in ind m t : dump io ind (JObj m) = Ok t -> forall k j, In (k, j) m -> exists u, dump io (2 + ind) j = Ok u.
  Proof. destruct m as [|q m]; [easy|]. rewrite dump_obj. intro H. apply bind_ok in H as (ts & H & _). exact (dump_members_in _ _ _ H). Qed.
  Lemma pushed_in ind l t : dump io ind (pushed fl l) = Ok t -> forall j, In j l -> exists u, dump io (2 + ind) j = Ok u.
  Proof. destruct l as [|q l]; [easy|]. cbn [pushed]. rewrite dump_arr. intro H. apply bind_ok in H as (ts & H & _). exact (dump_list_in _ _ _ H). Qed.
  Lemma saved_texts tok ex z file : save_any fl io true tok ex z = Ok file -> exists p d es, the_dict fl z = Ok (p, d) /\ entries_of fl tok z d es /\ Forall text_ok es.
  Proof.
    rewrite save_any_eq. intro H. apply bind_ok in H as (a & Ha & H). apply bind_ok in H as (t & Hd & _). apply alphabet_saved in Ha as (p & d & es & Ed & -> & He).
    exists p, d, es. split; [exact Ed|]. split; [exact He|]. apply Forall_forall. intros e Hi. unfold text_ok. destruct (en_text e) as [s|] eqn:Es; [|exact I].
    destruct (obj_in _ _ _ Hd (txt "alphabet"%string) _ (or_introl eq_refl)) as (u & Hu). destruct (pushed_in _ _ _ Hu (entry_json fl e)) as (u' & Hu'); [now apply in_map|].
    unfold entry_json in Hu'. rewrite Es in Hu'. destruct (obj_in _ _ _ Hu' (txt "text"%string) (JStr s)) as (u2 & H2); [right; now left|]. apply utf8_dump. now exists u2.
  Qed.
  Lemma saved_clean tok ex z p d es : the_dict fl z = Ok (p, d) -> entries_of fl tok z d es -> Forall text_ok es -> exists file, save_any fl io true tok ex z = Ok file.
  Proof.
    intros Hd He Hc. rewrite save_any_eq, (alphabet_of fl _ _ _ _ _ Hd He). cbn [bind].
    assert (Ca : clean fl (pushed fl (map (entry_json fl) es))) by (apply pushed_clean, Forall_map; eapply Forall_impl; [|exact Hc]; exact ok_clean).
    assert (Cc : clean fl (coder_json fl (zcoder z))) by (apply pushed_clean, Forall_map, Forall_forall; intros; constructor).
    assert (Cm : clean fl (minp_json fl z)) by (unfold minp_json; destruct (zminp z); constructor).
    assert (Co : clean fl (JObj (full_obj fl (pushed fl (map (entry_json fl) es)) (coder_json fl (zcoder z)) (minp_json fl z) (zsize z) ex))).
    { constructor. unfold full_obj. destruct ex as [[f g]|]; cbn [app]; repeat (constructor; [split; [eexists; reflexivity|assumption || constructor]|]); constructor. }
    destruct (clean_dump fl io _ Co 0%nat) as (t & ->). eexists. reflexivity.
  Qed.
  (** Saving an alphabet of texts succeeds or throws, by the texts. *)
  Lemma alphabet_texts tk z p d al es : the_dict fl z = Ok (p, d) -> entries_of fl (Some tk) z d es -> s_alphabet fl z = Ok al -> map en_text es = map Some (tok_decode_all tk al).
  Proof.
    intros Hd (H1 & _ & _ & H4) Ha. unfold s_alphabet in Ha. rewrite Hd in Ha. cbn [bind] in Ha. rewrite <- H1 in Ha. clear H1 Hd. revert al Ha.
    induction H4 as [|e es He _ IH]; intros al Ha; cbn [map decode_all] in Ha; [now injection Ha as <-|]. apply bind_ok in Ha as (v & Hv & Ha). apply bind_ok in Ha as (r & Hr & [= <-]).
    cbn [map tok_decode_all]. destruct He as (v' & Hv' & ->). rewrite Hv in Hv'. injection Hv' as <-. f_equal. exact (IH r Hr).
  Qed.
  Lemma decode_all_total c ws al : decode_all c ws = Ok al -> forall w, In w ws -> exists v, decode c w = Ok v.
  Proof.
    revert al. induction ws as [|w ws IH]; intros al H x Hx; [easy|]. cbn [decode_all] in H. apply bind_ok in H as (v & Hv & H). apply bind_ok in H as (r & Hr & _).
    destruct Hx as [<-|Hx]; [now exists v|]. exact (IH r Hr x Hx).
  Qed.
  Lemma decode_all_len c ws al : decode_all c ws = Ok al -> length al = length ws.
  Proof.
    revert al. induction ws as [|w ws IH]; intros al H; cbn [decode_all] in H; [now injection H as <-|]. apply bind_ok in H as (v & Hv & H). apply bind_ok in H as (r & Hr & [= <-]).
    cbn [length]. f_equal. exact (IH r Hr).
  Qed.
  Lemma texts_exact tk ex z ws : s_alphabet fl z = Ok ws ->
    ((length ws <= length (s_freqs fl z))%nat -> (Forall utf8 (tok_decode_all tk ws) -> exists file, save_any fl io true (Some tk) ex z = Ok file) /\
       (~ Forall utf8 (tok_decode_all tk ws) -> save_any fl io true (Some tk) ex z = Throw JsonType)) /\
    ((length (s_freqs fl z) < length ws)%nat -> save_any fl io true (Some tk) ex z = UB OobRead).
  Proof.
    intro Ha. pose proof Ha as Ha'. unfold s_alphabet in Ha'. apply bind_ok in Ha' as ([p d] & Hd & Hw). unfold s_freqs. pose proof (decode_all_len _ _ _ Hw) as El.
    assert (Hdec : forall tk', Some tk = Some tk' -> forall w, In w (seqs d) -> exists v, decode (zcoder z) w = Ok v) by (intros _ _; exact (decode_all_total _ _ _ Hw)).
    split; intro Hl.
    - destruct (entries_exist fl (Some tk) z d) as (es & He); [unfold dsize; lia|exact Hdec|]. pose proof (alphabet_texts tk z p d ws es Hd He Ha) as Et.
      assert (G : Forall utf8 (tok_decode_all tk ws) <-> Forall text_ok es).
      { rewrite !Forall_forall. split.
        - intros H e Hi. unfold text_ok. destruct (en_text e) as [s|] eqn:Es; [|exact I]. apply H. apply (in_map en_text) in Hi. rewrite Et, Es in Hi. apply in_map_iff in Hi as (x & [= ->] & Hx). exact Hx.
        - intros H s Hi. apply (in_map (@Some text)) in Hi. rewrite <- Et in Hi. apply in_map_iff in Hi as (e & Ee & He'). specialize (H e He'). unfold text_ok in H. now rewrite Ee in H. }
      rewrite G. split; intro H; [exact (saved_clean _ ex _ _ _ _ Hd He H)|].
      destruct (effect_agrees fl io true (Some tk) ex [] z) as (_ & _ & _). rewrite save_any_eq, (alphabet_of fl _ _ _ _ _ Hd He). cbn [bind].
      pose proof (saved_keyed fl (Some tk) z _ ex (alphabet_of fl _ _ _ _ _ Hd He)) as K. destruct (emit_dump io _ K 0%nat) as [(t & D & _)|(D & _)]; [|now rewrite D].
      exfalso. apply H. assert (Hs : save_any fl io true (Some tk) ex z = Ok (t ++ [10])) by (rewrite save_any_eq, (alphabet_of fl _ _ _ _ _ Hd He); cbn [bind]; now rewrite D).
      apply saved_texts in Hs as (p' & d' & es' & Hd' & He' & Hok). rewrite Hd in Hd'. injection Hd' as <- <-. pose proof (alphabet_texts tk z p d ws es' Hd He' Ha) as Et'.
      apply Forall_forall. intros e Hi. unfold text_ok. destruct (en_text e) as [s|] eqn:Es; [|exact I]. apply (in_map en_text) in Hi. rewrite Et, <- Et', Es in Hi. apply in_map_iff in Hi as (x & Ex & Hx).
      rewrite Forall_forall in Hok. specialize (Hok x Hx). unfold text_ok in Hok. now rewrite Ex in Hok.
    - apply (save_past_end fl io (Some tk) ex z p d Hd); [unfold dsize; lia|exact Hdec].
  Qed.

  (** ** The statements *)
  Lemma tstream_exact z al : t_alphabet fl z = Ok al ->
    ((length al <= length (t_freqs fl z))%nat -> (Forall utf8 al -> exists file, save_tstream fl io true z = Ok file) /\ (~ Forall utf8 al -> save_tstream fl io true z = Throw JsonType)) /\
    ((length (t_freqs fl z) < length al)%nat -> save_tstream fl io true z = UB OobRead).
  Proof.
    unfold t_alphabet. intro H. apply bind_ok in H as (ws & Hw & [= <-]). rewrite save_tstream_any. unfold t_freqs, tok_decode_all at 1 4. rewrite map_length. exact (texts_exact (ttok z) None (tst z) ws Hw).
  Qed.
  Lemma tvgram_exact v al : tv_alphabet fl v = Ok al ->
    ((length al <= length (tv_freqs fl v))%nat -> (Forall utf8 al -> exists file, save_tvgram fl io true v = Ok file) /\ (~ Forall utf8 al -> save_tvgram fl io true v = Throw JsonType)) /\
    ((length (tv_freqs fl v) < length al)%nat -> save_tvgram fl io true v = UB OobRead).
  Proof.
    unfold tv_alphabet. intro H. apply bind_ok in H as (ws & Hw & [= <-]). rewrite save_tvgram_any. unfold tv_freqs, tok_decode_all at 1 4. rewrite map_length. exact (texts_exact (tvtok v) _ (vs (tv v)) ws Hw).
  Qed.
  Lemma lost_everywhere t : parse io t = Throw JsonParse ->
    load_stream fl io t = Throw JsonParse /\ load_vgram fl io t = Throw JsonParse /\ load_tstream fl io t = Throw JsonParse /\ load_tvgram fl io t = Throw JsonParse.
  Proof. intro H. unfold load_tstream, load_tvgram, load_stream, load_vgram, read_dict_json. rewrite H. easy. Qed.
  Lemma tstream_lost old z t : int_stream fl (tst z) -> minp_file fl io (tst z) -> char_tok (ttok z) -> tstream_effect fl io true old z = Ok (t, Some JsonType) ->
    load_stream fl io t = Throw JsonParse /\ load_vgram fl io t = Throw JsonParse /\ load_tstream fl io t = Throw JsonParse /\ load_tvgram fl io t = Throw JsonParse.
  Proof. intros Hi Hm Ht H. rewrite tstream_effect_any in H. apply lost_everywhere. exact (effect_lost fl io (Some (ttok z)) None old (tst z) t H Hi Ht Hm). Qed.
  Lemma tvgram_lost old v t : int_stream fl (vs (tv v)) -> minp_file fl io (vs (tv v)) -> char_tok (tvtok v) -> tvgram_effect fl io true old v = Ok (t, Some JsonType) ->
    load_stream fl io t = Throw JsonParse /\ load_vgram fl io t = Throw JsonParse /\ load_tstream fl io t = Throw JsonParse /\ load_tvgram fl io t = Throw JsonParse.
  Proof. intros Hi Hm Ht H. rewrite tvgram_effect_any in H. apply lost_everywhere. exact (effect_lost fl io (Some (tvtok v)) _ old (vs (tv v)) t H Hi Ht Hm). Qed.
  (** Integer models. *)
  Lemma stream_no_throw old z t e : stream_effect fl io true old z = Ok (t, e) -> e = None.
  Proof.
    intro H. rewrite stream_effect_any in H. destruct e as [e|]; [|reflexivity]. exfalso.
    destruct (effect_agrees fl io true None None old z) as (_ & A & _). destruct (A e) as (_ & B). specialize (B (ex_intro _ t H)). clear A H.
    rewrite save_any_eq in B. destruct (alphabet_to_json fl None z) as [a|k|e'|] eqn:Ea; cbn [bind] in B; try discriminate.
    - pose proof Ea as Eb. apply alphabet_saved in Ea as (p & d & es & Hd & -> & He). destruct (save_total fl io None None z p d es Hd He (no_texts fl z d es He)) as (file & Hf).
      rewrite save_any_eq, Eb in Hf. cbn [bind] in Hf. congruence.
    - clear B. unfold alphabet_to_json, the_dict, hget, vget in Ea. destruct (zdict z) as [p|]; [|discriminate]. destruct (nth_error (bheap (zb z)) p) as [d|]; [|discriminate]. cbn [bind] in Ea.
      assert (G : forall l acc e, foldM (fun l i => w <- word_json fl None z d i ;; Ok (l ++ [w])) l acc <> Throw e).
      { induction l as [|i l IH]; intros acc e2; [discriminate|]. cbn [foldM]. unfold word_json at 1, get, vget. destruct (nth_error (seqs d) i); [|discriminate]. cbn [bind].
        destruct (nth_error (s_freqs fl z) i); [|discriminate]. cbn [bind]. apply IH. }
      destruct (foldM _ _ _) as [ws|k|e2|] eqn:E; cbn [bind] in Ea; try discriminate. now apply G in E.
  Qed.
  Lemma stream_agrees old z :
    (forall file, save_stream fl io true z = Ok file <-> stream_effect fl io true old z = Ok (file, None)) /\ (forall k, save_stream fl io true z = UB k <-> stream_effect fl io true old z = UB k).
  Proof. rewrite save_stream_any, stream_effect_any. destruct (effect_agrees fl io true None None old z) as (A & _ & B). now split. Qed.
  Lemma tstream_agrees old z :
    (forall file, save_tstream fl io true z = Ok file <-> tstream_effect fl io true old z = Ok (file, None)) /\
    (forall e, save_tstream fl io true z = Throw e <-> exists t, tstream_effect fl io true old z = Ok (t, Some e)) /\
    (forall k, save_tstream fl io true z = UB k <-> tstream_effect fl io true old z = UB k).
  Proof. rewrite save_tstream_any, tstream_effect_any. apply effect_agrees. Qed.
  Lemma tvgram_agrees old v :
    (forall file, save_tvgram fl io true v = Ok file <-> tvgram_effect fl io true old v = Ok (file, None)) /\
    (forall e, save_tvgram fl io true v = Throw e <-> exists t, tvgram_effect fl io true old v = Ok (t, Some e)) /\
    (forall k, save_tvgram fl io true v = UB k <-> tvgram_effect fl io true old v = UB k).
  Proof. rewrite save_tvgram_any, tvgram_effect_any. apply effect_agrees. Qed.
End F.

(** Text streams in use. *)
Lemma texts_saved fl : flaws fl -> forall (io : float_io (F fl)) size inner words N z0 ops z, new_tstream fl size inner words = Ok z0 -> thist fl z0 ops z -> tnormal fl N ops -> In TUpdate ops ->
  (words = true -> Forall utf8 (tmet ops)) ->
  exists al, t_alphabet fl z = Ok al /\ Forall utf8 al /\
    ((length al <= length (t_freqs fl z))%nat -> exists file, forall old, tstream_effect fl io true old z = Ok (file, None)) /\
    ((length (t_freqs fl z) < length al)%nat -> forall old, tstream_effect fl io true old z = UB OobRead).
Proof.
  intros L io size inner words N z0 ops z H0 H Hn Hu Hm. destruct (new_tstream_tok fl _ _ _ _ H0) as (T1 & T2 & T3 & T4).
  destruct (thist_int fl z0 ops z T1 H) as (iops & I1 & I2 & _ & _). rewrite T4 in I1.
  destruct (fresh_dict fl L size N iops (tst z) I1) as (p & d & al & Hd & Hal & _); [exact (proj1 (coded_normal fl _ _ _ _ _ I2 Hn))|exact (coded_update fl _ _ _ _ I2 Hu)|].
  assert (Ha : t_alphabet fl z = Ok (tok_decode_all (ttok z) al)) by (unfold t_alphabet; now rewrite Hal). exists (tok_decode_all (ttok z) al). split; [exact Ha|].
  pose proof (met_utf8 fl _ _ _ _ _ _ H0 H Hm _ Ha) as U. split; [exact U|]. destruct (tstream_exact fl io z _ Ha) as (E1 & E2). split; intro Hl.
  - destruct (E1 Hl) as (E3 & _). destruct (E3 U) as (file & Hf). exists file. intro old. now apply (tstream_agrees fl io old z).
  - intro old. apply (tstream_agrees fl io old z). now apply E2.
Qed.
Section B.
  Context (fl : fops) (io : float_io (F fl)).
  Lemma tstream_by_texts z al : t_alphabet fl z = Ok al -> (length al <= length (t_freqs fl z))%nat ->
    (Forall utf8 al -> exists file, forall old, tstream_effect fl io true old z = Ok (file, None)) /\
    (~ Forall utf8 al -> forall old, exists t, tstream_effect fl io true old z = Ok (t, Some JsonType)).
  Proof.
    intros Ha Hl. destruct (tstream_exact fl io z al Ha) as (E & _). destruct (E Hl) as (E1 & E2). split; intro U.
    - destruct (E1 U) as (file & Hf). exists file. intro old. now apply (tstream_agrees fl io old z).
    - intro old. apply (tstream_agrees fl io old z). now apply E2.
  Qed.
  Lemma tvgram_by_texts v al : tv_alphabet fl v = Ok al -> (length al <= length (tv_freqs fl v))%nat ->
    (Forall utf8 al -> exists file, forall old, tvgram_effect fl io true old v = Ok (file, None)) /\
    (~ Forall utf8 al -> forall old, exists t, tvgram_effect fl io true old v = Ok (t, Some JsonType)).
  Proof.
    intros Ha Hl. destruct (tvgram_exact fl io v al Ha) as (E & _). destruct (E Hl) as (E1 & E2). split; intro U.
    - destruct (E1 U) as (file & Hf). exists file. intro old. now apply (tvgram_agrees fl io old v).
    - intro old. apply (tvgram_agrees fl io old v). now apply E2.
  Qed.
  Lemma vgram_no_throw old v t e : vgram_effect fl io true old v = Ok (t, e) -> e = None.
  Proof. exact (stream_no_throw fl io old (vs v) t e). Qed.
End B.
