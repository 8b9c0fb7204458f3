(** CustomProofs: what StringProofs.v and PropsStringLemmas.v prove for the two tokenizers, for any tokenizer. *)
From Verif Require Import Base Spec FloatOps FloatLaws ModelDict ModelCoder ModelTok Maps ModelStat ModelBuilder ModelStream ModelVGram ModelString ModelCustom
  SpecTok CoderProofs TokProofs DictProofs SpecStat SpecBuilder StreamProofs VGramProofs PropsStreamLemmas PropsVGramLemmas StringProofs PropsStringLemmas
  SpecStream SpecVGram SpecString SpecCustom.

Section C.
  Context (fl : fops) (L : flaws fl) (norm : text -> outcome text) (toks : text -> outcome (list text)).
  Notation cut := (cut norm toks). Notation cut_in := (cut_in norm toks). Notation width := (width norm toks).

  Lemma cut_fun s a b : cut s a -> cut s b -> a = b.
  Proof. intros (n & H1 & H2) (n' & H3 & H4). congruence. Qed.
  Lemma cut_width s ws : cut s ws -> width s = Z.of_nat (length ws).
  Proof. intros (n & H1 & H2). unfold SpecCustom.width. now rewrite H1; cbn [bind]; rewrite H2. Qed.
  Lemma c_transform_coded t s ids t' : tok_ok t -> c_transform norm toks t s = Ok (ids, t') ->
    exists ws, cut s ws /\ tok_ok t' /\ tok_ext t t' /\ coded t' ws ids.
  Proof.
    intros Ht H. unfold c_transform in H. apply bind_ok in H as (n & Hn & H). apply bind_ok in H as (ws & Hw & H). exists ws. split; [now exists n|].
    destruct (code_tokens_ok ws t Ht) as (ids' & t1 & E & H1 & H2 & H3). unfold text, seq in *. rewrite E in H. injection H as <- <-. now split.
  Qed.
  Lemma c_transform_total t s ws : tok_ok t -> cut s ws -> exists ids t', c_transform norm toks t s = Ok (ids, t').
  Proof.
    intros Ht (n & H1 & H2). unfold c_transform. rewrite H1. cbn [bind]. rewrite H2. cbn [bind].
    destruct (code_tokens_ok ws t Ht) as (ids & t' & E & _). now exists ids, t'.
  Qed.
  Definition ccoded_op (tk : tokenizer) (op : top fl) (iop : sop fl) : Prop :=
    match op, iop with
    | TAccept e s, SAccept e' ids => e = e' /\ exists ws, cut s ws /\ coded tk ws ids
    | TParse s, SParse ids => exists ws, cut s ws /\ coded tk ws ids
    | TUpdate, SUpdate => True
    | _, _ => False
    end.
  Lemma ccoded_op_ext t t' op iop : tok_ext t t' -> ccoded_op t op iop -> ccoded_op t' op iop.
  Proof.
    intro He. destruct op as [e s|s|], iop as [e' ids|ids|]; cbn [ccoded_op]; try easy.
    - intros (E & ws & H1 & H2). split; [easy|]. exists ws. split; [easy|now apply (coded_ext t)].
    - intros (ws & H1 & H2). exists ws. split; [easy|now apply (coded_ext t)].
  Qed.
  Lemma ccoded_ops_ext t t' ops iops : tok_ext t t' -> Forall2 (ccoded_op t) ops iops -> Forall2 (ccoded_op t') ops iops.
  Proof. intros He H. induction H; constructor; [now apply (ccoded_op_ext t)|easy]. Qed.

  (** A text history is a history of the integer stream. *)
  Lemma chist_int z0 ops z : tok_ok (ttok z0) -> chist fl norm toks z0 ops z ->
    exists iops, shist fl (tst z0) iops (tst z) /\ Forall2 (ccoded_op (ttok z)) ops iops /\ tok_ok (ttok z) /\ tok_ext (ttok z0) (ttok z).
  Proof.
    intros H0 H. induction H as [|ops z op z' H (iops & I1 & I2 & I3 & I4) Hs].
    - exists []. split; [constructor|]. split; [constructor|]. split; [easy|apply tok_ext_refl].
    -  destruct op as [e s|s|]; cbn [cstep] in Hs.
      + unfold c_accept in Hs. apply bind_ok in Hs as ([ids tk] & Ht & Hs). apply bind_ok in Hs as (z1 & Ha & Hs). injection Hs as <-. cbn [tst ttok].
        destruct (c_transform_coded _ _ _ _ I3 Ht) as (ws & Hw & Hk & He & Hc). exists (iops ++ [SAccept e ids]).
        split; [exact (sh_step fl _ _ _ (SAccept e ids) _ I1 Ha)|]. split; [|split; [easy|now apply tok_ext_trans with (ttok z)]].
        apply Forall2_app; [now apply (ccoded_ops_ext (ttok z))|]. constructor; [|constructor]. split; [easy|]. now exists ws.
      + destruct Hs as [pieces Hs]. unfold c_parse in Hs. apply bind_ok in Hs as ([ids tk] & Ht & Hs). apply bind_ok in Hs as ([r z1] & Ha & Hs).
        apply bind_ok in Hs as (l & _ & Hs). injection Hs as _ <-. cbn [tst ttok].
        destruct (c_transform_coded _ _ _ _ I3 Ht) as (ws & Hw & Hk & He & Hc). exists (iops ++ [SParse ids]).
        split; [exact (sh_step fl _ _ _ (SParse ids) _ I1 (ex_intro _ r Ha))|]. split; [|split; [easy|now apply tok_ext_trans with (ttok z)]].
        apply Forall2_app; [now apply (ccoded_ops_ext (ttok z))|]. constructor; [|constructor]. now exists ws.
      + unfold t_update in Hs. apply bind_ok in Hs as (z1 & Ha & Hs). injection Hs as <-. cbn [tst ttok]. exists (iops ++ [SUpdate]).
        split; [exact (sh_step fl _ _ _ SUpdate _ I1 Ha)|]. split; [|now split]. apply Forall2_app; [easy|]. constructor; [easy|constructor].
  Qed.

  Lemma ccoded_seen tk ops iops : tok_ok tk -> Forall2 (ccoded_op tk) ops iops -> forall w i, mfind seq_eqb (tfwd tk) w = Some i ->
    (In i (seen fl iops) <-> cut_in (tfed fl ops) w).
  Proof.
    intros Hok H w i Hw. unfold seen. induction H as [|op iop ops iops Ho H IH].
    - cbn. split; [easy|]. intros (s & ws & [] & _).
    - unfold fed, tfed in *. cbn [flat_map]. rewrite concat_app, in_app_iff, IH.
      split.
      + intros [Hi|(s & ws & H1 & H2 & H3)].
        * destruct op as [e s|s|], iop as [e' ids|ids|]; cbn [ccoded_op] in Ho; try easy. destruct Ho as (_ & ws & Hws & Hc).
          cbn [op_fed concat] in Hi. rewrite app_nil_r in Hi. exists s, ws. split; [apply in_or_app; left; now left|]. split; [easy|].
          clear -Hok Hw Hc Hi. induction Hc as [|v j ws ids Hv Hc IH]; [easy|]. destruct Hi as [->|Hi]; [left; exact (code_inj _ _ _ _ Hok Hv Hw)|right; now apply IH].
        * exists s, ws. split; [apply in_or_app; now right|easy].
      + intros (s & ws & H1 & H2 & H3). apply in_app_or in H1 as [H1|H1].
        * left. destruct op as [e s'|s'|]; cbn [top_fed] in H1; try easy. destruct H1 as [->|[]]. destruct iop as [e' ids|ids|]; cbn [ccoded_op] in Ho; try easy.
          destruct Ho as (_ & ws' & Hws & Hc). rewrite <- (cut_fun _ _ _ H2 Hws) in Hc. cbn [op_fed concat]. rewrite app_nil_r.
          clear -Hw Hc H3. induction Hc as [|v j ws ids Hv Hc IH]; [easy|]. destruct H3 as [->|H3]; [left; congruence|right; now apply IH].
        * right. now exists s, ws.
  Qed.
  (** The limits carry over. *)
  Lemma ccoded_normal tk N ops iops : Forall2 (ccoded_op tk) ops iops -> cnormal fl norm toks N ops ->
    normal fl N iops /\ (handled fl iops <= chandled fl norm toks ops)%Z.
  Proof.
    intros H (H1 & H2 & H3 & H4 & H5).
    assert (Hh : (handled fl iops <= chandled fl norm toks ops)%Z).
    { clear -H. unfold handled, chandled. induction H as [|op iop ops iops Ho H IH]; [cbn; lia|]. cbn [map zsum fold_right] in *.
      assert (op_handled fl iop <= cop_handled fl norm toks op)%Z; [|unfold zsum in *; lia].
      destruct op as [e s|s|], iop as [e' ids|ids|]; cbn [ccoded_op] in Ho; try easy; cbn [op_handled cop_handled].
      - destruct Ho as (_ & ws & Hw & Hc). apply Forall2_len in Hc. apply cut_width in Hw. rewrite ?Hw; unfold text, seq in *; lia.
      - destruct Ho as (ws & Hw & Hc). apply Forall2_len in Hc. apply cut_width in Hw. rewrite ?Hw; unfold text, seq in *; lia. }
    assert (Hu : updates fl iops = tupdates fl ops).
    { clear -H. unfold updates, tupdates. induction H as [|op iop ops iops Ho H IH]; [easy|].
      destruct op as [e s|s|], iop as [e' ids|ids|]; cbn [ccoded_op] in Ho; try easy; cbn [filter is_update is_tupdate length]; lia. }
    split; [|exact Hh]. split.
    - clear -H H1. induction H as [|op iop ops iops Ho H IH]; intros e s Hi; [easy|]. destruct Hi as [->|Hi].
      + destruct op as [e' s'|s'|]; cbn [ccoded_op] in Ho; try easy. destruct Ho as [<- _]. apply (H1 e' s'). now left.
      + apply (IH (fun e' s' Hi' => H1 e' s' (or_intror Hi')) e s Hi).
    - split; [exact H2|]. split; [|split; [lia|now rewrite Hu]].
      clear -H H3. unfold fed, tfed in *. induction H as [|op iop ops iops Ho H IH]; [constructor|]. cbn [flat_map] in *. apply Forall_app in H3 as [H3 H4].
      apply Forall_app. split; [|now apply IH]. destruct op as [e s|s|], iop as [e' ids|ids|]; cbn [ccoded_op] in Ho; try easy; cbn [op_fed]; try constructor; [|constructor].
      destruct Ho as (_ & ws & Hw & Hc). cbn [top_fed] in H3. inversion H3 as [|x l Hx _]; subst. apply Forall2_len in Hc. apply cut_width in Hw. rewrite ?Hw; unfold text, seq in *; lia.
  Qed.
  Lemma ccoded_update tk ops iops : Forall2 (ccoded_op tk) ops iops -> In TUpdate ops -> In SUpdate iops.
  Proof.
    intro H. induction H as [|op iop ops iops Ho H IH]; [easy|]. intros [->|Hi].
    - left. now destruct iop; cbn [ccoded_op] in Ho.
    - right. now apply IH.
  Qed.


Lemma c_all_coded ss : forall t cs t', tok_ok t -> c_transform_all norm toks t ss = Ok (cs, t') ->
  tok_ok t' /\ tok_ext t t' /\ Forall2 (fun s ids => exists ws, cut s ws /\ coded t' ws ids) ss cs.
Proof.
  unfold c_transform_all. induction ss as [|s ss IH]; intros t cs t' Ht H; cbn [mapM] in H.
  - injection H as <- <-. split; [exact Ht|]. split; [apply tok_ext_refl|constructor].
  - apply bind_ok in H as ([ids t1] & H1 & H). apply bind_ok in H as ([cs' t2] & H2 & H). injection H as <- <-.
    destruct (c_transform_coded _ _ _ _ Ht H1) as (ws & Hw & Hk & He & Hc). destruct (IH _ _ _ Hk H2) as (G1 & G2 & G3).
    split; [exact G1|]. split; [now apply tok_ext_trans with t1|].  constructor; [|exact G3].
    exists ws. split; [exact Hw|]. exact (coded_ext _ _ _ _ G2 Hc).
Qed.
Lemma c_all_total ss : forall t, tok_ok t -> (forall s, In s ss -> exists ws, cut s ws) -> exists cs t', c_transform_all norm toks t ss = Ok (cs, t').
Proof.
  unfold c_transform_all. induction ss as [|s ss IH]; intros t Ht H; cbn [mapM].
  - now exists [], t.
  - destruct (H s (or_introl eq_refl)) as (ws0 & Hw0). destruct (c_transform_total t s ws0 Ht Hw0) as (ids & t1 & E1). rewrite E1. cbn [bind].
    destruct (c_transform_coded _ _ _ _ Ht E1) as (_ & _ & Hk & [Ek _] & _).
    destruct (IH t1 Hk) as (cs & t2 & E2); [intros u Hu; apply H; now right|]. rewrite E2. cbn [bind]. now exists (ids :: cs), t2.
Qed.

  Lemma custom_lossless size N ops z s ws : chist fl norm toks (c_stream fl size) ops z -> cnormal fl norm toks N ops -> In TUpdate ops ->
    cut s ws -> (chandled fl norm toks ops + Z.of_nat (length ws) <= 2 ^ 48)%Z -> (Z.of_nat (length ws) <= 2 ^ 40)%Z ->
    exists pieces z' al, c_parse fl norm toks z s = Ok (pieces, z') /\ t_alphabet fl z' = Ok al /\ incl pieces al /\
    exists ks, only (cut_in (tfed fl ops)) ws ks /\ concat pieces = concat ks.
  Proof.
    intros H Hn Hu Hcut Hh Hl. assert (Hk0 : tok_ok (ttok (c_stream fl size))) by apply tok_ok_new.
    destruct (chist_int _ ops z Hk0 H) as (iops & Hs & Hc & Hk & He). cbn [tst c_stream] in Hs.
    destruct (ccoded_normal _ _ _ _ Hc Hn) as [Hin Hih].
    destruct (c_transform_total _ _ _ Hk Hcut) as (ids & tk & Etr). destruct (c_transform_coded _ _ _ _ Hk Etr) as (ws' & Hws & Hk' & He' & Hcd).
    pose proof (cut_fun _ _ _ Hws Hcut) as ->.
    pose proof (Forall2_len _ _ _ Hcd) as Hlen'.
    assert (Hl1 : (Z.of_nat (length ids) <= Z.of_nat (length ws))%Z) by (unfold text, seq in *; lia).
    destruct (fresh_lossless fl L size N iops (tst z) ids Hs Hin (ccoded_update _ _ _ Hc Hu)) as (r & z' & al & al' & Ep & Hal & Hal' & Hsp & _); [lia|lia|].
    destruct (spells_in _ _ _ Hsp) as (vs & Hv & Hcv & Hva).
    exists (map (tok_decode tk) vs), (mkTStream z' tk (twords z) (tinner z)), (tok_decode_all tk al'). split; [|split; [|split]].
    - unfold c_parse. rewrite Etr. cbn [bind]. rewrite Ep. cbn [bind]. now rewrite (token_words_spec fl z' tk al' r vs Hal' Hv).
    - unfold t_alphabet. cbn [tst ttok]. now rewrite Hal'.
    - intros p Hp. apply in_map_iff in Hp as (v & <- & Hv'). apply in_map. now apply Hva.
    - destruct (restrict_only (seen fl iops) (cut_in (tfed fl ops)) tk ws ids Hcd) as (ks & Ho & Hcks).
      + intros w i Hw. exact (ccoded_seen tk ops iops Hk' (ccoded_ops_ext _ _ _ _ He' Hc) w i Hw).
      + exists ks. split; [exact Ho|]. rewrite <- (decode_tokens _ _ _ Hk' Hcks), <- Hcv. symmetry. apply decode_concat.
  Qed.

  (** An object that parses without change and whose words are made of known tokens. *)
  Record creader (texts : list text) (v : vgram fl) (tk : tokenizer) (known : list Z) (al : list seq) : Prop := {
    cre_tok : tok_ok tk;
    cre_parse : forall y : seq, (Z.of_nat (length y) <= 2 ^ 40)%Z -> exists ids, s_parse fl (vs v) y = Ok (ids, vs v) /\ spells al ids (restrict known y);
    cre_al : s_alphabet fl (vs v) = Ok al;
    cre_ne : ~ In [] al;
    cre_sym : forall w c, In w al -> In c w -> In c known;
    cre_known : forall i, In i known -> exists w, mfind seq_eqb (tfwd tk) w = Some i /\ cut_in texts w;
    cre_solid : ~ cut_in texts [];
    cre_tokens : forall w, cut_in texts w -> exists i, In i known /\ mfind seq_eqb (tfwd tk) w = Some i
  }.
  Lemma creader_ext texts v tk tk' known al : creader texts v tk known al -> tok_ok tk' -> tok_ext tk tk' -> creader texts v tk' known al.
  Proof.
    intros R Hk He. destruct R as [R2 R3 R4 R5 R6 R7 R9 R8]. split; try assumption.
    - intros i Hi. destruct (R7 i Hi) as (w & H1 & H2). exists w. split; [now apply He|exact H2].
    - intros w Hw. destruct (R8 w Hw) as (i & H1 & H2). exists i. split; [exact H1|now apply He].
  Qed.
  Lemma creader_word texts v tk known al w : creader texts v tk known al -> In w al -> tok_decode tk w <> [].
  Proof.
    intros R Hw. destruct w as [|c w]; [destruct (cre_ne _ _ _ _ _ R Hw)|]. cbn [tok_decode].
    destruct (cre_known _ _ _ _ _ R c (cre_sym _ _ _ _ _ R _ c Hw (or_introl eq_refl))) as (u & Hu & Ht).
    pose proof (cre_tok _ _ _ _ _ R) as (_ & Hb & _). rewrite (proj1 (Hb u c) Hu). destruct u; [destruct (cre_solid _ _ _ _ _ R Ht)|discriminate].
  Qed.
  Lemma creader_batch texts v tk known al : creader texts v tk known al -> forall ys,
    (forall y, In y ys -> (exists ws, cut y ws) /\ (width y <= 2 ^ 40)%Z) ->
    exists outs tk', tok_ok tk' /\ tok_ext tk tk' /\ Forall2 (turned norm toks texts (tok_decode_all tk' al)) ys outs /\
      forall w, exists m, kept (w_term w) (length ys) m /\ c_apply fl norm toks w (mkTVGram v tk) ys = Ok (firstn m outs, mkTVGram v tk').
  Proof.
    intros R ys Hy. destruct (c_all_total ys tk (cre_tok _ _ _ _ _ R)) as (cs & tk' & Et).
    { intros s Hs. now apply Hy. }
    destruct (c_all_coded _ _ _ _ (cre_tok _ _ _ _ _ R) Et) as (Hk' & He' & Hcs).
    pose proof (creader_ext _ _ _ _ _ _ R Hk' He') as R'.
    assert (E : exists rs outs, Forall2 (fun c ids => s_parse fl (vs v) c = Ok (ids, vs v)) cs rs /\ Forall2 (fun ids out => decoded tk' al ids [] = Ok out) rs outs /\
      Forall2 (turned norm toks texts (tok_decode_all tk' al)) ys outs).
    { clear Et. induction Hcs as [|y c ys cs (ws & Hw & Hc) Hcs IH]; [exists [], []; repeat constructor|].
      destruct IH as (rs & outs & I1 & I2 & I3); [intros u Hu; apply Hy; now right|]. destruct (Hy y (or_introl eq_refl)) as [_ Hl].
      pose proof (Forall2_len _ _ _ Hc) as L1. pose proof (cut_width _ _ Hw) as L2.
      destruct (cre_parse _ _ _ _ _ R' c) as (ids & Hp & Hs); [unfold text, seq in *; lia|]. destruct (spells_in _ _ _ Hs) as (vs' & Hv & Hcv & Hva).
      assert (Hne : ~ In [] (map (tok_decode tk') vs')).
      { intro Hi. apply in_map_iff in Hi as (u & Eu & Hu). now apply (creader_word _ _ _ _ _ u R' (Hva u Hu)). }
      exists (ids :: rs), (join (map (tok_decode tk') vs') :: outs). split; [now constructor|]. split; [constructor; [exact (decoded_join tk' al ids vs' Hv Hne)|exact I2]|].
      constructor; [|exact I3]. destruct (restrict_only known (cut_in texts) tk' ws c Hc) as (ks & Ho & Hck).
      - intros w i Hwi. split.
        + intro Hi. destruct (cre_known _ _ _ _ _ R' i Hi) as (w' & H1 & H2). now rewrite (code_inj _ _ _ _ Hk' Hwi H1).
        + intro Hi. destruct (cre_tokens _ _ _ _ _ R' w Hi) as (i' & H1 & H2). congruence.
      - exists ws, ks, (map (tok_decode tk') vs'). split; [exact Hw|]. split; [exact Ho|]. split; [now split|]. split.
        + intros p Hin. apply in_map_iff in Hin as (u & <- & Hu). apply in_map. now apply Hva.
        + rewrite <- (decode_tokens _ _ _ Hk' Hck), <- Hcv. symmetry. apply decode_concat. }
    destruct E as (rs & outs & E1 & E2 & E3). exists outs, tk'. split; [exact Hk'|]. split; [exact He'|]. split; [exact E3|]. intro w.
    destruct (batch_pure fl v cs rs E1 w) as (m & Hm & Ht). exists m. pose proof (Forall2_len _ _ _ Hcs) as L1. unfold text, seq in *. rewrite L1. split; [exact Hm|].
    unfold c_apply. cbn [tvtok tv]. unfold text, seq in *. rewrite Et. cbn [bind]. rewrite Ht. cbn [bind]. rewrite (cre_al _ _ _ _ _ R). cbn [bind].
    rewrite (decoded_all_spec tk' al (firstn m rs) (firstn m outs)); [easy|]. clear -E2. revert m. induction E2; intros [|m]; cbn [firstn]; constructor; auto.
  Qed.

  (** Earlier transforms change nothing but the tokenizer. *)
  Lemma creader_transformed_ext texts v tk known al v2 : creader texts v tk known al -> applied fl norm toks (mkTVGram v tk) v2 ->
    exists tk2, v2 = mkTVGram v tk2 /\ creader texts v tk2 known al /\ tok_ext tk tk2.
  Proof.
    intros R H. induction H as [|v1 w xs r v2 H (tk1 & -> & R1 & X1) Hl Ht]; [exists tk; split; [easy|split; [exact R|apply tok_ext_refl]]|]. unfold c_apply in Ht. cbn [tvtok tv] in Ht.
    apply bind_ok in Ht as ([cs tk2] & Et & Ht). destruct (c_all_coded _ _ _ _ (cre_tok _ _ _ _ _ R1) Et) as (Hk2 & He2 & Hcs).
    apply bind_ok in Ht as ([rs v'] & Etr & Ht). apply bind_ok in Ht as (al' & _ & Ht). apply bind_ok in Ht as (l & _ & Ht). injection Ht as _ <-.
    exists tk2. split; [|split; [exact (creader_ext _ _ _ _ _ _ R1 Hk2 He2)|exact (tok_ext_trans _ _ _ X1 He2)]]. f_equal.
    assert (E : exists ids, Forall2 (fun c ids => s_parse fl (vs v) c = Ok (ids, vs v)) cs ids).
    { clear Etr Et. induction Hcs as [|y c ys cs (ws & Hw & Hc) Hcs IH]; [now exists []|]. inversion Hl; subst. destruct IH as (rs' & IH); [assumption|].
      pose proof (Forall2_len _ _ _ Hc) as L1. pose proof (cut_width _ _ Hw) as L2.
      destruct (cre_parse _ _ _ _ _ R1 c) as (ids & Hp & _); [unfold text, seq in *; lia|]. exists (ids :: rs'). now constructor. }
    destruct E as (ids & E). destruct (batch_pure fl v cs ids E w) as (m & _ & E'). congruence.
  Qed.
  Lemma creader_transformed texts v tk known al v2 : creader texts v tk known al -> applied fl norm toks (mkTVGram v tk) v2 ->
    exists tk2, v2 = mkTVGram v tk2 /\ creader texts v tk2 known al.
  Proof. intros R H. destruct (creader_transformed_ext _ _ _ _ _ _ R H) as (tk2 & E & R2 & _). now exists tk2. Qed.

  (** A good fit makes a reader. *)
  Lemma fit_creader size N iter w texts codes tk ops al : c_transform_all norm toks c_new texts = Ok (codes, tk) -> ~ cut_in texts [] ->
    good_fit fl size N [] w (new_vgram fl size iter) codes ops al ->
    exists v, fit fl w (new_vgram fl size iter) codes = Ok (true, v) /\ creader texts v tk (seen fl ops) al.
  Proof.
    intros Et Hsolid G. destruct (c_all_coded _ _ _ _ (tok_ok_new CharTok) Et) as (Hk & _ & Hcs). cbn [tkind new_tok] in *.
    destruct (good_start fl L _ _ _ _ _ _ _ _ G) as (z & d & fs & b & acc & E & R & Eal & _).
    set (v := mkVGram _ _ _ _) in *. exists v. split; [exact E|].
    assert (Hsym : forall u c, In u al -> In c u -> In c (seen fl ops)).
    { intros u c Hu Hc. rewrite Eal in Hu. apply in_map_iff in Hu as (x & <- & Hx). unfold decw in Hc. apply in_map_iff in Hc as (q & <- & Hq).
      pose proof (rd_range _ _ _ _ R x Hx q Hq) as Hr. assert (Hi : In (nth (Z.to_nat q) (symbols_of fl [] ops) 0%Z) (symbols_of fl [] ops)) by (apply nth_In; lia).
      unfold symbols_of in Hi at 2. apply adds_in in Hi as [[]|Hi]. exact Hi. }
    assert (Hdata : forall i, In i (seen fl ops) <-> In i (concat codes)).
    { intro i. pose proof G as (_ & _ & Eops & _ & _ & _ & _ & _ & _ & Hx & _). split.
      - rewrite Eops. intro Hi. apply drawn_in in Hi as [[]|Hi]. exact Hi.
      - intro Hi. apply in_concat in Hi as (x & Hxx & Hi). destruct (Hx x Hxx) as [Hc _]. exact (Hsym [i] i (Hc i Hi) (or_introl eq_refl)). }
    split.
    - exact Hk.
    - intros y Hl. refine (fitted_parses fl L _ _ _ _ _ _ _ _ v G E y _ Hl). intros c Hc. unfold restrict in Hc. apply filter_In in Hc as [_ Hc].
      destruct (in_dec Z.eq_dec c (seen fl ops)) as [Hi|]; [|discriminate]. apply (proj1 (Hdata c)) in Hi. apply in_concat in Hi as (x & Hx & Hi).
      destruct G as (_ & _ & _ & _ & _ & _ & _ & _ & _ & Hd & _). exact (proj1 (Hd x Hx) c Hi).
    - rewrite Eal. exact (ready_alphabet fl _ _ _ R).
    - rewrite Eal. intro Hi. apply in_map_iff in Hi as (u & Eu & Hu). destruct u; [|discriminate Eu]. now apply (rd_ne _ _ _ _ R [] Hu).
    - exact Hsym.
    - intros i Hi. apply Hdata in Hi. clear -Hi Hcs. induction Hcs as [|s c ss cs (ws & Hw & Hc) Hcs IH]; [easy|]. cbn [concat] in Hi.
      apply in_app_or in Hi as [Hi|Hi].
      + assert (Hx : exists u, In u ws /\ mfind seq_eqb (tfwd tk) u = Some i).
        { clear -Hc Hi. induction Hc as [|u j ws c Hu Hc IH]; [easy|]. destruct Hi as [->|Hi]; [exists u; split; [now left|exact Hu]|].
          destruct (IH Hi) as (u' & H1 & H2). exists u'. split; [now right|exact H2]. }
        destruct Hx as (u & Hu & Hf). exists u. split; [exact Hf|]. exists s, ws. split; [now left|easy].
      + destruct (IH Hi) as (u & H1 & s' & ws' & H2 & H3). exists u. split; [exact H1|]. exists s', ws'. split; [now right|exact H3].
    - exact Hsolid.
    - intros u (s & ws & Hs & Hw & Hu). clear -Hdata Hcs Hs Hw Hu. assert (Hx : exists i, In i (concat codes) /\ mfind seq_eqb (tfwd tk) u = Some i).
      { clear Hdata. induction Hcs as [|s' c ss cs (ws' & Hw' & Hc) Hcs IH]; [easy|]. destruct Hs as [->|Hs].
        - rewrite <- (cut_fun _ _ _ Hw Hw') in Hc. clear -Hc Hu. induction Hc as [|u' j ws c Hu' Hc IH]; [easy|]. destruct Hu as [->|Hu].
          + exists j. split; [now left|exact Hu'].
          + destruct (IH Hu) as (i & H1 & H2). exists i. split; [|exact H2]. cbn [concat app]. now right.
        - destruct (IH Hs) as (i & H1 & H2). exists i. split; [|exact H2]. cbn [concat]. apply in_or_app. now right. }
      destruct Hx as (i & H1 & H2). exists i. split; [now apply Hdata|exact H2].
  Qed.

  Lemma cfitted_texts size N iter w texts codes tk ops al : c_transform_all norm toks c_new texts = Ok (codes, tk) -> ~ cut_in texts [] ->
    good_fit fl size N [] w (new_vgram fl size iter) codes ops al ->
    exists v, c_fit fl norm toks w (c_vgram fl size iter) texts = Ok v /\
    forall v1, applied fl norm toks v v1 -> forall ys, (forall y, In y ys -> (exists ws, cut y ws) /\ (width y <= 2 ^ 40)%Z) ->
    exists outs words v2, tv_alphabet fl v2 = Ok words /\ Forall2 (turned norm toks texts words) ys outs /\
      forall w', exists m, kept (w_term w') (length ys) m /\ c_apply fl norm toks w' v1 ys = Ok (firstn m outs, v2).
  Proof.
    intros Et Hsolid G. destruct (fit_creader _ _ _ _ _ _ _ _ _ Et Hsolid G) as (v & Ef & R). exists (mkTVGram v tk). split.
    - unfold c_fit, c_vgram, new_tvgram_with. cbn [tvtok tv]. rewrite Et. cbn [bind]. rewrite Ef. reflexivity.
    - intros v1 Hv1 ys Hy. destruct (creader_transformed _ _ _ _ _ _ R Hv1) as (tk1 & -> & R1).
      destruct (creader_batch _ _ _ _ _ R1 ys Hy) as (outs & tk2 & Hk2 & He2 & Hr & Hw). exists outs, (tok_decode_all tk2 al), (mkTVGram v tk2).
      split; [|split; [exact Hr|exact Hw]]. unfold tv_alphabet. cbn [tv tvtok]. now rewrite (cre_al _ _ _ _ _ R).
  Qed.

End C.
