(** Lemmas for PropsCounts.v. *)
From Verif Require Import Base Spec FloatOps FloatLaws FloatRebuild ModelDict ModelCoder ModelTok Maps ModelStat ModelBuilder ModelStream ModelVGram ModelString
  SpecTok CoderProofs TokProofs DictProofs SpecStat SpecBuilder BuilderProofs StreamProofs VGramProofs PropsStreamLemmas PropsVGramLemmas StringProofs PropsStringLemmas
  RebuildProofs PropsRebuildLemmas SpecRebuild SpecStream SpecVGram SpecString SpecCounts.

(** ** Words of one symbol *)
Lemma nth_error_inj {A} (l : list A) i j x : NoDup l -> nth_error l i = Some x -> nth_error l j = Some x -> i = j.
Proof.
  intros H Hi Hj. apply (proj1 (NoDup_nth_error l) H); [apply nth_error_Some; congruence|congruence].
Qed.
Lemma singles_occ al ids x j c : NoDup al -> Forall (fun w : seq => length w = 1) al -> spells al ids x -> nth_error al j = Some [c] ->
  occ ids j = Z.of_nat (count_occ Z.eq_dec x c).
Proof.
  intros Hnd H1 (vs & Hv & <-) Hj. unfold occ. f_equal. induction Hv as [|i v ids vs Hi Hv IH]; [easy|]. cbn [concat]. rewrite count_occ_app, <- IH.
  unfold word_at in Hi. pose proof (proj1 (Forall_forall _ _) H1 v (nth_error_In _ _ Hi)) as Hl. destruct v as [|a [|b v]]; try discriminate Hl.
  cbn [count_occ]. destruct (Nat.eq_dec i j) as [Eij|Eij], (Z.eq_dec a c) as [Eac|Eac]; try easy.
  - subst. congruence.
  - subst. exfalso. apply Eij. exact (nth_error_inj _ _ _ _ Hnd Hi Hj).
Qed.
Lemma singles_sum al rs xs j c : NoDup al -> Forall (fun w : seq => length w = 1) al -> Forall2 (fun x ids => spells al ids x) xs rs -> nth_error al j = Some [c] ->
  zsum (map (fun ids => occ ids j) rs) = Z.of_nat (count_occ Z.eq_dec (concat xs) c).
Proof.
  intros Hnd H1 H Hj. induction H as [|x ids xs rs Hx H IH]; [easy|]. cbn [map zsum fold_right concat] in *. unfold zsum in IH. rewrite IH, count_occ_app.
  rewrite (singles_occ al ids x j c Hnd H1 Hx Hj). lia.
Qed.
Lemma singles_in al ids x c : Forall (fun w : seq => length w = 1) al -> spells al ids x -> In c x -> In [c] al.
Proof.
  intros H1 H Hc. destruct (spells_in _ _ _ H) as (vs & _ & <- & Hv). apply in_concat in Hc as (v & Hi & Hc). specialize (Hv v Hi).
  pose proof (proj1 (Forall_forall _ _) H1 v Hv) as Hl. destruct v as [|a [|b v]]; try discriminate Hl. destruct Hc as [->|[]]. exact Hv.
Qed.
Lemma by_index {A B} (P : A -> B -> Prop) : forall l m, length l = length m -> (forall j x y, nth_error l j = Some x -> nth_error m j = Some y -> P x y) -> Forall2 P l m.
Proof.
  induction l as [|x l IH]; intros [|y m] E H; try discriminate E; constructor; [exact (H 0 x y eq_refl eq_refl)|]. apply IH; [now injection E|]. intros j. exact (H (S j)).
Qed.
(** Readings in words of one symbol count symbols. *)
Lemma singles_counts al xs fs : NoDup al -> Forall (fun w : seq => length w = 1) al -> (forall w c, In w al -> In c w -> In c (concat xs)) ->
  counts_readings al xs fs -> symbol_counts (concat xs) al fs.
Proof.
  intros Hnd H1 Hs (rs & H & Hl & Hat). split; [exact Hnd|]. split.
  - intro w. split.
    + intro Hw. pose proof (proj1 (Forall_forall _ _) H1 w Hw) as Hlw. destruct w as [|a [|b w]]; try discriminate Hlw. exists a. split; [|easy].
      apply (Hs [a]); [exact Hw|now left].
    + intros (c & Hc & ->). apply in_concat in Hc as (x & Hx & Hc). destruct (In_nth_error _ _ Hx) as [i Hi].
      clear -H H1 Hx Hc. induction H as [|y ids xs rs Hy H IH]; [easy|]. destruct Hx as [->|Hx]; [exact (singles_in _ _ _ _ H1 Hy Hc)|now apply IH].
  - apply by_index; [easy|]. intros j w f Hj Hf. pose proof (proj1 (Forall_forall _ _) H1 w (nth_error_In _ _ Hj)) as Hlw.
    destruct w as [|a [|b w]]; try discriminate Hlw. exists a. split; [easy|]. rewrite <- (singles_sum al rs xs j a Hnd H1 H Hj), <- Hat.
    unfold at0. symmetry. now apply nth_error_nth.
Qed.

Section P.
  Context (fl : fops) (L : flaws fl).
  (** The symbols of the alphabet were seen. *)
  Lemma alphabet_seen size N ops z al : shist fl (new_stream fl size) ops z -> normal fl N ops -> s_alphabet fl z = Ok al ->
    forall w c, In w al -> In c w -> In c (seen fl ops).
  Proof.
    intros H Hn Hal w c Hw Hc. pose proof (fresh_start fl L size N (normal_N fl _ _ Hn)) as Z0.
    destruct (sim_exists fl L [] [] (new_stream fl size) (kmax + N) 0 N 0 Z0 eq_refl size0 ops z H Hn) as [bops S].
    pose proof Hal as Ht. unfold s_alphabet, the_dict in Ht. destruct (zdict z) as [p|] eqn:Ep; [|discriminate Ht].
    apply bind_ok in Ht as ([p' d] & Hd & _). apply bind_ok in Hd as (d1 & Hd & _).
    rewrite (alphabet_is fl L [] [] _ _ 0 N 0 Z0 ops z bops p d1 S Ep Hd) in Hal. injection Hal as <-.
    apply in_map_iff in Hw as (v & <- & Hv). unfold decw in Hc. apply in_map_iff in Hc as (q & <- & Hq). destruct (hget_in fl _ _ _ Hd) as [Hin _].
    pose proof (words_range fl L [] [] _ _ 0 N 0 Z0 ops z bops d1 v S Hin Hv q Hq) as Hr.
    assert (Hi : In (nth (Z.to_nat q) (symbols_of fl [] ops) 0%Z) (symbols_of fl [] ops)) by (apply nth_In; lia).
    apply symbols_in in Hi as [[]|Hi]. exact Hi.
  Qed.

  Section R.
    Context (thr : Z) (Rl : rlaws fl L thr).
    (** Without rebuild everything accepted is counted. *)
    Lemma quiet_window z0 ops n z : rebuilt fl z0 ops n z -> n = 0 -> swhist fl z0 First ops (0, length (fed fl ops), First) z.
    Proof.
      induction 1 as [|ops n z op z' H IH Hs]; intro E; [constructor|]. destruct (is_updated fl (zb z) (zb z')) eqn:Eu; [discriminate E|].
      specialize (IH E). pose proof (sw_step fl z0 First ops _ z op z' IH Hs) as G. rewrite fed_snoc, app_length.
      destruct op as [e s|s|]; cbn [swindow_step op_fed length] in *; rewrite ?Nat.add_0_r; [|exact G..]. rewrite Eu in G. cbn [window_next] in G.
      now rewrite Nat.add_1_r.
    Qed.
    Lemma singles size N ops z al : shist fl (new_stream fl size) ops z -> normal fl N ops -> s_alphabet fl z = Ok al -> ~ In [] al ->
      (Z.of_nat (length (seen fl ops)) < thr)%Z -> Forall (fun w : seq => length w = 1) al.
    Proof.
      intros H Hn Hal Hne Hl. apply Forall_forall. intros w Hw. destruct w as [|a [|b w]]; [easy|easy|exfalso].
      pose proof (fresh_length fl L thr Rl size N ops z al _ 0 H Hn Hal Hw ltac:(cbn; lia)). lia.
    Qed.
    Lemma stream_counts size N ops z z' : shist fl (new_stream fl size) ops z -> normal fl N (ops ++ [SUpdate]) -> roomy fl size ops -> ~ In SUpdate ops ->
      (Z.of_nat (length (seen fl ops)) < thr)%Z -> s_update fl z = Ok z' ->
      exists al, s_alphabet fl z' = Ok al /\ symbol_counts (seen fl ops) al (s_freqs fl z').
    Proof.
      intros H Hn Hr Hi Hl Hu. pose proof (normal_snoc fl _ _ _ Hn) as Hn0. destruct (rebuilt_exists fl _ _ _ H) as [n Hb].
      pose proof (fresh_count fl L thr Rl size N ops n z Hb Hn0) as Hc. pose proof (thr_pos _ _ _ Rl).
      assert (n = 0) by nia. pose proof (quiet_window _ _ _ _ Hb ltac:(assumption)) as W.
      destruct (first_update fl L size N ops _ z z' W Hn Hr Hi Hu) as (al & Hal & _ & log & E & Hsp & Hlen & Hat).
      exists al. split; [exact Hal|]. rewrite skipn_O, Nat.sub_0_r, firstn_all in E.
      pose proof (sh_step fl _ _ _ SUpdate _ H Hu) as H'. assert (Es : seen fl (ops ++ [SUpdate]) = seen fl ops) by (rewrite seen_snoc; cbn; apply app_nil_r).
      destruct (no_update fl _ _ _ H eq_refl Hi) as (_ & _ & Hp).
      assert (Hr' : roomy fl size (ops ++ [SUpdate])).
      { destruct Hr as (R1 & R2 & R3). split; [|split; [exact R2|]].
        - intros e s Hin. apply in_app_or in Hin as [Hin|[Hin|[]]]; [exact (R1 e s Hin)|discriminate Hin].
        - rewrite fed_snoc. cbn [op_fed]. now rewrite app_nil_r. }
      assert (Hcalm : calm fl [] (new_stream fl size) (ops ++ [SUpdate])).
      { apply calm_nil. intros s Hin. apply in_app_or in Hin as [Hin|[Hin|[]]]; [exact (Hp s Hin)|discriminate Hin]. }
      destruct (fresh_distinct fl L size N _ z' al H' Hn Hr' Hcalm Hal) as (Hnd & _ & Hne).
      apply (singles_counts al (fed fl ops)); trivial.
      - apply (singles size N _ z' al H' Hn Hal Hne). now rewrite Es.
      - intros w c Hw Hc'. change (In c (seen fl ops)). rewrite <- Es. exact (alphabet_seen size N _ z' al H' Hn Hal w c Hw Hc').
      - exists (map snd log). split; [|split; [exact Hlen|]].
        + rewrite <- E. clear -Hsp. induction Hsp as [|e log He H IH]; constructor; trivial.
        + intro j. rewrite Hat. unfold log_occ. now rewrite map_map.
    Qed.
    Lemma fit_symbols size N w iter xs ops al M : good_fit fl size N [] w (new_vgram fl size iter) xs ops al ->
      (forall x : seq, In x xs -> (Z.of_nat (length x) <= M)%Z) -> (0 <= M)%Z -> (iter * Z.of_nat (length xs) * M < thr)%Z ->
      exists v', fit fl w (new_vgram fl size iter) xs = Ok (true, v') /\ s_alphabet fl (vs v') = Ok al /\ symbol_counts (concat xs) al (s_freqs fl (vs v')).
    Proof.
      intros G Hx HM Hl. destruct (fit_counts fl L _ _ _ _ _ _ _ _ G) as (v' & Ef & _ & Hal & Hc & _). exists v'. split; [exact Ef|]. split; [exact Hal|].
      pose proof G as (_ & Hit & Eops & _ & _ & Hn & Hr & (z & Hz & Halz) & _ & Hd & _). cbn [viter new_vgram app] in *.
      assert (Hcalm : calm fl [] (new_stream fl size) ops).
      { apply calm_nil. intros s Hin. rewrite Eops in Hin. unfold sampling in Hin. apply in_flat_map in Hin as (i & _ & Hin). unfold round in Hin.
        apply in_app_or in Hin as [Hin|[Hin|[]]]; [|discriminate Hin]. apply in_map_iff in Hin as (t & Hin & _). discriminate Hin. }
      destruct (fresh_distinct fl L size N ops z al Hz Hn Hr Hcalm Halz) as (Hnd & _ & Hne).
      apply singles_counts; trivial.
      - apply (singles size N ops z al Hz Hn Halz Hne). pose proof (sampling_seen fl w xs M (Z.to_nat iter) Hx HM) as Hs. rewrite Z2Nat.id in Hs by lia. rewrite Eops. lia.
      - intros u c Hu Hc'. pose proof (alphabet_seen size N ops z al Hz Hn Halz u c Hu Hc') as Hi. rewrite Eops in Hi. destruct (drawn_in fl w xs [] _ c Hi) as [[]|Hi']. exact Hi'.
    Qed.
  End R.
End P.

(** ** Texts *)
Lemma spells_map (f : seq -> seq) ws ids s : (forall vs, f (concat vs) = concat (map f vs)) -> spells ws ids s -> spells (map f ws) ids (f s).
Proof.
  intros Hf (vs & H & <-). exists (map f vs). split; [|now rewrite Hf]. induction H as [|i w ids vs Hw H IH]; constructor; trivial.
  unfold word_at in *. now rewrite nth_error_map, Hw.
Qed.
Lemma counted_map (f : seq -> seq) w xs ws fs : (forall vs, f (concat vs) = concat (map f vs)) -> counted w xs ws fs -> counted w (map f xs) (map f ws) fs.
Proof.
  intros Hf. destruct w as [[i j] ph]. intros (Hij & log & E & Hsp & Hl & Hat). split; [now rewrite map_length|].
  exists (map (fun e => (f (fst e), snd e)) log). split; [|split; [|split]].
  - rewrite map_map. cbn [fst]. rewrite skipn_map, firstn_map, <- E, map_map. reflexivity.
  - apply Forall_map. cbn [fst snd]. apply Forall_forall. intros e He. rewrite Forall_forall in Hsp. now apply spells_map, Hsp.
  - now rewrite map_length.
  - intro k. rewrite Hat. unfold log_occ. rewrite map_map. reflexivity.
Qed.
Lemma readings_map (f : seq -> seq) ws xs fs : (forall vs, f (concat vs) = concat (map f vs)) -> counts_readings ws xs fs -> counts_readings (map f ws) (map f xs) fs.
Proof.
  intros Hf (rs & H & Hl & Hat). exists rs. split; [|split; [now rewrite map_length|exact Hat]].
  clear Hat. induction H as [|x ids xs rs Hx H IH]; constructor; trivial. now apply spells_map.
Qed.

(** The tokens of texts that have been coded. *)
Definition coded_texts (k : tok_kind) (tk : tokenizer) (texts : list text) (toks : list (list text)) (xs : list seq) : Prop :=
  Forall2 (tokens_of k) texts toks /\ Forall2 (coded tk) toks xs.
Lemma coded_plain k tk texts toks xs : tok_ok tk -> coded_texts k tk texts toks xs -> Forall2 (plain k) texts (map (tok_decode tk) xs).
Proof.
  intros Hok [H1 H2]. revert xs H2. induction H1 as [|s ws texts toks Hs H IH]; intros xs H2; inversion H2 as [|? x ? xs' Hx Hxs]; subst; constructor; [|now apply IH].
  exists ws. split; [exact Hs|]. exact (decode_tokens tk ws x Hok Hx).
Qed.
Lemma coded_concat tk toks xs : Forall2 (coded tk) toks xs -> coded tk (concat toks) (concat xs).
Proof. induction 1; [constructor|]. cbn [concat]. now apply Forall2_app. Qed.
Lemma coded_in tk ws ids i : coded tk ws ids -> In i ids -> exists w, In w ws /\ mfind seq_eqb (tfwd tk) w = Some i.
Proof.
  induction 1 as [|w j ws ids Hw H IH]; intros Hi; [easy|]. destruct Hi as [->|Hi]; [exists w; split; [now left|exact Hw]|].
  destruct (IH Hi) as (v & Hv & E). exists v. split; [now right|exact E].
Qed.
Lemma coded_in' tk ws ids w : coded tk ws ids -> In w ws -> exists i, In i ids /\ mfind seq_eqb (tfwd tk) w = Some i.
Proof.
  induction 1 as [|v j ws ids Hw H IH]; intros Hi; [easy|]. destruct Hi as [->|Hi]; [exists j; split; [now left|exact Hw]|].
  destruct (IH Hi) as (i & Hv & E). exists i. split; [now right|exact E].
Qed.
Lemma coded_occ tk ws ids w i : tok_ok tk -> coded tk ws ids -> mfind seq_eqb (tfwd tk) w = Some i -> count_occ Z.eq_dec ids i = count_occ text_dec ws w.
Proof.
  intros Hok H Hw. induction H as [|v j ws ids Hv H IH]; [easy|]. cbn [count_occ]. destruct (Z.eq_dec j i) as [E|E], (text_dec v w) as [E'|E']; try (now rewrite IH).
  - subst. exfalso. apply E'. exact (code_inj _ _ _ _ Hok Hv Hw).
  - subst. congruence.
Qed.
Lemma decode_one tk w i : tok_ok tk -> mfind seq_eqb (tfwd tk) w = Some i -> tok_decode tk [i] = w.
Proof. intros Hok H. rewrite (decode_tokens tk [w] [i] Hok); [apply app_nil_r|]. repeat constructor. exact H. Qed.
(** Counts of codes are counts of tokens. *)
Lemma counts_decode tk ws ids al fs : tok_ok tk -> coded tk ws ids -> symbol_counts ids al fs -> token_counts ws (tok_decode_all tk al) fs.
Proof.
  intros Hok Hc (Hnd & Hin & Hf). assert (Hone : forall u, In u al -> exists w i, u = [i] /\ In i ids /\ In w ws /\ mfind seq_eqb (tfwd tk) w = Some i /\ tok_decode tk u = w).
  { intros u Hu. apply Hin in Hu as (i & Hi & ->). destruct (coded_in _ _ _ _ Hc Hi) as (w & Hw & E). exists w, i. repeat (split; [trivial|]). now apply decode_one. }
  unfold tok_decode_all. split; [|split].
  - clear -Hok Hnd Hone. induction al as [|u al IH]; [constructor|]. cbn [map]. inversion Hnd as [|? ? Hu Hnd']; subst. constructor; [|apply IH; trivial; intros; apply Hone; now right].
    intro Hi. apply in_map_iff in Hi as (v & E & Hv). destruct (Hone u (or_introl eq_refl)) as (w & i & -> & _ & _ & Hw & Ew).
    destruct (Hone v (or_intror Hv)) as (w' & i' & -> & _ & _ & Hw' & Ew'). apply Hu. replace [i] with [i']; [exact Hv|]. f_equal. rewrite <- Ew, <- E, Ew' in Hw. congruence.
  - intro w. rewrite in_map_iff. split.
    + intros (u & <- & Hu). destruct (Hone u Hu) as (w & i & _ & _ & Hw & _ & ->). exact Hw.
    + intro Hw. destruct (coded_in' _ _ _ _ Hc Hw) as (i & Hi & E). exists [i]. split; [now apply decode_one|]. apply Hin. now exists i.
  - assert (G : forall u f, In u al -> (exists c, u = [c] /\ f = Z.of_nat (count_occ Z.eq_dec ids c)) -> f = Z.of_nat (count_occ text_dec ws (tok_decode tk u))).
    { intros u f Hu (c & -> & ->). destruct (Hone _ Hu) as (w & i & E & _ & _ & Hw & Ew). injection E as <-. rewrite Ew. f_equal. exact (coded_occ _ _ _ _ _ Hok Hc Hw). }
    clear -Hf G. induction Hf as [|u f al fs Hu H IH]; constructor; [apply G; [now left|exact Hu]|]. apply IH. intros. apply G; [now right|assumption].
Qed.

Section T.
  Context (fl : fops) (L : flaws fl).
  Lemma coded_fed k tk ops iops : Forall2 (coded_op fl k tk) ops iops -> exists toks, coded_texts k tk (tfed fl ops) toks (fed fl iops).
  Proof.
    unfold tfed, fed. induction 1 as [|op iop ops iops Ho H (toks & H1 & H2)]; [exists []; split; constructor|]. cbn [flat_map].
    destruct op as [e s|s|], iop as [e' ids|ids|]; cbn [coded_op] in Ho; try easy; cbn [top_fed op_fed app]; [|now exists toks..].
    destruct Ho as (_ & ws & Hw & Hc). exists (ws :: toks). split; now constructor.
  Qed.
  Lemma twhist_thist z0 ph ops w z : twhist fl z0 ph ops w z -> thist fl z0 ops z.
  Proof. induction 1; [constructor|econstructor; eassumption]. Qed.
  Lemma coded_op_fed k tk op iop : coded_op fl k tk op iop -> length (op_fed fl iop) = length (top_fed fl op).
  Proof. destruct op as [e s|s|], iop as [e' ids|ids|]; cbn [coded_op]; easy. Qed.
  Lemma coded_fed_length k tk ops iops : Forall2 (coded_op fl k tk) ops iops -> length (fed fl iops) = length (tfed fl ops).
  Proof.
    unfold tfed, fed. induction 1 as [|op iop ops iops Ho H IH]; [easy|]. cbn [flat_map]. rewrite !app_length, IH. f_equal. exact (coded_op_fed _ _ _ _ Ho).
  Qed.
  Lemma twhist_int z0 ph ops w z : tok_ok (ttok z0) -> twhist fl z0 ph ops w z ->
    exists iops, swhist fl (tst z0) ph iops w (tst z) /\ Forall2 (coded_op fl (tkind (ttok z0)) (ttok z)) ops iops /\ tok_ok (ttok z) /\ tok_ext (ttok z0) (ttok z).
  Proof.
    intros H0 H. induction H as [|ops w z op z' H (iops & I1 & I2 & I3 & I4) Hs].
    - exists []. split; [constructor|]. split; [constructor|]. split; [easy|apply tok_ext_refl].
    - destruct (thist_int fl z [op] z' I3 (tt_step fl z [] z op z' (tt_nil _ _) Hs)) as (iop1 & S1 & S2 & S3 & S4).
      inversion S2 as [|? iop ? r Ho Hr]; subst. inversion Hr; subst. exists (iops ++ [iop]).
      pose proof I4 as [Ik _]. rewrite Ik in Ho. split; [|split; [|split; [exact S3|now apply tok_ext_trans with (ttok z)]]].
      + replace (twindow_step fl ops z op z' w) with (swindow_step fl iops (tst z) iop (tst z') w).
        * apply sw_step; [exact I1|]. apply shist_one. exact S1.
        * pose proof (coded_fed_length _ _ _ _ I2) as El. destruct op as [e s|s|], iop as [e' ids|ids|]; cbn [coded_op] in Ho; try easy. cbn [swindow_step twindow_step]. now rewrite El.
      + apply Forall2_app; [now apply (coded_ops_ext fl _ (ttok z))|]. now constructor.
  Qed.
  Lemma twindow_exists z0 ph ops z : thist fl z0 ops z -> exists w, twhist fl z0 ph ops w z.
  Proof. induction 1 as [|ops z op z' H [w IH] Hs]; [eexists; constructor|]. eexists. econstructor; eassumption. Qed.

  (** The codes of the tokens are as many as the tokens. *)
  Lemma coded_roomy k tk size ops iops : tok_ok tk -> Forall2 (coded_op fl k tk) ops iops -> troomy fl k size ops -> roomy fl size iops.
  Proof.
    intros Hok H (H1 & H2 & vocab & H3 & H4). split; [|split; [exact H2|]].
    - clear -H H1. induction H as [|op iop ops iops Ho H IH]; intros e s Hi; [easy|]. destruct Hi as [->|Hi].
      + destruct op as [e' s'|s'|]; cbn [coded_op] in Ho; try easy. destruct Ho as [<- _]. apply (H1 e' s'). now left.
      + apply (IH (fun e' s' Hi' => H1 e' s' (or_intror Hi')) e s Hi).
    - unfold distinct. set (l := nodup Z.eq_dec (concat (fed fl iops))).
      assert (G : length (map (fun i => tok_decode tk [i]) l) <= length vocab); [|rewrite map_length in G; lia].
      assert (Hl : forall i, In i l -> exists w, token_in k (tfed fl ops) w /\ mfind seq_eqb (tfwd tk) w = Some i).
      { intros i Hi. unfold l in Hi. apply nodup_In in Hi. destruct (coded_fed _ _ _ _ H) as (toks & Ht & Hc).
        destruct (coded_in _ _ _ _ (coded_concat _ _ _ Hc) Hi) as (w & Hw & E). exists w. split; [|exact E].
        apply (coded_ops_seen fl k tk ops iops Hok H w i E). unfold seen. exact Hi. }
      apply NoDup_incl_length.
      + assert (Hnd : NoDup l) by apply NoDup_nodup. clear -Hnd Hl Hok. induction l as [|i l IH]; [constructor|]. inversion Hnd as [|? ? Hi Hnd']; subst. cbn [map].
        constructor; [|apply IH; trivial; intros; apply Hl; now right]. intro Hin. apply in_map_iff in Hin as (j & E & Hj).
        destruct (Hl i (or_introl eq_refl)) as (w & _ & Hw). destruct (Hl j (or_intror Hj)) as (w' & _ & Hw').
        rewrite (decode_one _ _ _ Hok Hw), (decode_one _ _ _ Hok Hw') in E. apply Hi. replace i with j; [exact Hj|congruence].
      + intros w Hw. apply in_map_iff in Hw as (i & <- & Hi). destruct (Hl i Hi) as (w & Hw & E). rewrite (decode_one _ _ _ Hok E). now apply H4.
  Qed.
  Lemma coded_update_back k tk ops iops : Forall2 (coded_op fl k tk) ops iops -> In SUpdate iops -> In TUpdate ops.
  Proof.
    induction 1 as [|op iop ops iops Ho H IH]; [easy|]. intros [->|Hi]; [|right; now apply IH]. left. now destruct op; cbn [coded_op] in Ho.
  Qed.
  Lemma text_update z z' : t_update fl z = Ok z' -> s_update fl (tst z) = Ok (tst z') /\ ttok z' = ttok z.
  Proof. unfold t_update. intro H. apply bind_ok in H as (z1 & H1 & H). injection H as <-. now split. Qed.

  Lemma text_first_update size inner words z0 N ops w z z' : new_tstream fl size inner words = Ok z0 -> twhist fl z0 First ops w z ->
    tnormal fl N (ops ++ [TUpdate]) -> troomy fl (if words then WordTok else CharTok) size ops -> ~ In TUpdate ops -> t_update fl z = Ok z' ->
    exists al texts, t_alphabet fl z' = Ok al /\ Forall2 (plain (if words then WordTok else CharTok)) (tfed fl ops) texts /\ counted w texts al (t_freqs fl z').
  Proof.
    intros E0 H Hn Hr Hi Hu. set (k := if words then WordTok else CharTok) in *. destruct (new_tstream_tok fl _ _ _ _ E0) as [Es Et].
    assert (Hk0 : tok_ok (ttok z0)) by (rewrite Et; apply tok_ok_new).
    destruct (twhist_int z0 First ops w z Hk0 H) as (iops & Hs & Hc & Hk & He). rewrite Es in Hs. rewrite Et in Hc. cbn [tkind new_tok] in Hc. fold k in Hc.
    destruct (text_update _ _ Hu) as [Hu' Etk].
    assert (Hc' : Forall2 (coded_op fl k (ttok z)) (ops ++ [TUpdate]) (iops ++ [SUpdate])) by (apply Forall2_app; [exact Hc|repeat constructor]).
    destruct (coded_normal fl _ _ _ _ _ Hc' Hn) as [Hin _].
    destruct (first_update fl L size N iops w (tst z) (tst z') Hs Hin (coded_roomy _ _ _ _ _ Hk Hc Hr)) as (al & Hal & Hcnt).
    - intro G. apply Hi. exact (coded_update_back _ _ _ _ Hc G).
    - exact Hu'.
    - exists (tok_decode_all (ttok z) al), (map (tok_decode (ttok z)) (fed fl iops)). split; [|split].
      + unfold t_alphabet. rewrite Hal, Etk. reflexivity.
      + destruct (coded_fed _ _ _ _ Hc) as (toks & Ht). exact (coded_plain _ _ _ _ _ Hk Ht).
      + apply counted_map; [intro; apply decode_concat|exact Hcnt].
  Qed.

  Lemma text_fit k size N iter w texts codes tk ops al : tok_transform_all true (new_tok k) texts = Ok (codes, tk) ->
    good_fit fl size N [] w (new_vgram fl size iter) codes ops al ->
    exists v words data, tv_fit fl true w (new_tvgram_with fl size iter (new_tok k)) texts = Ok v /\ tv_alphabet fl v = Ok words /\ Forall2 (plain k) texts data /\
      counts_readings words data (tv_freqs fl v) /\ weight words (tv_freqs fl v) = total_symbols data.
  Proof.
    intros Et G. destruct (transform_all_coded _ _ _ _ (tok_ok_new k) Et) as (Hk & _ & Hcs). cbn [tkind new_tok] in *.
    destruct (fit_counts fl L _ _ _ _ _ _ _ _ G) as (v' & Ef & _ & Hal & Hc & _).
    assert (Hc' : counts_readings (tok_decode_all tk al) (map (tok_decode tk) codes) (s_freqs fl (vs v'))) by (apply readings_map; [intro; apply decode_concat|exact Hc]).
    exists (mkTVGram v' tk), (tok_decode_all tk al), (map (tok_decode tk) codes). split; [|split; [|split; [|split]]].
    - unfold tv_fit, new_tvgram_with. cbn [tvtok tv]. rewrite Et. cbn [bind]. rewrite Ef. reflexivity.
    - unfold tv_alphabet. cbn [tv tvtok]. now rewrite Hal.
    - clear -Hcs Hk. induction Hcs as [|s c ss cs (ws & Hw & Hc) H IH]; constructor; trivial. exists ws. split; [exact Hw|]. exact (decode_tokens _ _ _ Hk Hc).
    - exact Hc'.
    - exact (weight_total _ _ _ Hc').
  Qed.

  Section R.
    Context (thr : Z) (Rl : rlaws fl L thr).
    Lemma text_counts size inner words z0 N ops z z' : new_tstream fl size inner words = Ok z0 -> thist fl z0 ops z ->
      tnormal fl N (ops ++ [TUpdate]) -> troomy fl (if words then WordTok else CharTok) size ops -> ~ In TUpdate ops -> (total_symbols (tfed fl ops) < thr)%Z ->
      t_update fl z = Ok z' ->
      exists al toks, t_alphabet fl z' = Ok al /\ Forall2 (tokens_of (if words then WordTok else CharTok)) (tfed fl ops) toks /\ token_counts (concat toks) al (t_freqs fl z').
    Proof.
      intros E0 H Hn Hr Hi Hl Hu. set (k := if words then WordTok else CharTok) in *. destruct (new_tstream_tok fl _ _ _ _ E0) as [Es Et].
      assert (Hk0 : tok_ok (ttok z0)) by (rewrite Et; apply tok_ok_new).
      destruct (thist_int fl z0 ops z Hk0 H) as (iops & Hs & Hc & Hk & He). rewrite Es in Hs. rewrite Et in Hc. cbn [tkind new_tok] in Hc. fold k in Hc.
      destruct (text_update _ _ Hu) as [Hu' Etk].
      assert (Hc' : Forall2 (coded_op fl k (ttok z)) (ops ++ [TUpdate]) (iops ++ [SUpdate])) by (apply Forall2_app; [exact Hc|repeat constructor]).
      destruct (coded_normal fl _ _ _ _ _ Hc' Hn) as [Hin _]. destruct (coded_fed _ _ _ _ Hc) as (toks & Ht & Htc).
      destruct (stream_counts fl L thr Rl size N iops (tst z) (tst z') Hs Hin (coded_roomy _ _ _ _ _ Hk Hc Hr)) as (al & Hal & Hcnt).
      - intro G. apply Hi. exact (coded_update_back _ _ _ _ Hc G).
      - assert (G : (Z.of_nat (length (concat (fed fl iops))) <= total_symbols (tfed fl ops))%Z); [|unfold seen; lia].
        clear -Ht Htc. revert Htc. generalize (fed fl iops). unfold total_symbols. induction Ht as [|s ws texts toks Hs Ht IH]; intros xs Hx; inversion Hx as [|? x ? xs' Hx1 Hx2]; subst.
        + cbn. lia.
        + cbn [concat map zsum fold_right]. rewrite app_length. specialize (IH _ Hx2). unfold zsum in IH. apply tokens_len in Hs. apply Forall2_len in Hx1. unfold text, seq in *. lia.
      - exact Hu'.
      - exists (tok_decode_all (ttok z) al), toks. split; [|split; [exact Ht|]].
        + unfold t_alphabet. rewrite Hal, Etk. reflexivity.
        + apply (counts_decode _ (concat toks) (seen fl iops)); trivial. now apply coded_concat.
    Qed.
    Lemma text_fit_counts k size N iter w texts codes tk ops al M : tok_transform_all true (new_tok k) texts = Ok (codes, tk) ->
      good_fit fl size N [] w (new_vgram fl size iter) codes ops al -> (forall x : text, In x texts -> (Z.of_nat (length x) <= M)%Z) -> (0 <= M)%Z ->
      (iter * Z.of_nat (length texts) * M < thr)%Z ->
      exists v words toks, tv_fit fl true w (new_tvgram_with fl size iter (new_tok k)) texts = Ok v /\ tv_alphabet fl v = Ok words /\ Forall2 (tokens_of k) texts toks /\
        token_counts (concat toks) words (tv_freqs fl v).
    Proof.
      intros Et G HM HM0 Hl. destruct (transform_all_coded _ _ _ _ (tok_ok_new k) Et) as (Hk & _ & Hcs). cbn [tkind new_tok] in *.
      assert (Hts : exists toks, coded_texts k tk texts toks codes).
      { clear -Hcs. induction Hcs as [|s c ss cs (ws & Hw & Hc) H (toks & I1 & I2)]; [exists []; split; constructor|]. exists (ws :: toks). split; constructor; trivial. }
      destruct Hts as (toks & Ht & Htc).
      assert (HMc : forall x : seq, In x codes -> (Z.of_nat (length x) <= M)%Z).
      { clear -Hcs HM. induction Hcs as [|s c ss cs (ws & Hw & Hc) H IH]; intros x Hx; [easy|]. destruct Hx as [<-|Hx].
        - specialize (HM s (or_introl eq_refl)). apply tokens_len in Hw. apply Forall2_len in Hc. unfold text, seq in *. lia.
        - apply IH; [|exact Hx]. intros y Hy. apply HM. now right. }
      pose proof (Forall2_len _ _ _ Hcs) as Hlen.
      destruct (fit_symbols fl L thr Rl size N w iter codes ops al M G HMc HM0) as (v' & Ef & Hal & Hc); [unfold text, seq in *; rewrite <- Hlen; exact Hl|].
      exists (mkTVGram v' tk), (tok_decode_all tk al), toks. split; [|split; [|split; [exact Ht|]]].
      - unfold tv_fit, new_tvgram_with. cbn [tvtok tv]. rewrite Et. cbn [bind]. rewrite Ef. reflexivity.
      - unfold tv_alphabet. cbn [tv tvtok]. now rewrite Hal.
      - apply (counts_decode _ (concat toks) (concat codes)); trivial. now apply coded_concat.
    Qed.
  End R.
End T.

(** ** Reported minimum probability *)
Section M.
  Context (fl : fops).
  Definition reported (m : option (F fl)) : F fl := match m with Some x => x | None => fofZ fl (-1) end.
  Lemma minp_reported size ops m b : mhist fl (new_builder fl size) ops m b -> get_min_probability fl b = reported m.
  Proof.
    induction 1 as [|ops m b op b' H IH Hs Hr|ops m b op b' H IH Hs Hr].
    - reflexivity.
    - destruct Hr as [Hu Hp]. unfold updated in Hu. destruct op as [e s| |p s freqs total]; cbn [bstep] in Hs.
      + destruct (accept_cases fl e b s b' Hs) as (d & ids & n & d1 & st1 & _ & _ & [[_ ->]|(_ & ws & fs & mp & d' & st' & prob & best & turns & _ & _ & ->)]).
        * unfold parsed in Hu. cbn [bheap] in Hu. rewrite upd_length in Hu. lia.
        * unfold get_min_probability, next_res. cbn [bres bcur]. now rewrite Hp.
      + exfalso. destruct Hs as (fs & Hf). unfold result_freqs in Hf. apply bind_ok in Hf as (d & _ & Hf).
        destruct (bres b); injection Hf as _ <-; cbn [bheap] in Hu; lia.
      + exfalso. destruct Hs as (d & o & n & d' & _ & _ & ->). unfold hput in Hu. cbn [bheap] in Hu. rewrite upd_length in Hu. lia.
    - destruct op as [e s| |p s freqs total]; cbn [bstep] in Hs.
      + destruct (accept_cases fl e b s b' Hs) as (d & ids & n & d1 & st1 & _ & Hp & [[_ ->]|(_ & ws & fs & mp & d' & st' & prob & best & turns & _ & _ & ->)]).
        * rewrite <- IH. unfold get_min_probability, parsed. cbn [bres bcur]. destruct (bres b); trivial. exact (parse_minp fl _ _ _ _ _ _ _ Hp).
        * rewrite <- IH. unfold get_min_probability, next_res. cbn [bres bcur]. destruct (bpop b) eqn:Ep.
          -- destruct (bres b); trivial. cbn [bres]. exact (parse_minp fl _ _ _ _ _ _ _ Hp).
          -- exfalso. apply Hr. split; [|exact Ep]. unfold updated. cbn [bheap]. rewrite app_length, upd_length. cbn [length]. lia.
      + rewrite <- IH. destruct Hs as (fs & Hf). unfold result_freqs in Hf. apply bind_ok in Hf as (d & _ & Hf). unfold get_min_probability.
        destruct (bres b) eqn:Er; injection Hf as _ <-; cbn [bres bcur]; rewrite ?Er; reflexivity.
      + rewrite <- IH. destruct Hs as (d & o & n & d' & _ & _ & ->). reflexivity.
  Qed.
  Lemma mhist_exists b0 ops b : bhist fl b0 ops b -> exists m, mhist fl b0 ops m b.
  Proof.
    induction 1 as [|ops b op b' H [m IH] Hs]; [eexists; constructor|].
    destruct (Nat.lt_decidable (length (bheap b)) (length (bheap b'))) as [Hu|Hu], (bpop b) eqn:Ep.
    - exists m. apply (mh_other fl _ ops m b); trivial. intros [_ E]. congruence.
    - eexists. apply (mh_reduction fl _ ops m b); trivial. now split.
    - exists m. apply (mh_other fl _ ops m b); trivial. now intros [E _].
    - exists m. apply (mh_other fl _ ops m b); trivial. now intros [E _].
  Qed.
End M.
Lemma rhist_mhist fl b0 ops r b : rhist fl b0 None ops r b -> exists m, mhist fl b0 ops m b /\ (m = None <-> r = None).
Proof.
  induction 1 as [|ops r b op b' d H (m & IH & E) Hs Hr Hd|ops r b op b' H (m & IH & E) Hs Hr].
  - exists None. split; [constructor|easy].
  - eexists. split; [exact (mh_reduction fl _ ops m b op b' IH Hs Hr)|easy].
  - exists m. split; [exact (mh_other fl _ ops m b op b' IH Hs Hr)|exact E].
Qed.
Lemma char_tokens s n ws : ascii_text s -> normalize CharTok s = Ok n -> tokens_of CharTok s ws -> ws = map (fun c => [c]) n.
Proof. intros Ha E (m & Hm & ->). destruct (char_normalize s Ha) as (n' & E' & _ & U & _). rewrite E in E'. injection E' as <-. now rewrite (U m Hm). Qed.
