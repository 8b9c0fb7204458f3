(** Statements of PropsVGram.v, proved. *)
From Verif Require Import Base Spec FloatOps FloatLaws FloatIEEE FloatExample OrderProofs DictProofs ModelDict Maps ModelCoder SpecCoder
  CoderProofs ModelStat ModelBuilder ModelStream ModelVGram SpecStat SpecBuilder StatProofs RunProofs LearnProofs EnvExample PropsDictLemmas
  PropsStatLemmas BuilderProofs BuilderSafe BuilderOwn BuilderRuns ReachProofs PropsBuilderLemmas StreamProofs StreamRuns PropsStreamLemmas VGramRuns
  SpecStream SpecVGram VGramProofs.

Section P.
  Context (fl : fops) (L : flaws fl).

  (** ** Prefixes of histories *)
  Lemma normal_prefix N : forall b a, normal fl N (a ++ b) -> normal fl N a.
  Proof.
    induction b as [|op b IH] using rev_ind; intros a H; [now rewrite app_nil_r in H|]. rewrite app_assoc in H. apply IH. now apply normal_snoc in H.
  Qed.
  Lemma distinct_mono xs ys : incl (concat xs) (concat ys) -> distinct xs <= distinct ys.
  Proof.
    intro H. unfold distinct. apply NoDup_incl_length; [apply NoDup_nodup|]. intros c Hc. apply nodup_In. apply nodup_In in Hc. now apply H.
  Qed.
  Lemma roomy_prefix size a b : roomy fl size (a ++ b) -> roomy fl size a.
  Proof.
    intros (H1 & H2 & H3). split; [intros e s Hi; apply (H1 e s), in_or_app; now left|]. split; [exact H2|].
    assert (distinct (fed fl a) <= distinct (fed fl (a ++ b))); [|lia]. apply distinct_mono. unfold fed. rewrite flat_map_app, concat_app.
    intros c Hc. apply in_or_app. now left.
  Qed.
  Lemma calm_add known z0 ops op : calm fl known z0 ops -> (forall s, op <> SParse s) -> calm fl known z0 (ops ++ [op]).
  Proof.
    intros H Hop a s b z al E Hs Hal. destruct b as [|x b _] using rev_ind.
    - apply app_inj_tail in E as [_ E]. now destruct (Hop s).
    - change (a ++ SParse s :: b ++ [x]) with (a ++ (SParse s :: b) ++ [x]) in E. rewrite app_assoc in E. apply app_inj_tail in E as [-> _].
      now apply (H a s b z al).
  Qed.
  Lemma calm_app known z0 : forall b a, calm fl known z0 a -> (forall s, ~ In (SParse s) b) -> calm fl known z0 (a ++ b).
  Proof.
    induction b as [|op b IH] using rev_ind; intros a H Hb; [now rewrite app_nil_r|]. rewrite app_assoc. apply calm_add.
    - apply IH; [exact H|]. intros s Hi. apply (Hb s), in_or_app. now left.
    - intros s ->. apply (Hb s), in_or_app. right. now left.
  Qed.
  Lemma sampling_parses w xs n s : ~ In (SParse s) (sampling fl w xs n).
  Proof.
    intro H. unfold sampling in H. apply in_flat_map in H as (i & _ & H). unfold round in H. apply in_app_or in H as [H|[H|[]]]; [|discriminate H].
    apply in_map_iff in H as (k & H & _). unfold draw in H. discriminate H.
  Qed.
  (** The stream holds the builder's result after an update. *)
  Lemma update_synced z z' : s_update fl z = Ok z' -> zdict z' = Some (result_ptr fl (zb z')).
  Proof.
    unfold s_update. assert (G : forall fs b, result_freqs fl (zb z) (zfreqs z) = Ok (fs, b) -> result_ptr fl b = result_ptr fl (zb z)).
    { intros fs b H. unfold result_freqs in H. apply bind_ok in H as (d2 & _ & H). unfold result_ptr. destruct (bres (zb z)) eqn:E; injection H as _ <-; cbn; rewrite ?E; easy. }
    destruct (zdict z) as [q|] eqn:Eq.
    - destruct (Nat.eqb_spec q (result_ptr fl (zb z))) as [->|Hq]; [now intros [= <-]|]. intro H. apply bind_ok in H as ([fs b] & Hf & H). injection H as <-. cbn.
      now rewrite (G _ _ Hf).
    - intro H. apply bind_ok in H as ([fs b] & Hf & H). injection H as <-. cbn. now rewrite (G _ _ Hf).
  Qed.
  Lemma sampling_last w xs n : sampling fl w xs (S n) = (sampling fl w xs n ++ map (draw fl w xs) (List.seq (n * length xs) (length xs))) ++ [SUpdate].
  Proof. unfold sampling. rewrite seq_S, flat_map_app. cbn [flat_map Nat.add]. rewrite app_nil_r. unfold round at 2. now rewrite app_assoc. Qed.
  Lemma sampled_synced z0 ops0 w xs n z : shist fl z0 (ops0 ++ sampling fl w xs (S n)) z -> zdict z = Some (result_ptr fl (zb z)).
  Proof.
    rewrite sampling_last, app_assoc. intro H. inversion H as [E|ops' z1 op' z2 H1 Hs E E2].
    - destruct (ops0 ++ _); discriminate E.
    - apply app_inj_tail in E as [_ ->]. subst. now apply update_synced in Hs.
  Qed.

  (** The sampling always runs. *)
  Lemma fresh_rounds size N ops0 w xs n z : shist fl (new_stream fl size) ops0 z ->
    normal fl N (ops0 ++ sampling fl w xs n) -> roomy fl size (ops0 ++ sampling fl w xs n) -> exists r, rounds fl w xs n 0 z = Ok r.
  Proof.
    intros H Hn Hr.
    apply (rounds_total fl (fun ops => normal fl N ops /\ roomy fl size ops) (new_stream fl size)) with (ops := ops0) (i := 0).
    - intros a b [H1 H2]. split; [now apply normal_prefix in H1|now apply roomy_prefix in H2].
    - intros ops z1 e s Hs [H1 H2]. exact (fresh_accept_total fl L size N ops z1 e s Hs H1 H2).
    - intros ops z1 Hs [H1 H2]. exact (fresh_update_total fl L size N ops z1 Hs H1).
    - exact H.
    - split; assumption.
  Qed.

  (** C43 *)
  Lemma fit_flags w v xs v' : fit fl w v xs = Ok (true, v') -> vfitted v' = true /\ vcomputed v' = true.
  Proof.
    intro H. unfold fit in H. destruct (vfitted v) eqn:Ef.
    - destruct (vcomputed v) eqn:Ec; [injection H as <-; easy|]. apply bind_ok in H as ([t z] & _ & H). now injection H as <-.
    - apply bind_ok in H as ([[[|] t] z] & _ & H); [discriminate H|]. apply bind_ok in H as ([t2 z2] & _ & H). now injection H as <-.
  Qed.
  Lemma fit_once w v xs v' : fit fl w v xs = Ok (true, v') -> vfitted v' = true /\ forall w' xs', fit fl w' v' xs' = Ok (true, v').
  Proof. intro H. destruct (fit_flags _ _ _ _ H) as [G1 G2]. split; [exact G1|]. intros w' xs'. unfold fit. now rewrite G1, G2. Qed.
  Lemma transform_flags w v xs r v' : transform fl w v xs = Ok (r, v') -> vfitted v' = vfitted v /\ vcomputed v' = vcomputed v /\ viter v' = viter v.
  Proof. unfold transform. intro H. apply bind_ok in H as ([r1 z] & _ & H). now injection H as _ <-. Qed.
  Lemma fit_after_transform w v xs v1 w2 ys r v2 : fit fl w v xs = Ok (true, v1) -> transform fl w2 v1 ys = Ok (r, v2) ->
    forall w' xs', fit fl w' v2 xs' = Ok (true, v2).
  Proof.
    intros H Ht w' xs'. destruct (transform_flags _ _ _ _ _ Ht) as (E1 & E2 & _). destruct (fit_flags _ _ _ _ H) as [G1 G2]. unfold fit.
    now rewrite E1, E2, G1, G2.
  Qed.

  (** C44 *)
  Lemma sampling_runs size N ops0 w xs n z : shist fl (new_stream fl size) ops0 z -> n <> 0 ->
    normal fl N (ops0 ++ sampling fl w xs n) -> roomy fl size (ops0 ++ sampling fl w xs n) -> undisturbed fl w (n * length xs) ->
    exists z' al, shist fl (new_stream fl size) (ops0 ++ sampling fl w xs n) z' /\ s_alphabet fl z' = Ok al /\
      rounds fl w xs n 0 z = Ok (false, n * length xs, z').
  Proof.
    intros H Hn0 Hn Hr Hu. destruct (fresh_rounds size N ops0 w xs n z H Hn Hr) as [[[stop t'] z'] E].
    pose proof E as E'. change 0 with (0 * length xs) in E'. apply rounds_run in E' as [(-> & -> & Hs & _)|(-> & a & b & k & _ & Hk & Hkt & _)].
    - pose proof (shist_app fl _ _ _ _ _ H Hs) as H'. change (flat_map (round fl w xs) (List.seq 0 n)) with (sampling fl w xs n) in H'.
      destruct (fresh_alphabet fl L size N _ z' H' Hn) as [al Hal].
      { apply in_or_app. right. destruct n as [|n]; [easy|]. rewrite sampling_last. apply in_or_app. right. now left. }
      now exists z', al.
    - rewrite (Hu k) in Hkt; [discriminate Hkt|]. cbn in Hk. lia.
  Qed.
  Lemma good_start size N ops0 w v xs ops al : good_fit fl size N ops0 w v xs ops al ->
    exists z d fs b acc, let v' := mkVGram (mkStream (zsize z) b (zdict z) (zcoder z) acc (zsum acc) (zminp z)) (viter v) true true in
      fit fl w v xs = Ok (true, v') /\ ready fl (symbols_of fl [] ops) d (vs v') /\ al = map (decw (symbols_of fl [] ops)) (seqs d) /\
      counts_readings al xs acc /\ result_freqs fl (zb z) [] = Ok (fs, b) /\ shist fl (new_stream fl size) ops z.
  Proof.
    intros (Hf & Hit & -> & H0 & Hc & Hn & Hr & (z & H & Hal) & Hu & Hx & Htot).
    set (n := Z.to_nat (viter v)) in *. assert (Hn0 : n <> 0) by (unfold n; lia). pose proof Hr as (_ & H1 & _).
    set (ops := ops0 ++ sampling fl w xs n) in *.
    assert (Hcalm : calm fl [] (new_stream fl size) ops) by (apply calm_app; [exact Hc|apply sampling_parses]).
    assert (Ha : (Z.of_nat 0 <= bsize (zb (new_stream fl size)))%Z) by (cbn; lia).
    destruct (sampling_runs size N ops0 w xs n (vs v) H0 Hn0 Hn Hr) as (z' & al' & H' & Hal' & Er).
    { intros k Hk. apply Hu. lia. }
    assert (z' = z) by (exact (shist_det fl _ _ _ _ H' H)). subst z'.
    destruct (hist_ready fl L [] [] (new_stream fl size) (kmax + N) 0 N 0 (fresh_start fl L size N (normal_N fl _ _ Hn)) eq_refl size0
      0 empty_dict _ (fresh_sinv fl L (size - 1)) no_symbols (Forall_nil _) Ha (fresh_full fl _) (fresh_own fl _) ops z al H Hn (fresh_room fl _ _ Hr) Hcalm Hal)
      as (d & R & Eal).
    destruct (hist_freqs fl L [] [] (new_stream fl size) (kmax + N) 0 N 0 (fresh_start fl L size N (normal_N fl _ _ Hn)) eq_refl size0
      0 empty_dict _ (fresh_sinv fl L (size - 1)) no_symbols (Forall_nil _) Ha (fresh_full fl _) (fresh_own fl _) ops z H Hn (fresh_room fl _ _ Hr) Hcalm)
      as (dr & fs & b & Hg & Erf & Hlen & Hfs & Hz).
    assert (Hsync : zdict z = Some (result_ptr fl (zb z))).
    { destruct n as [|n']; [easy|]. exact (sampled_synced _ _ _ _ _ _ H). }
    assert (dr = d). { destruct (ready_the _ _ _ _ R) as (p & Ep & Hgp & _). rewrite Hsync in Ep. injection Ep as <-. congruence. } subst dr.
    rewrite Eal in Hx.
    destruct (recompute_spec fl L (symbols_of fl [] ops) d w xs (n * length xs) z fs b R Erf Hlen Hfs Hz Hx) as (acc & Ec & R' & Hcr).
    { intros k Hk. apply Hu. cbn [Nat.mul]. lia. }
    exists z, d, fs, b, acc. cbv zeta. cbn [vs]. split; [|split; [exact R'|split; [exact Eal|split; [rewrite Eal; exact Hcr|split; [exact Erf|exact H]]]]].
    unfold fit. rewrite Hf. fold n. rewrite Er. cbn [bind]. now rewrite Ec.
  Qed.
  Lemma fit_counts size N ops0 w v xs ops al : good_fit fl size N ops0 w v xs ops al ->
    exists v', fit fl w v xs = Ok (true, v') /\ vfitted v' = true /\ s_alphabet fl (vs v') = Ok al /\
      counts_readings al xs (s_freqs fl (vs v')) /\ weight al (s_freqs fl (vs v')) = total_symbols xs.
  Proof.
    intro G. destruct (good_start _ _ _ _ _ _ _ _ G) as (z & d & fs & b & acc & E & R & Eal & Hcr & _). eexists. split; [exact E|]. split; [easy|].
    split; [rewrite Eal; exact (ready_alphabet fl _ _ _ R)|]. split; [exact Hcr|]. now apply weight_total.
  Qed.

  (** C45 *)
  Lemma batch_pure v xs rs : Forall2 (fun x ids => s_parse fl (vs v) x = Ok (ids, vs v)) xs rs ->
    forall w, exists m, kept (w_term w) (length xs) m /\ transform fl w v xs = Ok (firstn m rs, v).
  Proof.
    intros H w. destruct (transform_pure fl w (vs v) xs rs 0 H) as (m & Hm & E). exists m. split; [exact Hm|]. unfold transform. rewrite E. cbn [bind].
    unfold on_stream. now destruct v.
  Qed.
  Lemma fitted_parses size N ops0 w v xs ops al v' : good_fit fl size N ops0 w v xs ops al -> fit fl w v xs = Ok (true, v') ->
    forall s, covers al (restrict (seen fl ops) s) -> (Z.of_nat (length s) <= 2 ^ 40)%Z ->
    exists ids, s_parse fl (vs v') s = Ok (ids, vs v') /\ spells al ids (restrict (seen fl ops) s).
  Proof.
    intros G Ef s Hc Hl. destruct (good_start _ _ _ _ _ _ _ _ G) as (z & d & fs & b & acc & E & R & Eal & Hcr & _). rewrite Ef in E. injection E as ->.
    assert (ES : restrict (seen fl ops) s = restrict (symbols_of fl [] ops) s).
    { apply restrict_ext. intro c. unfold symbols_of. rewrite adds_in. cbn [In]. tauto. }
    rewrite ES in *. rewrite Eal in *.
    assert (Hne : ~ In [] (map (decw (symbols_of fl [] ops)) (seqs d))).
    { intro Hi. apply in_map_iff in Hi as (u & Eu & Hu). destruct u; [|discriminate Eu]. now apply (rd_ne _ _ _ _ R [] Hu). }
    destruct (counts_sum _ _ _ Hne Hcr) as [Hf Hz]. destruct G as (_ & _ & _ & _ & _ & _ & _ & _ & _ & _ & Ht).
    refine (ready_parse fl L _ d _ s R Hf eq_refl _ Hc Hl). cbn [vs zfreqs]. lia.
  Qed.
  Lemma fitted_transform size N ops0 w v xs ops al v' ys : good_fit fl size N ops0 w v xs ops al -> fit fl w v xs = Ok (true, v') ->
    (forall y, In y ys -> covers al (restrict (seen fl ops) y) /\ (Z.of_nat (length y) <= 2 ^ 40)%Z) ->
    exists rs, Forall2 (fun y ids => s_parse fl (vs v') y = Ok (ids, vs v') /\ spells al ids (restrict (seen fl ops) y)) ys rs /\
      forall w', exists m, kept (w_term w') (length ys) m /\ transform fl w' v' ys = Ok (firstn m rs, v').
  Proof.
    intros G Ef Hy.
    assert (E : exists rs, Forall2 (fun y ids => s_parse fl (vs v') y = Ok (ids, vs v') /\ spells al ids (restrict (seen fl ops) y)) ys rs).
    { induction ys as [|y ys IH]; [now exists []|]. destruct IH as [rs IH]; [intros u Hu; apply Hy; now right|].
      destruct (Hy y (or_introl eq_refl)) as [Hc Hl]. destruct (fitted_parses _ _ _ _ _ _ _ _ _ G Ef y Hc Hl) as [ids Hi]. exists (ids :: rs). now constructor. }
    destruct E as [rs E]. exists rs. split; [exact E|]. apply batch_pure. clear -E. induction E as [|y ids ys rs [H _] E IH]; now constructor.
  Qed.
  Lemma kept_all term n m : kept term n m -> (forall k, S k < n -> term k = false) -> m = n.
  Proof.
    intros (H1 & _ & H3) Ht. destruct (Nat.lt_ge_cases m n) as [Hlt|]; [|lia]. destruct (H3 Hlt) as (k & -> & Hk). rewrite Ht in Hk; [discriminate|easy].
  Qed.
  Lemma loaded_full_alphabet N syms c freqs ws size mp z0 : (0 <= N <= 2 ^ 40)%Z -> loadable fl N syms c freqs ws mp ->
    loaded_stream fl c freqs ws size mp = Ok z0 -> exists al, s_alphabet fl z0 = Ok al /\ forall s, covers al (restrict syms s).
  Proof.
    intros HN HL E0. destruct (loaded_parts fl L N syms c freqs ws size mp z0 HN HL E0) as (d & d' & st & _ & Hs & _ & _ & -> & _).
    destruct HL as (H1 & H2 & _ & _ & H5 & H6 & _). exists (map (decw syms) (isort ws)). split.
    - unfold s_alphabet, the_dict, hget. cbn [zdict zb bheap vget nth_error bind zcoder]. rewrite Hs.
      apply like_decode_all; [now apply numbers_like|]. intros w Hw k Hk. apply (proj1 (isort_in _ _)) in Hw. now apply (H5 w k).
    - intros s k Hk. apply restrict_in in Hk as [_ Hk]. apply in_map_iff. exists [Z.of_nat (pos_of syms k)]. split.
      + change ([Z.of_nat (pos_of syms k)]) with (enc syms [k]). apply dec_enc. intros e [<-|[]]. exact Hk.
      + apply isort_in, H6. now apply pos_of_lt.
  Qed.
  Lemma loaded_normal N : (0 <= N <= 2 ^ 40)%Z -> normal fl N [].
  Proof. intro HN. split; [intros e s []|]. split; [exact HN|]. split; [constructor|]. split; [cbn; lia|]. unfold updates. cbn. lia. Qed.
  Lemma loaded_roomy N syms c freqs ws mp : loadable fl N syms c freqs ws mp -> roomy_loaded fl syms ws [].
  Proof.
    intro HL. split; [intros e s []|]. unfold seen. cbn [fed flat_map concat]. rewrite app_nil_r. destruct HL as (H1 & _ & H3 & _ & H5 & H6 & _).
    rewrite nodup_fixed_point by exact H1.
    assert (Hnd : NoDup (map (fun i => [Z.of_nat i]) (List.seq 0 (length syms)))).
    { apply FinFun.Injective_map_NoDup; [|apply seq_NoDup]. intros i j [= Hij]. lia. }
    rewrite <- (seq_length (length syms) 0), <- (map_length (fun i => [Z.of_nat i])). apply NoDup_incl_length; [exact Hnd|].
    intros u Hu. apply in_map_iff in Hu as (i & <- & Hi). apply in_seq in Hi. apply H6. lia.
  Qed.
  Lemma loaded_transform N syms c freqs ws size mp v ys fitted computed : (0 <= N <= 2 ^ 40)%Z -> loadable fl N syms c freqs ws mp ->
    loaded_vgram fl c freqs ws size mp fitted computed = Ok v ->
    (forall y, In y ys -> (Z.of_nat (length y) <= 2 ^ 40)%Z) ->
    exists al rs, s_alphabet fl (vs v) = Ok al /\
      Forall2 (fun y ids => s_parse fl (vs v) y = Ok (ids, vs v) /\ spells al ids (restrict syms y)) ys rs /\
      forall w', exists m, kept (w_term w') (length ys) m /\ transform fl w' v ys = Ok (firstn m rs, v).
  Proof.
    intros HN HL E Hy. unfold loaded_vgram in E. apply bind_ok in E as (z0 & E0 & E). injection E as <-. cbn [vs].
    assert (Hn : normal fl N []) by (apply loaded_normal; exact HN). pose proof (loaded_roomy N syms c freqs ws mp HL) as Hr.
    pose proof (loaded_full_alphabet N syms c freqs ws size mp z0 HN HL E0) as [al (Hal & Hcov)].
    exists al. assert (E : exists rs, Forall2 (fun y ids => s_parse fl z0 y = Ok (ids, z0) /\ spells al ids (restrict syms y)) ys rs).
    { induction ys as [|y ys IH]; [now exists []|]. destruct IH as [rs IH]; [intros u Hu; apply Hy; now right|].
      destruct (loaded_pure fl L N syms c freqs ws size mp z0 HN HL E0 [] z0 y al (sh_nil _ _) Hn Hr) as (ids & H1 & H2).
      - intros a s b z2 al2 E2. destruct a; discriminate E2.
      - exact Hal.
      - cbn [seen fed flat_map concat]. unfold seen. cbn [fed flat_map concat]. rewrite app_nil_r. apply Hcov.
      - apply Hy. now left.
      - exists (ids :: rs). constructor; [|exact IH]. split; [exact H1|]. unfold seen in H2. cbn [fed flat_map concat] in H2. now rewrite app_nil_r in H2. }
    destruct E as [rs E]. exists rs. split; [exact Hal|]. split; [exact E|]. apply (batch_pure (mkVGram z0 0 fitted computed)). cbn [vs].
    clear -E. induction E as [|y ids ys rs [H _] E IH]; now constructor.
  Qed.

  (** C44 for a loaded object whose frequencies are still to be computed; one that is not fitted makes no rounds. *)
  Lemma loaded_refit fitted computed N syms c freqs ws size mp v w xs : (fitted && computed)%bool = false -> (0 <= N <= 2 ^ 40)%Z -> loadable fl N syms c freqs ws mp ->
    loaded_vgram fl c freqs ws size mp fitted computed = Ok v -> undisturbed fl w (length xs) ->
    (forall x, In x xs -> (forall k, In k x -> In k syms) /\ (Z.of_nat (length x) <= 2 ^ 40)%Z) ->
    exists al v', s_alphabet fl (vs v) = Ok al /\ fit fl w v xs = Ok (true, v') /\ vfitted v' = true /\ s_alphabet fl (vs v') = Ok al /\
      counts_readings al xs (s_freqs fl (vs v')) /\ weight al (s_freqs fl (vs v')) = total_symbols xs.
  Proof.
    intros Hfc HN HL E Hu Hx. unfold loaded_vgram in E. apply bind_ok in E as (z0 & E0 & E). injection E as <-. cbn [vs].
    assert (Hn : normal fl N []) by (apply loaded_normal; exact HN).
    pose proof (loaded_roomy N syms c freqs ws mp HL) as Hr.
    destruct (loaded_full_alphabet N syms c freqs ws size mp z0 HN HL E0) as (al & Hal & Hcov). exists al.
    assert (Hc : calm fl syms z0 []) by (intros a s b z2 al2 E2; destruct a; discriminate E2).
    destruct (loaded_safe fl L N syms c freqs ws size mp z0 HN HL E0) as (d0 & st0 & S & Ha & F & O & _).
    destruct (hist_ready fl L (isort ws) syms z0 (kmax + N) _ N _ (loaded_start fl L N syms c freqs ws size mp z0 HN HL E0) eq_refl
      (loaded_size fl N syms c freqs ws mp HL) _ d0 st0 S (loaded_closed fl N syms c freqs ws mp HL) (loaded_words fl N syms c freqs ws mp HL) Ha F O
      [] z0 al (sh_nil _ _) Hn (loaded_room fl L N syms c freqs ws size mp z0 HN HL E0 _ Hr) Hc Hal) as (d & R & Eal).
    destruct (hist_freqs fl L (isort ws) syms z0 (kmax + N) _ N _ (loaded_start fl L N syms c freqs ws size mp z0 HN HL E0) eq_refl
      (loaded_size fl N syms c freqs ws mp HL) _ d0 st0 S (loaded_closed fl N syms c freqs ws mp HL) (loaded_words fl N syms c freqs ws mp HL) Ha F O
      [] z0 (sh_nil _ _) Hn (loaded_room fl L N syms c freqs ws size mp z0 HN HL E0 _ Hr) Hc) as (dr & fs & b & Hg & Erf & Hlen & Hfs & Hz).
    assert (Hsz : dsize dr = dsize d).
    { destruct (loaded_parts fl L N syms c freqs ws size mp z0 HN HL E0) as (d1 & d1' & st1 & _ & Hs & _ & Em & Ez & _). rewrite Ez in Hg. cbn in Hg.
      injection Hg as <-. destruct (ready_the _ _ _ _ R) as (p & Ep & Hgp & _). rewrite Ez in Ep, Hgp. cbn in Ep. injection Ep as <-. cbn in Hgp. injection Hgp as <-.
      destruct (mk_stat_ok fl (isort ws) mp (Some freqs)) as (d2 & st2 & E2 & _ & Es & _). rewrite Em in E2. injection E2 as <- <-.
      unfold dsize. now rewrite Es, Hs, !isort_length. }
    rewrite Hsz in Hlen.
    assert (Hx' : forall x, In x xs -> covers (map (decw (symbols_of fl syms [])) (seqs d)) x /\ (Z.of_nat (length x) <= 2 ^ 40)%Z).
    { intros x Hi. destruct (Hx x Hi) as [Hk Hl]. split; [|exact Hl]. rewrite <- Eal. intros k Hkx. apply (Hcov x). apply restrict_in. split; [exact Hkx|now apply Hk]. }
    destruct (recompute_spec fl L (symbols_of fl syms []) d w xs 0 z0 fs b R Erf Hlen Hfs Hz Hx') as (acc & Ec & R' & Hcr).
    { intros k Hk. exact (Hu k (proj2 Hk)). }
    eexists. split; [exact Hal|]. assert (Ef : fit fl w (mkVGram z0 0 fitted computed) xs = ('(_, z) <- recompute_freqs fl w xs 0 z0 ;; Ok (true, mkVGram z 0 true true))).
    { unfold fit. cbn [vfitted vcomputed vs viter]. destruct fitted; [destruct computed; [discriminate Hfc|reflexivity]|reflexivity]. }
    rewrite Ef, Ec. cbn [bind]. split; [reflexivity|]. cbn [vfitted vs].
    split; [easy|]. split; [rewrite (ready_alphabet fl _ _ _ R'); now rewrite Eal|]. unfold s_freqs. cbn [zfreqs]. rewrite Eal. split; [exact Hcr|now apply weight_total].
  Qed.

  Lemma loaded_fit N syms c freqs ws size mp v w xs : (0 <= N <= 2 ^ 40)%Z -> loadable fl N syms c freqs ws mp ->
    loaded_vgram fl c freqs ws size mp true false = Ok v -> undisturbed fl w (length xs) ->
    (forall x, In x xs -> (forall k, In k x -> In k syms) /\ (Z.of_nat (length x) <= 2 ^ 40)%Z) ->
    exists al v', s_alphabet fl (vs v) = Ok al /\ fit fl w v xs = Ok (true, v') /\ vfitted v' = true /\ s_alphabet fl (vs v') = Ok al /\
      counts_readings al xs (s_freqs fl (vs v')) /\ weight al (s_freqs fl (vs v')) = total_symbols xs.
  Proof. exact (loaded_refit true false N syms c freqs ws size mp v w xs eq_refl). Qed.

  (** C46 *)
  Lemma strings_written w v xs strs v' : transform_to_string fl w v xs = Ok (strs, v') ->
    exists r m, transform fl w v xs = Ok (r, v') /\ kept (fun k => w_term w (length r + k)) (length r) m /\ Forall2 written strs (firstn m r).
  Proof.
    unfold transform_to_string. intro H. apply bind_ok in H as ([r v1] & E & H). injection H as <- <-. rewrite E.
    destruct (strings_kept fl w r (length r)) as (m & Hm & ->). exists r, m. split; [easy|]. split; [exact Hm|].
    generalize (firstn m r). clear. induction l as [|ids l IH]; cbn [map]; constructor; [apply ids_written|exact IH].
  Qed.
  Lemma string_injective a b : ids_string a = ids_string b -> a = b.
  Proof. intro E. apply (written_inj (ids_string a)); [apply ids_written|rewrite E; apply ids_written]. Qed.

  (** C47 *)
  Lemma fit_interrupted w v xs v' : fit fl w v xs = Ok (false, v') ->
    vfitted v = false /\ vfitted v' = false /\ viter v' = viter v /\
    exists a b k, sampling fl w xs (Z.to_nat (viter v)) = a ++ draw fl w xs k :: b /\ k < Z.to_nat (viter v) * length xs /\
      w_term w k = true /\ undisturbed fl w k /\ shist fl (vs v) (a ++ [draw fl w xs k]) (vs v').
  Proof.
    unfold fit. intro H. destruct (vfitted v) eqn:Ef.
    { destruct (vcomputed v); [discriminate H|]. apply bind_ok in H as ([t z] & _ & H). discriminate H. }
    apply bind_ok in H as ([[[|] t] z] & E & H); [|apply bind_ok in H as ([t2 z2] & _ & H); discriminate H]. injection H as <-.
    split; [easy|]. split; [exact Ef|]. split; [easy|]. change 0 with (0 * length xs) in E.
    apply rounds_run in E as [(E & _)|(_ & a & b & k & Eo & Hk & Hkt & Hkf & Hs)]; [discriminate E|].
    exists a, b, k. split; [exact Eo|]. split; [cbn in Hk; lia|]. split; [exact Hkt|]. split; [intros j Hj; apply Hkf; cbn; lia|exact Hs].
  Qed.
  Lemma interrupted_hist size ops0 w v xs v' : fit fl w v xs = Ok (false, v') -> shist fl (new_stream fl size) ops0 (vs v) ->
    calm fl [] (new_stream fl size) ops0 -> exists ops1, shist fl (new_stream fl size) ops1 (vs v') /\ calm fl [] (new_stream fl size) ops1.
  Proof.
    intros H H0 Hc. destruct (fit_interrupted _ _ _ _ H) as (_ & _ & _ & a & b & k & E & _ & _ & _ & Hs).
    exists (ops0 ++ a ++ [draw fl w xs k]). split; [exact (shist_app fl _ _ _ _ _ H0 Hs)|]. apply calm_app; [exact Hc|].
    intros s Hi. apply (sampling_parses w xs (Z.to_nat (viter v)) s). rewrite E. apply in_app_or in Hi as [Hi|[Hi|[]]]; apply in_or_app; [now left|right; now left].
  Qed.
  Lemma interruption size N ops0 w v xs k : vfitted v = false -> shist fl (new_stream fl size) ops0 (vs v) ->
    normal fl N (ops0 ++ sampling fl w xs (Z.to_nat (viter v))) -> roomy fl size (ops0 ++ sampling fl w xs (Z.to_nat (viter v))) ->
    k < Z.to_nat (viter v) * length xs -> w_term w k = true -> exists v', fit fl w v xs = Ok (false, v').
  Proof.
    intros Hf H Hn Hr Hk Ht. destruct (fresh_rounds size N ops0 w xs _ (vs v) H Hn Hr) as [[[stop t'] z'] E].
    unfold fit. rewrite Hf, E. cbn [bind]. change 0 with (0 * length xs) in E.
    apply rounds_run in E as [(-> & _ & _ & Hu)|(-> & _)]; [|now eexists]. rewrite Hu in Ht; [discriminate Ht|lia].
  Qed.
End P.

(** ** Examples and refutations *)
Lemma plain_ops : sampling exf (listed [0; 1]%Z 100) [[1; 2; 1]; [2]]%Z 1 = [feed [1; 2; 1]; feed [2]; SUpdate]%Z.
Proof. reflexivity. Qed.
Lemma plain_look : look (run_s (new_stream exf 10) [feed [1; 2; 1]; feed [2]; SUpdate]%Z) = Some (Ok [[1]; [2]], [2; 2])%Z.
Proof. vm_compute. reflexivity. Qed.
Lemma plain_good : good_fit exf 10 10 [] (listed [0; 1]%Z 100) (new_vgram exf 10 1) [[1; 2; 1]; [2]]%Z [feed [1; 2; 1]; feed [2]; SUpdate]%Z [[1]; [2]]%Z.
Proof.
  assert (Hin : forall e s, In (SAccept e s) [feed [1; 2; 1]; feed [2]; SUpdate]%Z -> e = exenv).
  { intros e s [E|[E|[E|[]]]]; try discriminate E; now injection E. }
  split; [easy|]. split; [cbn; lia|]. split; [reflexivity|]. split; [constructor|].
  split; [apply calm_nil; intros s []|]. split; [|split; [|split; [|split; [|split]]]].
  - split; [intros e s Hi; rewrite (Hin e s Hi); exact exenv_ok|]. split; [lia|]. split; [repeat constructor; cbn; lia|].
    split; [vm_compute; discriminate|vm_compute; discriminate].
  - split; [intros e s Hi; rewrite (Hin e s Hi); exact exenv_draws|]. split; [lia|vm_compute; discriminate].
  - destruct (look_ok _ _ _ _ plain_look) as (z & H & Ha & _). now exists z.
  - intros k Hk. cbn in Hk. cbn [listed w_term]. apply Nat.eqb_neq. lia.
  - intros x [<-|[<-|[]]]; (split; [intros c Hc; cbn in Hc; cbn; intuition congruence|cbn; lia]).
  - vm_compute. discriminate.
Qed.
Lemma late_ok : (forall x, In x late_data -> exists k, k < 6 /\ drawn exf late_world late_data k = x) /\
  normal exf 2360 (sampling exf late_world late_data 2) /\ roomy exf 10 (sampling exf late_world late_data 2).
Proof.
  assert (Hin : forall e s, In (SAccept e s) (sampling exf late_world late_data 2) -> e = exenv).
  { intros e s H. unfold sampling in H. apply in_flat_map in H as (i & _ & H). unfold round in H. apply in_app_or in H as [H|[H|[]]]; [|discriminate H].
    apply in_map_iff in H as (k & H & _). unfold draw in H. now injection H. }
  split; [|split].
  - intros x [<-|[<-|[<-|[]]]]; [exists 3|exists 0|exists 1]; (split; [lia|reflexivity]).
  - split; [intros e s Hi; rewrite (Hin e s Hi); exact exenv_ok|]. split; [lia|]. split.
    + assert (E : forallb (fun s : seq => Nat.leb (length s) (Z.to_nat 2360)) (fed exf (sampling exf late_world late_data 2)) = true) by (vm_compute; reflexivity).
      apply Forall_forall. intros s Hs. apply (proj1 (forallb_forall _ _) E) in Hs. apply Nat.leb_le in Hs. lia.
    + split; vm_compute; discriminate.
  - split; [intros e s Hi; rewrite (Hin e s Hi); exact exenv_draws|]. split; [lia|]. vm_compute. discriminate.
Qed.
Lemma sight_ub o : sight o = UB OobRead -> o = UB OobRead.
Proof. unfold sight. destruct o as [[f v]| | |]; try discriminate. cbn [bind]. now intros [= ->]. Qed.
Lemma sight_null o : sight o = UB NullDeref -> o = UB NullDeref.
Proof. unfold sight. destruct o as [[f v]| | |]; try discriminate. cbn [bind]. now intros [= ->]. Qed.
Lemma sight_ok o f al fs ft : sight o = Ok (f, al, fs, ft) -> exists v, o = Ok (f, v) /\ s_alphabet exf (vs v) = al /\ s_freqs exf (vs v) = fs /\ vfitted v = ft.
Proof. unfold sight. destruct o as [[g v]| | |]; try discriminate. cbn [bind]. intros [= <- <- <- <-]. now exists v. Qed.
