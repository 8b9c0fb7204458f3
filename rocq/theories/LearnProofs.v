(** LearnProofs: parses that meet new symbols in increasing order keep the dictionary in good order. *)
From Verif Require Import Base Spec FloatOps FloatLaws OrderProofs DictProofs GreedyProofs DpProofs WeightedProofs
  ReachProofs ModelDict Maps ModelStat SpecStat StatProofs ExpandProofs ReduceProofs RunProofs.

Lemma covers_in ws w c : covers ws w -> In c w -> In [c] ws.
Proof. intros H Hi. now apply H. Qed.
Lemma covers_ext ws ws' s : extends_by_symbols ws ws' -> covers ws s -> covers ws' s.
Proof. intros [cs ->] H c Hc. apply in_or_app. left. now apply H. Qed.
Lemma covers_app ws a b : covers ws a -> covers ws b -> covers ws (a ++ b).
Proof. intros H1 H2 c Hc. apply in_app_or in Hc as [Hc|Hc]; auto. Qed.

(** In a symbol-closed dictionary a new symbol matches nothing. *)
Lemma closed_no_prefix d c r : no_empty d -> closed d -> ~ In [c] (seqs d) ->
  no_prefix (seqs d) (fun _ => True) (c :: r).
Proof.
  intros Hne Hc Hn j v Hv Hp _. apply Hn. apply word_at_in in Hv.
  pose proof (Hne v Hv) as Hv0. destruct v as [|x v]; [easy|]. apply prefix_cons in Hp as [-> _].
  apply (Hc (c :: v) Hv). now left.
Qed.
Lemma closed_below d c : no_empty d -> closed d -> (forall x, In [x] (seqs d) -> (x < c)%Z) ->
  forall w, In w (seqs d) -> lex_lt w [c].
Proof.
  intros Hne Hc Hx w Hw. pose proof (Hne w Hw) as Hw0. destruct w as [|x w]; [easy|].
  right. exists [], x, c, w, []. split; [easy|]. split; [easy|]. apply Hx. apply (Hc _ Hw). now left.
Qed.
Lemma learn_closed d c : closed d -> closed (learn d c).
Proof.
  intros Hc w Hw x Hx. cbn [learn seqs] in *. apply in_app_or in Hw as [Hw|Hw].
  - apply in_or_app. left. now apply (Hc w).
  - destruct Hw as [<-|[]]. destruct Hx as [->|[]]. apply in_or_app. right. now left.
Qed.

Section Learn.
  Context (fl : fops) (L : flaws fl).

  Lemma weighted_learn skip signed d s freqs t :
    full_dict d -> no_empty d -> closed d -> fresh_ascending (seqs d) s ->
    Forall (fun f => (0 <= f < maxcount)%Z) freqs -> ftot fl L t ->
    (Z.of_nat (length s) <= maxlen)%Z ->
    (Z.of_nat (dsize d) + Z.of_nat (length s) <= maxcount)%Z ->
    exists ids x d', weighted_parse fl skip signed d s freqs t None = Ok (ids, x, d') /\
      spells (seqs d') ids s /\ full_dict d' /\ no_empty d' /\ closed d' /\
      extends_by_symbols (seqs d) (seqs d') /\ covers (seqs d') s /\
      (forall c, In [c] (seqs d') -> In [c] (seqs d) \/ In c s) /\
      forall i, dsize d <= i < dsize d' -> In i ids.
  Proof.
    intros Hfull Hne Hcl Hfr Hc Ht Hlen Hb.
    set (P := fun p (d' : dict) => full_dict d' /\ no_empty d' /\ closed d' /\ p <= length s /\
      dsize d' <= dsize d + p /\ extends_by_symbols (seqs d) (seqs d') /\ covers (seqs d') (firstn p s) /\
      forall c, In [c] (seqs d') -> In [c] (seqs d) \/ In c (firstn p s)).
    assert (Hst : forall pos d1 c rest, P pos d1 -> skipn pos s = c :: rest ->
      exists i d', search d1 (c :: rest) None = Ok (Some i, d') /\ P (S pos) d' /\
      wf_dict d' /\ no_empty d' /\ extends_by_symbols (seqs d1) (seqs d') /\
      R fl L freqs t P d' /\
      exists w, word_at (seqs d') i w /\ prefix w (c :: rest) /\ True).
    { intros pos d1 c rest (Hf1 & Hne1 & Hc1 & Hp1 & Hs1 & He1 & Hv1 & Hin1) Hsk.
      destruct (skipn_cons_lt _ _ _ _ Hsk) as [Hlt _].
      assert (Hfn : firstn (S pos) s = firstn pos s ++ [c]).
      { rewrite <- (firstn_skipn pos s) at 1. rewrite Hsk.
        rewrite firstn_app, firstn_length, Nat.min_l by lia. rewrite firstn_all2 by (rewrite firstn_length; lia).
        replace (S pos - pos) with 1 by lia. easy. }
      assert (HR : forall d2 i w, P (S pos) d2 -> word_at (seqs d2) i w -> R fl L freqs t P d2).
      { intros d2 i w HP2 Hw. split; [now exists (S pos)|]. intro sym. apply slp_wt_tot; [easy|easy| |].
        - unfold dsize. apply nth_some_lt in Hw. lia.
        - destruct HP2 as (_ & _ & _ & _ & H & _). lia. }
      pose proof (search_full d1 (c :: rest) None Hf1 ltac:(easy)) as Hse.
      destruct (search d1 (c :: rest) None) as [[[i|] d2]| | |] eqn:E; try contradiction.
      - exists i, d2. split; [easy|].
        assert (HP2 : P (S pos) d2 /\ wf_dict d2 /\ no_empty d2 /\ extends_by_symbols (seqs d1) (seqs d2) /\
                      exists w, word_at (seqs d2) i w /\ prefix w (c :: rest) /\ True).
        { destruct Hse as [[-> (w & Hw & Hpre & _)]|(_ & Hno & -> & c' & q' & Eq & ->)].
          - assert (Hcin : In [c] (seqs d1)).
            { pose proof (word_at_in _ _ _ Hw) as Hwi. pose proof (Hne1 w Hwi) as Hw0. destruct w as [|x w]; [easy|].
              apply prefix_cons in Hpre as [-> _]. apply (Hc1 _ Hwi). now left. }
            split.
            + split; [easy|]. split; [easy|]. split; [easy|]. split; [lia|]. split; [lia|]. split; [easy|].
              rewrite Hfn. split.
              * apply covers_app; [easy|]. intros y [->|[]]. exact Hcin.
              * intros y Hy. destruct (Hin1 y Hy) as [H|H]; [now left|]. right. apply in_or_app. now left.
            + split; [now apply full_wf|]. split; [easy|]. split; [apply ext_refl|]. now exists w.
          - injection Eq as <- <-.
            assert (Hcn : ~ In [c] (seqs d1)) by (intro H; now apply (no_prefix_covers _ _ rest H)).
            assert (Hcn0 : ~ In [c] (seqs d)).
            { intro H. apply Hcn. destruct He1 as [cs ->]. apply in_or_app. now left. }
            assert (Hca : ~ In c (firstn pos s)) by (intro H; apply Hcn, Hv1, H).
            assert (Hmax : forall y, In [y] (seqs d1) -> (y < c)%Z).
            { intros y Hy. apply (Hfr (firstn pos s) c rest); try easy.
              - rewrite <- Hsk. now rewrite firstn_skipn.
              - now apply Hin1. }
            pose proof (closed_below d1 c Hne1 Hc1 Hmax) as Hbel.
            destruct (search_learn_full d1 c Hf1 Hbel Hne1) as [_ Hf2].
            assert (Hne2 : no_empty (learn d1 c)) by (apply (no_empty_ext d1); [easy|apply ext_learn]).
            assert (Hw : word_at (seqs (learn d1 c)) (dsize d1) [c]).
            { unfold word_at, learn. cbn [seqs]. unfold dsize. rewrite nth_error_app2, Nat.sub_diag by lia. easy. }
            split.
            + split; [easy|]. split; [easy|]. split; [now apply learn_closed|]. split; [lia|]. split.
              { unfold dsize, learn in *. cbn [seqs]. rewrite app_length. cbn [length]. lia. }
              split; [eapply ext_trans; [exact He1|apply ext_learn]|]. rewrite Hfn. split.
              * apply covers_app; [apply (covers_ext (seqs d1)); [apply ext_learn|easy]|].
                intros y [->|[]]. apply in_or_app. right. now left.
              * intros y Hy. cbn [learn seqs] in Hy. apply in_app_or in Hy as [Hy|Hy].
                -- destruct (Hin1 y Hy) as [H|H]; [now left|]. right. apply in_or_app. now left.
                -- destruct Hy as [Hy|[]]. injection Hy as ->. right. apply in_or_app. right. now left.
            + split; [now apply full_wf|]. split; [easy|]. split; [apply ext_learn|]. exists [c].
              split; [easy|]. split; [now exists rest|easy]. }
        destruct HP2 as (HP2 & Hwf2 & Hne2 & Hx & w & Hw & Hpw). split; [easy|]. split; [easy|]. split; [easy|].
        split; [easy|]. split; [now apply (HR d2 i w)|]. now exists w.
      - destruct Hse as (_ & H & _). now destruct H. }
    destruct (weighted_parse_spec fl L s freqs t None P (fun _ => True) (fun _ => True) Hlen
                ltac:(easy) Hst skip signed d)
      as (ids & x & d' & H & Hsp & HP' & Hext & _).
    - split; [easy|]. split; [easy|]. split; [easy|]. split; [lia|]. split; [lia|]. split; [apply ext_refl|].
      split; [intros c []|]. intros c Hcc. now left.
    - now intros p d1 (_ & H & _).
    - exists ids, x, d'. destruct HP' as (H1 & H2 & H3 & _ & H4 & H5 & H6 & H7). rewrite firstn_all in H6, H7.
      split; [easy|]. split; [easy|]. split; [easy|]. split; [easy|]. split; [easy|]. split; [easy|].
      split; [easy|]. split; [easy|].
      (* learned symbols are used *)
      intros i Hi. destruct Hext as [cs Hcs].
      assert (Hic : exists c, nth_error cs (i - dsize d) = Some c).
      { apply nth_lt. unfold dsize in Hi. rewrite Hcs, app_length, map_length in Hi. unfold dsize. lia. }
      destruct Hic as [c Hic].
      assert (Hwi : word_at (seqs d') i [c]).
      { unfold word_at. rewrite Hcs. etransitivity; [exact (nth_error_app2 (seqs d) _ (proj1 Hi))|].
        rewrite nth_error_map. unfold dsize in Hic. now rewrite Hic. }
      assert (Hcd : ~ In [c] (seqs d)).
      { intro Hin. apply In_nth_error in Hin as [j Hj].
        assert (word_at (seqs d') j [c]) as Hj'.
        { unfold word_at. rewrite Hcs, nth_error_app1; [exact Hj|]. now apply nth_some_lt in Hj. }
        pose proof (strict_nth_inj (seqs d') i j [c] (proj1 H1) Hwi Hj') as ->.
        apply nth_some_lt in Hj. destruct Hi as [Hi _]. exact (Nat.lt_irrefl _ (Nat.lt_le_trans _ _ _ Hj Hi)). }
      assert (Hcs' : In c s).
      { destruct (H7 c) as [Hx|Hx]; [|contradiction|easy]. now apply word_at_in in Hwi. }
      destruct Hsp as (vs & Hf2 & Hcat). rewrite <- Hcat in Hcs'. apply in_concat in Hcs' as (v & Hv & Hcv).
      destruct (forall2_incl _ _ _ Hf2 v Hv) as (j & Hj & Hjw).
      assert (j = i); [|now subst]. apply (strict_nth_inj (seqs d') j i [c]); try easy; [apply H1|].
      assert (v = [c]); [|now subst].
      apply word_at_in in Hjw. rewrite Hcs in Hjw. apply in_app_or in Hjw as [Hjw|Hjw].
      + exfalso. apply Hcd. apply (Hcl v Hjw c Hcv).
      + apply in_map_iff in Hjw as (y & <- & _). destruct Hcv as [->|[]]. easy.
  Qed.

  Record full_inv (d0 : dict) (log : list (seq * list nat)) (d : dict) (st : sstat fl) : Prop := {
    fi_full : full_dict d;
    fi_closed : closed d;
    fi_len : length (sfreqs st) = dsize d;
    fi_cov : covers (seqs d) (concat (map fst log));
    fi_sym : forall c, In [c] (seqs d) -> In [c] (seqs d0) \/ In c (concat (map fst log))
  }.

  Lemma full_start d0 st0 : full_dict d0 -> closed d0 -> length (sfreqs st0) = dsize d0 ->
    full_inv d0 [] d0 st0.
  Proof. intros H1 H2 H3. split; try easy. intros c Hc. now left. Qed.

  Lemma fresh_split ws ws' xs s : fresh_ascending ws (xs ++ s) ->
    (forall w, In w ws -> In w ws') -> covers ws' xs ->
    (forall c, In [c] ws' -> In [c] ws \/ In c xs) -> fresh_ascending ws' s.
  Proof.
    intros H Hin Hcov Hsym a c b E Hc Ha x Hx.
    apply (H (xs ++ a) c b).
    - now rewrite E, <- app_assoc.
    - intro Hw. apply Hc. now apply Hin.
    - intro Hi. apply in_app_or in Hi as [Hi|Hi]; [|easy]. apply Hc. now apply Hcov.
    - destruct Hx as [Hx|Hx].
      + destruct (Hsym x Hx) as [Hx'|Hx']; [now left|]. right. apply in_or_app. now left.
      + right. apply in_or_app. now right.
  Qed.
  Lemma fresh_app_l ws xs s : fresh_ascending ws (xs ++ s) -> fresh_ascending ws xs.
  Proof. intros H a c b -> . apply (H a c (b ++ s)). now rewrite <- app_assoc. Qed.

  Lemma full_step d0 st0 log d st s : started fl L d0 st0 -> run_inv fl d0 st0 log d st ->
    full_inv d0 log d st ->
    (Z.of_nat (length s) <= 2 ^ 40)%Z -> (symbols_consumed log + Z.of_nat (length s) <= 2 ^ 50)%Z ->
    fresh_ascending (seqs d0) (concat (map fst log) ++ s) ->
    exists ids d' st', stat_parse fl d st s [] = Ok (ids, length ids, d', st') /\
      run_inv fl d0 st0 (log ++ [(s, ids)]) d' st' /\ full_inv d0 (log ++ [(s, ids)]) d' st'.
  Proof.
    intros Hst R I Hl Hs Hfr.
    destruct (inv_step fl L d0 st0 log d st s Hst R Hl Hs) as (ids & d' & st' & E & R' & Hext & x & Hw).
    exists ids, d', st'. split; [easy|]. split; [easy|].
    pose proof (run_tables fl L d0 st0 log d st Hst ltac:(lia) R) as (_ & _ & Hpf & Hpw & Hip).
    pose proof (ri_size _ _ _ _ _ _ R) as Hsz. pose proof Hst as (_ & _ & Hn & _).
    pose proof (ri_words _ _ _ _ _ _ R) as Hwd.
    destruct (weighted_learn true false d s (pfreqs st) (fadd fl (power st) (ipower st)) (fi_full _ _ _ _ I)
      (ri_ne _ _ _ _ _ _ R) (fi_closed _ _ _ _ I)) as
      (ids' & x' & d1 & E1 & Hsp & Hfd & Hne & Hcl & _ & Hcov & Hsym & Hused); try easy.
    - apply (fresh_split (seqs d0) _ (concat (map fst log))); [easy| |exact (fi_cov _ _ _ _ I)|exact (fi_sym _ _ _ _ I)].
      intros w Hwi. destruct (ri_ext _ _ _ _ _ _ R) as [cs ->]. apply in_or_app. now left.
    - now apply (tot_add fl L).
    - unfold maxcount. lia.
    - rewrite Hw in E1. injection E1 as <- <- <-. split; try easy.
      + pose proof (ri_len _ _ _ _ _ _ R') as H1.
        destruct (Nat.eq_dec (dsize d') (dsize d)) as [He|He].
        * pose proof (stat_parse_spec fl L d st s (ri_wf _ _ _ _ _ _ R) (ri_ne _ _ _ _ _ _ R)) as Hsp'.
          destruct Hsp' as (ids2 & d2 & st2 & E2 & Hx).
          { split; [apply R|]. split; [apply R|]. easy. } { unfold maxlen. lia. } { unfold maxcount. lia. }
          rewrite E in E2. injection E2 as <- _ <- <-.
          destruct Hx as (_ & _ & _ & _ & _ & _ & _ & _ & _ & _ & H3 & _).
          rewrite (fi_len _ _ _ _ I) in H3. lia.
        * assert (Hi : In (dsize d' - 1) ids).
          { apply Hused. apply ext_length in Hext. unfold dsize, seq in *. lia. }
          pose proof (ri_used _ _ _ _ _ _ R') as Hu. apply Forall_app in Hu as [_ Hu]. apply Forall_inv in Hu.
          cbn [snd] in Hu. pose proof (proj1 (Forall_forall _ _) Hu _ Hi) as H3. cbn beta in H3. lia.
      + rewrite map_app, concat_app. cbn [map concat fst]. rewrite app_nil_r. apply covers_app; [|easy].
        apply (covers_ext (seqs d)); [easy|exact (fi_cov _ _ _ _ I)].
      + intros c Hc. rewrite map_app, concat_app. cbn [map concat fst]. rewrite app_nil_r.
        destruct (Hsym c Hc) as [H|H].
        * destruct (fi_sym _ _ _ _ I c H) as [H'|H']; [now left|]. right. apply in_or_app. now left.
        * right. apply in_or_app. now right.
  Qed.

  Lemma full_run d0 st0 : started fl L d0 st0 -> full_dict d0 -> closed d0 -> length (sfreqs st0) = dsize d0 ->
    forall log d st, stat_run fl d0 st0 log d st -> inputs_ok (map fst log) ->
    fresh_ascending (seqs d0) (concat (map fst log)) -> run_inv fl d0 st0 log d st /\ full_inv d0 log d st.
  Proof.
    intros Hst Hf Hc Hlen log d st Hr Hin Hfr. split; [now apply (run_spec fl L)|].
    revert Hin Hfr. induction Hr as [|log d st s ids n d' st' Hr IH E]; intros Hin Hfr; [now apply full_start|].
    rewrite map_app in Hin. cbn [map fst] in Hin. apply inputs_snoc in Hin as (Hin & Hl & Hs).
    rewrite <- symbols_map in Hs. rewrite map_app, concat_app in Hfr. cbn [map fst concat] in Hfr. rewrite app_nil_r in Hfr.
    pose proof (run_spec fl L d0 st0 Hst log d st Hr Hin) as R.
    destruct (full_step d0 st0 log d st s Hst R (IH Hin (fresh_app_l _ _ _ Hfr)) Hl ltac:(lia) Hfr) as (ids' & d1 & st1 & E1 & _ & I).
    rewrite E in E1. injection E1 as <- _ <- <-. exact I.
  Qed.

  (** Such a state is good for a reduction. *)
  Lemma run_good d0 st0 log d st : started fl L d0 st0 -> run_inv fl d0 st0 log d st -> full_inv d0 log d st ->
    (symbols_consumed log <= 2 ^ 48)%Z -> (Z.of_nat (dsize d) <= 2 ^ 50)%Z ->
    (forall w, In w (seqs d) -> (Z.of_nat (length w) <= maxlen)%Z) ->
    good fl d st (words_emitted log) (symbols_consumed log).
  Proof.
    intros Hst R I Hs Hd Hw. pose proof (ri_words _ _ _ _ _ _ R) as Hwd.
    split; try apply R; try apply I; try easy.
    - intro i. rewrite freq_at0, (ri_sf _ _ _ _ _ _ R). apply log_occ_nonneg.
    - lia.
  Qed.
End Learn.
