(** Proofs for C74: a fit that is interrupted while it counts. *)
From Verif Require Import Base Spec FloatOps FloatLaws OrderProofs DictProofs ModelDict Maps ModelCoder SpecCoder
  CoderProofs ModelStat ModelBuilder ModelStream ModelVGram SpecStat SpecBuilder StatProofs RunProofs LearnProofs PropsDictLemmas
  PropsStatLemmas BuilderProofs BuilderSafe BuilderOwn ReachProofs PropsBuilderLemmas StreamProofs PropsStreamLemmas
  SpecStream SpecVGram VGramProofs PropsVGramLemmas SpecInterrupt.

Section I.
  Context (fl : fops) (L : flaws fl).

  Lemma recount_stopped w fs : forall xs k t z acc, k < length xs -> (forall j, j < k -> w_term w (t + j) = false) -> w_term w (t + k) = true ->
    recount fl w fs xs t z acc = ('(_, t', z', acc') <- recount fl (quiet fl w) fs (firstn (S k) xs) t z acc ;; Ok (true, t', z', acc')).
  Proof.
    induction xs as [|x xs IH]; intros k t z acc Hk Hq Ht; [cbn in Hk; lia|]. cbn [recount firstn]. destruct (encode (zcoder z) x) as [q c].
    destruct (the_dict fl z) as [[p d]| | |]; try reflexivity. cbn [bind]. destruct (parse_weighted fl d q fs (fofZ fl (isum fs)) []) as [[[ids n] d']| | |]; try reflexivity. cbn [bind].
    destruct (foldM (fun a i => vadd a i 1) ids acc) as [acc'| | |]; try reflexivity. cbn [bind w_term quiet]. destruct k as [|k].
    - rewrite Nat.add_0_r in Ht. rewrite Ht. cbn [firstn recount]. reflexivity.
    - assert (E : w_term w t = false) by (rewrite <- (Nat.add_0_r t); apply Hq; lia). rewrite E. apply IH; [cbn in Hk; lia| |].
      + intros j Hj. replace (S t + j) with (t + S j) by lia. apply Hq. lia.
      + now replace (S t + k) with (t + S k) by lia.
  Qed.

  Lemma stopped_counting size N ops0 w v xs ops al k : good_fit fl size N ops0 (quiet fl w) v xs ops al -> k < length xs ->
    first_signal fl w (Z.to_nat (viter v) * length xs + k) ->
    exists v' z, fit fl w v xs = Ok (true, v') /\ vfitted v' = true /\ s_alphabet fl (vs v') = Ok al /\
      counts_readings al (firstn (S k) xs) (s_freqs fl (vs v')) /\ weight al (s_freqs fl (vs v')) = total_symbols (firstn (S k) xs) /\
      (forall w' xs', fit fl w' v' xs' = Ok (true, v')) /\ shist fl (new_stream fl size) ops z /\ ztotal (vs v') = ztotal z.
  Proof.
    intros (Hf & Hit & -> & H0 & Hc & Hn & Hr & (z & H & Hal) & Hu & Hx & Htot) Hk [Hq Hs].
    set (n := Z.to_nat (viter v)) in *. assert (Hn0 : n <> 0) by (unfold n; lia). pose proof Hr as (_ & H1 & _).
    set (ops := ops0 ++ sampling fl (quiet fl w) xs n) in *.
    assert (Hcalm : calm fl [] (new_stream fl size) ops) by (apply calm_app; [exact Hc|apply sampling_parses]).
    assert (Ha : (Z.of_nat 0 <= bsize (zb (new_stream fl size)))%Z) by (cbn; lia).
    destruct (sampling_runs fl L size N ops0 w xs n (vs v) H0 Hn0 Hn Hr) as (z' & al' & H' & Hal' & Er).
    { intros j Hj. apply Hq. lia. }
    assert (z' = z) by (exact (shist_det fl _ _ _ _ H' H)). subst z'.
    destruct (hist_ready fl L [] [] (new_stream fl size) (kmax + N) 0 N 0 (fresh_start fl L size N (normal_N fl _ _ Hn)) eq_refl size0
      0 empty_dict _ (fresh_sinv fl L (size - 1)) no_symbols (Forall_nil _) Ha (fresh_full fl _) (fresh_own fl _) ops z al H Hn (fresh_room fl _ _ Hr) Hcalm Hal)
      as (d & R & Eal).
    destruct (hist_freqs fl L [] [] (new_stream fl size) (kmax + N) 0 N 0 (fresh_start fl L size N (normal_N fl _ _ Hn)) eq_refl size0
      0 empty_dict _ (fresh_sinv fl L (size - 1)) no_symbols (Forall_nil _) Ha (fresh_full fl _) (fresh_own fl _) ops z H Hn (fresh_room fl _ _ Hr) Hcalm)
      as (dr & fs & b & Hg & Erf & Hlen & Hfs & Hz).
    assert (Hsync : zdict z = Some (result_ptr fl (zb z))).
    { destruct n as [|n']; [easy|]. exact (sampled_synced fl _ _ _ _ _ _ H). }
    assert (dr = d). { destruct (ready_the _ _ _ _ R) as (p & Ep & Hgp & _). rewrite Hsync in Ep. injection Ep as <-. congruence. } subst dr.
    rewrite Eal in Hx.
    destruct (recount_spec fl L (symbols_of fl [] ops) d (quiet fl w) fs Hfs Hz (firstn (S k) xs) (n * length xs) _ (repeat 0%Z (length fs))
      (ready_freqs fl _ d z fs b (zfreqs z) (ztotal z) (zminp z) R Erf) ltac:(now rewrite repeat_length)) as (rs & acc & E & Hrs & Hla & Hat).
    { intros x Hi. apply Hx. rewrite <- (firstn_skipn (S k) xs). apply in_or_app. now left. } { reflexivity. }
    assert (Ef : fit fl w v xs = Ok (true, mkVGram (mkStream (zsize z) b (zdict z) (zcoder z) acc (ztotal z) (zminp z)) (viter v) true true)).
    { unfold fit. rewrite Hf. fold n. rewrite Er. cbn [bind]. unfold recompute_freqs. rewrite Erf. cbn [bind].
      rewrite (recount_stopped w fs xs k (n * length xs) _ _ Hk); [|intros j Hj; apply Hq; lia|exact Hs]. rewrite E. reflexivity. }
    eexists. exists z. split; [exact Ef|]. split; [reflexivity|]. cbn [vs].
    assert (R' : ready fl (symbols_of fl [] ops) d (mkStream (zsize z) b (zdict z) (zcoder z) acc (ztotal z) (zminp z))) by exact (ready_freqs fl _ d z fs b acc (ztotal z) (zminp z) R Erf).
    assert (C : counts_readings al (firstn (S k) xs) acc).
    { rewrite Eal. exists rs. split; [exact Hrs|]. split; [now rewrite map_length|]. intro j. rewrite Hat. unfold at0 at 1. rewrite nth_repeat. lia. }
    split; [rewrite Eal; exact (ready_alphabet fl _ _ _ R')|]. split; [exact C|]. split; [now apply weight_total|]. split; [apply (fit_once fl _ _ _ _ Ef)|]. now split.
  Qed.
End I.
