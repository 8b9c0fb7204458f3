(** Weighted parsing on concrete classes of dictionaries. *)
From Verif Require Import Base Spec SpecWeight FloatOps FloatLaws ModelDict OrderProofs DictProofs
  GreedyProofs DpProofs.

Section Weighted.
  Context (fl : fops) (L : flaws fl).

  (** Counters within the range where conversion to double is exact. *)
  Definition counts_ok (freqs : list Z) (T : Z) : Prop :=
    (0 <= T)%Z /\ Forall (fun f => (0 <= f < maxcount)%Z) freqs.

  Lemma slp_weight freqs T n i : (0 <= T)%Z -> (T + Z.of_nat n <= maxcount)%Z ->
    sym_log_prob fl freqs (fofZ fl T) n i = word_weight fl freqs T n i.
  Proof.
    intros HT Hn. unfold sym_log_prob, word_weight. now rewrite (ofZ_add fl L) by lia.
  Qed.

  Lemma slp_wt_tot freqs t n i : Forall (fun f => (0 <= f < maxcount)%Z) freqs -> ftot fl L t ->
    1 <= n -> (Z.of_nat n <= maxcount)%Z -> fwt fl L (sym_log_prob fl freqs t n i).
  Proof.
    intros Hf Ht Hn Hb. unfold sym_log_prob. destruct (nth_error freqs i) as [f|] eqn:E.
    - apply (wt_tot fl L); [|easy|lia]. apply nth_error_In in E. rewrite Forall_forall in Hf.
      apply Hf in E. lia.
    - apply (wt_tot0 fl L); [easy|lia].
  Qed.

  Lemma slp_wt freqs T n i : counts_ok freqs T -> 1 <= n -> (T + Z.of_nat n <= maxcount)%Z ->
    fwt fl L (sym_log_prob fl freqs (fofZ fl T) n i).
  Proof.
    intros [HT Hf] Hn Hb. apply slp_wt_tot; try easy; [|lia]. apply (tot_ofZ fl L). lia.
  Qed.

  Lemma psum_weight freqs T n ids : (0 <= T)%Z -> (T + Z.of_nat n <= maxcount)%Z ->
    psum fl freqs (fofZ fl T) n ids (fofZ fl 0) = split_weight fl freqs T n ids.
  Proof.
    intros HT Hn. unfold psum, split_weight. generalize (fofZ fl 0).
    induction ids as [|i ids IH]; intro x; [easy|]. cbn [fold_left]. rewrite IH.
    now rewrite slp_weight.
  Qed.

  (** Any dictionary state, no exclusions. *)
  Lemma weighted_lossless_tot skip signed d s freqs t :
    wf_dict d -> no_empty d -> Forall (fun f => (0 <= f < maxcount)%Z) freqs -> ftot fl L t ->
    (Z.of_nat (length s) <= maxlen)%Z ->
    (Z.of_nat (dsize d) + Z.of_nat (length s) <= maxcount)%Z ->
    exists ids x d', weighted_parse fl skip signed d s freqs t None = Ok (ids, x, d') /\
      spells (seqs d') ids s /\ wf_dict d' /\ no_empty d' /\ extends_by_symbols (seqs d) (seqs d') /\
      dsize d' <= dsize d + length s.
  Proof.
    intros Hwf Hne Hc Ht Hlen Hb.
    set (P := fun p (d' : dict) => wf_dict d' /\ no_empty d' /\ p <= length s /\ dsize d' <= dsize d + p).
    assert (Hst : forall pos d1 c rest, P pos d1 -> skipn pos s = c :: rest ->
      exists i d', search d1 (c :: rest) None = Ok (Some i, d') /\ P (S pos) d' /\
      wf_dict d' /\ no_empty d' /\ extends_by_symbols (seqs d1) (seqs d') /\
      R fl L freqs t P d' /\
      exists w, word_at (seqs d') i w /\ prefix w (c :: rest) /\ True).
    { intros pos d1 c rest (Hwf1 & Hne1 & Hp1 & Hs1) Hsk.
      destruct (search_wf d1 (c :: rest) None Hwf1) as (r & d2 & Hse & Hwf2 & Hext & _ & Hr & Hsz & Hi);
        [easy|].
      destruct r as [i|]; [|now destruct Hr].
      destruct (Hi i eq_refl) as (w & Hw & Hpre & _).
      destruct (skipn_cons_lt _ _ _ _ Hsk) as [Hlt _].
      assert (Hne2 : no_empty d2) by (now apply (no_empty_ext d1 d2)).
      assert (HP2 : P (S pos) d2).
      { split; [easy|]. split; [easy|]. split; [lia|]. lia. }
      exists i, d2. split; [easy|]. split; [easy|]. split; [easy|]. split; [easy|]. split; [easy|].
      split.
      - split; [now exists (S pos)|]. intro sym. apply slp_wt_tot; [easy|easy| |].
        + unfold dsize. apply nth_some_lt in Hw. lia.
        + destruct HP2 as (_ & _ & _ & H). lia.
      - exists w. easy. }
    destruct (weighted_parse_spec fl L s freqs t None P (fun _ => True) (fun _ => True) Hlen
                ltac:(easy) Hst skip signed d)
      as (ids & x & d' & H & Hsp & HP' & Hext & _).
    - split; [easy|]. split; [easy|]. split; [lia|]. lia.
    - now intros p d1 (_ & H & _).
    - exists ids, x, d'. destruct HP' as (H1 & H2 & _ & H3).
      split; [easy|]. split; [easy|]. split; [easy|]. split; [easy|]. now split.
  Qed.

  Lemma weighted_lossless skip signed d s freqs T :
    wf_dict d -> no_empty d -> counts_ok freqs T ->
    (Z.of_nat (length s) <= maxlen)%Z ->
    (T + Z.of_nat (dsize d) + Z.of_nat (length s) <= maxcount)%Z ->
    exists ids x d', weighted_parse fl skip signed d s freqs (fofZ fl T) None = Ok (ids, x, d') /\
      spells (seqs d') ids s /\ wf_dict d' /\ no_empty d' /\ extends_by_symbols (seqs d) (seqs d') /\
      dsize d' <= dsize d + length s.
  Proof.
    intros Hwf Hne [HT Hf] Hlen Hb. apply weighted_lossless_tot; try easy; [|lia].
    apply (tot_ofZ fl L). lia.
  Qed.

  (** A dictionary in good order that has every symbol of the input as an allowed word. *)
  Lemma weighted_full skip signed d s freqs T ex (Q : seq -> Prop) :
    full_dict d -> no_empty d -> counts_ok freqs T ->
    (Z.of_nat (length s) <= maxlen)%Z ->
    (T + Z.of_nat (dsize d) <= maxcount)%Z ->
    (forall c, In c s -> exists i, word_at (seqs d) i [c] /\ allowed ex i = true) ->
    (forall v w, prefix v w -> Q w -> Q v) ->
    (forall p i w, p < length s -> longest_prefix (seqs d) (fun k => allowed ex k = true) (skipn p s) i ->
        word_at (seqs d) i w -> Q w) ->
    exists ids, weighted_parse fl skip signed d s freqs (fofZ fl T) ex =
                Ok (ids, split_weight fl freqs T (dsize d) ids, d) /\
      spells (seqs d) ids s /\
      Forall (fun i => exists w, word_at (seqs d) i w /\ Q w) ids /\
      forall ids', Forall (fun i => allowed ex i = true) ids' -> spells (seqs d) ids' s ->
        fltb fl (split_weight fl freqs T (dsize d) ids) (split_weight fl freqs T (dsize d) ids') = false.
  Proof.
    intros Hfull Hne Hc Hlen Hb Hcov HQ HQs.
    set (P := fun (p : nat) (d' : dict) => d' = d).
    assert (Hhit : forall pos c rest, skipn pos s = c :: rest ->
      exists i, search d (c :: rest) ex = Ok (Some i, d) /\
        longest_prefix (seqs d) (fun k => allowed ex k = true) (c :: rest) i).
    { intros pos c rest Hsk.
      assert (Hn0 : ex = None -> c :: rest <> []) by easy.
      assert (Hin : In c s).
      { rewrite <- (firstn_skipn pos s), Hsk. apply in_app_iff. right. now left. }
      destruct (Hcov c Hin) as (k & Hk & Hal).
      pose proof (search_full d (c :: rest) ex Hfull Hn0) as Hs.
      destruct (search d (c :: rest) ex) as [[[i|] d1]| | |]; try contradiction.
      - destruct Hs as [[-> Hl]|(-> & Hno & _)].
        + now exists i.
        + exfalso. apply (Hno k [c] Hk); [now exists rest|easy].
      - destruct Hs as (_ & _ & Hno). exfalso. apply (Hno k [c] Hk); [now exists rest|easy]. }
    assert (HR : s <> [] -> R fl L freqs (fofZ fl T) P d).
    { intro Hs. split; [now exists 0|]. intro sym. apply slp_wt; [easy| |easy].
      destruct s as [|c s']; [easy|]. destruct (Hcov c (or_introl eq_refl)) as (k & Hk & _).
      unfold dsize. apply nth_some_lt in Hk. lia. }
    assert (Hst : forall pos d1 c rest, P pos d1 -> skipn pos s = c :: rest ->
      exists i d', search d1 (c :: rest) ex = Ok (Some i, d') /\ P (S pos) d' /\
      wf_dict d' /\ no_empty d' /\ extends_by_symbols (seqs d1) (seqs d') /\
      R fl L freqs (fofZ fl T) P d' /\
      exists w, word_at (seqs d') i w /\ prefix w (c :: rest) /\ Q w).
    { intros pos d1 c rest -> Hsk. destruct (Hhit pos c rest Hsk) as (i & Hse & Hl).
      exists i, d. split; [easy|]. split; [easy|]. split; [now apply full_wf|]. split; [easy|].
      split; [apply ext_refl|]. split.
      - apply HR. intros ->. now rewrite skipn_nil in Hsk.
      - pose proof Hl as (w & Hw & Hpre & _). exists w. split; [easy|]. split; [easy|].
        apply (HQs pos i w); [|now rewrite Hsk|easy]. now destruct (skipn_cons_lt _ _ _ _ Hsk). }
    destruct (weighted_parse_spec fl L s freqs (fofZ fl T) ex P Q (fun i => allowed ex i = true) Hlen
                HQ Hst skip signed d) as (ids & x & d' & H & Hsp & HP' & _ & Hq & Hsum & Hopt).
    - easy.
    - now intros p d1 ->.
    - red in HP'. subst d'. exists ids.
      assert (Hx : x = split_weight fl freqs T (dsize d) ids).
      { rewrite <- psum_weight by (apply Hc || easy). apply Hsum. now intros d1 [[p ->] _]. }
      subst x. split; [easy|]. split; [easy|]. split; [easy|].
      intros ids' Hal Hsp'. rewrite <- (psum_weight freqs T (dsize d) ids') by (apply Hc || easy).
      destruct s as [|c s'] eqn:Es.
      + (* empty input: only the empty split *)
        assert (ids' = []).
        { destruct Hsp' as (vs & Hvs & Hcc). destruct Hvs as [|i v ids' vs Hv Hvs]; [easy|].
          exfalso. simpl in Hcc. apply app_eq_nil in Hcc as [-> _].
          apply (Hne []); [now apply word_at_in in Hv|easy]. }
        assert (ids = []).
        { destruct Hsp as (vs & Hvs & Hcc). destruct Hvs as [|i v ids vs Hv Hvs]; [easy|].
          exfalso. simpl in Hcc. apply app_eq_nil in Hcc as [-> _].
          apply (Hne []); [now apply word_at_in in Hv|easy]. }
        subst. cbn. apply (ok_irrefl fl L 0); [unfold maxlen; lia|apply (ok_zero fl L)].
      + rewrite <- Es in *. apply (Hopt d); try easy.
        * now apply full_wf.
        * apply HR. now rewrite Es.
        * intros p c0 rest i v Hsk Hali Hv Hpv. destruct (Hhit p c0 rest Hsk) as (r & Hse & Hl).
          exists r. split; [easy|]. destruct Hl as (w & Hw & Hpw & Hr & Hmax).
          apply (full_anc d Hfull r i v w); try easy.
          apply (prefix_comparable v w (c0 :: rest)); try easy. now apply (Hmax i v).
  Qed.
End Weighted.
