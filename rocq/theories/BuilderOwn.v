(** The dictionaries a builder has left behind, and the statistics kept with the result. *)
From Verif Require Import Base Spec FloatOps FloatLaws OrderProofs DictProofs GreedyProofs DpProofs ModelDict Maps ModelStat
  ModelBuilder SpecStat SpecBuilder StatProofs RunProofs ReduceProofs LearnProofs BuilderProofs BuilderSafe.

Section Own.
  Context (fl : fops) (L : flaws fl).

  (** The parse made by an accept. *)
  Lemma parse_safe ws0 a0 pre xs b d d0 st0 log s :
    sinv fl L ws0 a0 pre xs b d d0 st0 log -> symbol_closed ws0 -> fresh_ascending ws0 (concat xs ++ s) ->
    (Z.of_nat (length s) <= 2 ^ 40)%Z -> (total_len (xs ++ [s]) <= 2 ^ 48)%Z ->
    exists ids d1 st1, stat_parse fl d (bcur b) s [] = Ok (ids, length ids, d1, st1) /\
      run_inv fl d0 st0 (log ++ [(s, ids)]) d1 st1 /\ full_inv fl d0 (log ++ [(s, ids)]) d1 st1.
  Proof.
    intros S Hcl0 Hfr Hs Htl. pose proof S as [Sg Sst Sf0 Sc0 Sr Sfi Sxs Ss0 Sle Sge].
    assert (Hsc : (symbols_consumed log + Z.of_nat (length s) <= 2 ^ 48)%Z).
    { assert (Hs0 : symbols_consumed log = total_len (map fst log)) by (apply symbols_map). rewrite Sxs, !total_len_app in Htl.
      pose proof (total_len_nonneg pre). assert (Hs1 : total_len [s] = Z.of_nat (length s)) by (unfold total_len; cbn; lia). unfold seq in *. lia. }
    assert (Hfr0 : fresh_ascending (seqs d0) (concat (map fst log) ++ s)).
    { apply (fresh_split1 ws0 _ (concat pre)).
      - rewrite app_assoc, <- concat_app. rewrite Sxs in Hfr. exact Hfr.
      - intros c Hc. apply Ss0. rewrite concat_app. apply in_or_app. left. apply in_concat. exists [c]. split; [easy|now left].
      - intros c Hc. apply Ss0. rewrite concat_app. apply in_or_app. now right.
      - intros c Hc. apply Ss0 in Hc. rewrite concat_app in Hc. apply in_app_or in Hc as [Hc|Hc]; [left|now right].
        apply in_concat in Hc as (w & Hw & Hcw). apply (Hcl0 w); easy. }
    apply (full_step fl L d0 st0 log d (bcur b) s Sst Sr Sfi); try easy; try lia.
  Qed.

  Definition hfull (b : builder fl) : Prop := Forall (fun d => full_dict d /\ closed d) (bheap b).

  Lemma counted_app w xs ys ws fs : counted w xs ws fs -> counted w (xs ++ ys) ws fs.
  Proof.
    destruct w as [[i j] ph]. intros (Hij & log & E & H). split; [rewrite app_length; lia|]. exists log. split; [|easy].
    rewrite E, skipn_app, firstn_app, skipn_length. replace (j - i - (length xs - i)) with 0 by lia. now rewrite app_nil_r.
  Qed.
  Lemma counted_phase i j ph ph' xs ws fs : counted (i, j, ph) xs ws fs -> counted (i, j, ph') xs ws fs.
  Proof. easy. Qed.
  Lemma counted_tail ph pre log ws fs : Forall (fun e => spells ws (snd e) (fst e)) log -> length fs = length ws ->
    (forall k, at0 fs k = log_occ log k) ->
    counted (length pre, length (pre ++ map fst log), ph) (pre ++ map fst log) ws fs.
  Proof.
    intros H1 H2 H3. rewrite app_length. split; [rewrite app_length; lia|]. exists log. split; [|easy].
    rewrite skipn_app, skipn_all, Nat.sub_diag. cbn [skipn app]. rewrite firstn_all2; [easy|lia].
  Qed.

  Definition phase_of (b : builder fl) : phase := match bres b with RNull => First | RSame => Live | ROwn _ _ => Frozen end.

  (** [own_inv w xs b]: what the statistics kept for the result count. *)
  Definition own_inv (w : window) (xs : list seq) (b : builder fl) : Prop :=
    bptr b < length (bheap b) /\
    forall p st, bres b = ROwn p st -> p < bptr b /\ exists d, hget fl b p = Ok d /\ counted w xs (seqs d) (sfreqs st).

  Lemma sinv_counted ph ws0 a0 pre xs b d d0 st0 log : sinv fl L ws0 a0 pre xs b d d0 st0 log ->
    counted (length pre, length xs, ph) xs (seqs d) (sfreqs (bcur b)).
  Proof.
    intro S. pose proof (sv_run _ _ _ _ _ _ _ _ _ _ _ S) as R. rewrite (sv_xs _ _ _ _ _ _ _ _ _ _ _ S).
    apply counted_tail; [exact (ri_spells _ _ _ _ _ _ R)|exact (fi_len _ _ _ _ _ (sv_full _ _ _ _ _ _ _ _ _ _ _ S))|exact (ri_sf _ _ _ _ _ _ R)].
  Qed.

  (** The window against the latest update. *)
  Lemma window_bhist b0 ph0 ops w b : whist fl b0 ph0 ops w b -> bhist fl b0 ops b.
  Proof. induction 1; [constructor|now apply (bh_step fl b0 ops b)]. Qed.
  Lemma window_exists b0 ph0 ops b : bhist fl b0 ops b -> exists w, whist fl b0 ph0 ops w b.
  Proof. induction 1 as [|ops b op b' H [w IH] Hs]; [eexists; constructor|]. eexists. now apply (wh_step fl b0 ph0 ops w b). Qed.
  Lemma window_update b0 ops w b : whist fl b0 (phase_of b0) ops w b ->
    exists pre, uhist fl b0 ops pre b /\ let '(i, j, ph) := w in
      ph = phase_of b /\ (ph <> Frozen -> i = length (accepted fl pre) /\ j = length (accepted fl ops)).
  Proof.
    induction 1 as [|ops w b op b' H (pre & U & IH) Hs]; [exists []; split; [constructor|easy]|].
    destruct w as [[i j] ph]. destruct IH as [Eph IH].
    assert (G : is_updated fl b b' = true /\ updated fl b b' \/ is_updated fl b b' = false /\ ~ updated fl b b').
    { unfold is_updated, updated. destruct (Nat.ltb_spec (length (bheap b)) (length (bheap b'))); [left|right]; split; try easy; lia. }
    assert (Hlen : forall op, length (accepted fl (ops ++ [op])) = length (accepted fl ops) + length (op_accepted fl op))
      by (intro; rewrite accepted_snoc; apply app_length).
    destruct op as [e s| |p s freqs total]; cbn [window_step bstep] in *.
    - pose proof Hs as Hs0. apply (accept_cases fl) in Hs as (d2 & ids2 & n & d3 & st3 & Hd & Hp2 & Hc).
      destruct G as [[E Hu]|[E Hu]]; rewrite E.
      + exists (ops ++ [BAccept e s]). split; [now apply (uh_update fl b0 ops pre b)|].
        destruct Hc as [[_ ->]|(_ & ws & fs & mp & d4 & st4 & prob & best & turns & _ & _ & ->)].
        { exfalso. unfold updated, parsed in Hu. cbn [bheap] in Hu. rewrite upd_length in Hu. lia. }
        unfold window_next, phase_of in *. cbn [bres]. unfold next_res. destruct (bpop b).
        * destruct (bres b); rewrite Eph; (split; [easy|]); intro Hx; try congruence; rewrite Hlen; cbn [op_accepted length]; lia.
        * split; [easy|]. intros _. rewrite Hlen. cbn [op_accepted length]. lia.
      + exists pre. split; [now apply (uh_other fl b0 ops pre b)|].
        destruct Hc as [[_ ->]|(_ & ws & fs & mp & d4 & st4 & prob & best & turns & _ & _ & ->)].
        2:{ exfalso. unfold updated in Hu. cbn [bheap] in Hu. rewrite app_length, upd_length in Hu. cbn [length] in Hu. lia. }
        unfold window_next, phase_of, parsed in *. cbn [bres].
        destruct ph; (split; [exact Eph|]); intro Hx; try congruence; destruct IH as [-> _]; try congruence;
          rewrite Hlen; cbn [op_accepted length]; split; lia.
    - destruct Hs as (fs & Hf). unfold result_freqs in Hf. apply bind_ok in Hf as (dd & Hd & Hf). exists pre.
      assert (Eh : bheap b' = bheap b /\ phase_of b' = phase_of b).
      { unfold phase_of. destruct (bres b) as [| |p st] eqn:Er; injection Hf as _ <-; cbn [bheap bres]; rewrite ?Er; easy. }
      destruct Eh as [Eh Ep]. split.
      { apply (uh_other fl b0 ops pre b); [exact U| |unfold updated; rewrite Eh; lia]. cbn [bstep]. exists fs. unfold result_freqs. rewrite Hd. exact Hf. }
      rewrite Ep. split; [easy|]. intro Hx. rewrite Hlen. cbn [op_accepted length]. rewrite Nat.add_0_r. now apply IH.
    - exists pre. split.
      { apply (uh_other fl b0 ops pre b); [exact U|exact Hs|]. destruct Hs as (dd & o & n & dd' & _ & _ & ->). unfold updated, hput. cbn [bheap].
        rewrite upd_length. lia. }
      destruct Hs as (dd & o & n & dd' & _ & _ & ->). unfold phase_of, hput in *. cbn [bres]. split; [easy|]. intro Hx.
      rewrite Hlen. cbn [op_accepted length]. rewrite Nat.add_0_r. now apply IH.
  Qed.

  (** Shared parses meet only symbols that are words of the dictionary at hand. *)
  Definition shared_covered (b0 : builder fl) (ops : list (bop fl)) : Prop :=
    forall a p s freqs total c b d, ops = a ++ BShared p s freqs total :: c -> bhist fl b0 a b -> hget fl b p = Ok d ->
    covers (seqs d) s.
  Lemma covered_snoc b0 ops op : shared_covered b0 (ops ++ [op]) -> shared_covered b0 ops.
  Proof. intros H a p s freqs total c b d ->. apply (H a p s freqs total (c ++ [op]) b d). now rewrite <- app_assoc. Qed.

  Section Hist.
    Context (ws0 : list seq) (a0 : nat) (b0 : builder fl) (B Size N : Z) (d00 : dict) (st00 : sstat fl).
    Context (I0 : binv fl L (fun w => In w ws0) [] B Size b0) (S0 : sinv fl L ws0 a0 [] [] b0 d00 d00 st00 []).
    Context (Hcl : symbol_closed ws0) (Hwl : Forall (fun w : seq => Z.of_nat (length w) <= 2 ^ 40)%Z ws0).
    Context (HB : (kmax + N <= B <= 2 ^ 52)%Z) (HSz : (Size <= 2 ^ 49)%Z) (Ha : (Z.of_nat a0 <= bsize b0)%Z).
    Context (F0 : hfull b0) (O0 : own_inv (0, 0, phase_of b0) [] b0).

    Lemma own_hist ops w b : whist fl b0 (phase_of b0) ops w b -> safe_ops fl ws0 b0 N ops -> shared_covered b0 ops ->
      hfull b /\ own_inv w (accepted fl ops) b.
    Proof.
      induction 1 as [|ops w b op b' Hw IH Hstep]; intros Hok Hcov; [easy|].
      pose proof (window_bhist _ _ _ _ _ Hw) as H.
      pose proof (safe_snoc fl ws0 a0 b0 B N HB ops op Hok) as Hok'.
      destruct (IH Hok' (covered_snoc _ _ _ Hcov)) as [F O].
      destruct (window_update b0 ops w b Hw) as (pre & U & HW).
      destruct (uhist_exists fl 0 b0 (ops ++ [op]) b' (bh_step fl b0 ops b op b' H Hstep)) as [pre' U'].
      destruct (safe_hist fl L ws0 a0 b0 B Size N d00 st00 I0 S0 Hcl Hwl HB HSz Ha ops pre b U Hok') as (I & Hbs & d & d0 & st0 & log & S).
      destruct (safe_hist fl L ws0 a0 b0 B Size N d00 st00 I0 S0 Hcl Hwl HB HSz Ha _ pre' b' U' Hok) as (I' & _ & d' & d0' & st0' & log' & S').
      destruct w as [[i j] ph]. destruct HW as [Eph HW].
      rewrite accepted_snoc. destruct O as [Op O]. destruct op as [e s| |p s freqs total]; cbn [bstep op_accepted] in *.
      - pose proof Hok as (H1 & H2 & H3 & H4 & H5 & H6). pose proof H3 as ((HN1 & HN2) & Hla & Hlp).
        rewrite accepted_snoc in Hla, H5. cbn [op_accepted] in Hla, H5. rewrite processed_snoc in Hlp. cbn [op_length] in Hlp.
        pose proof (accepted_len fl ops) as Hal. apply Forall_app in Hla as [_ Hla2]. pose proof (Forall_inv Hla2) as Hs. cbn beta in Hs.
        destruct (parse_safe ws0 a0 _ _ b d d0 st0 log s S Hcl) as (ids & d1 & st1 & Hp & R1 & F1).
        { rewrite concat_app in H5. cbn [concat] in H5. rewrite app_nil_r in H5. exact H5. } { lia. }
        { rewrite total_len_app. unfold total_len at 2. cbn. lia. }
        assert (S1 : counted (length (accepted fl pre), Datatypes.S (length (accepted fl ops)), Frozen) (accepted fl ops ++ [s]) (seqs d1) (sfreqs st1)).
        { assert (El : accepted fl ops ++ [s] = accepted fl pre ++ map fst (log ++ [(s, ids)])).
          { rewrite (sv_xs _ _ _ _ _ _ _ _ _ _ _ S), map_app, <- app_assoc. reflexivity. }
          replace (Datatypes.S (length (accepted fl ops))) with (length (accepted fl ops ++ [s])) by (rewrite app_length; cbn [length]; lia).
          rewrite El. apply counted_tail; [exact (ri_spells _ _ _ _ _ _ R1)|exact (fi_len _ _ _ _ _ F1)|exact (ri_sf _ _ _ _ _ _ R1)]. }
        pose proof (sv_get _ _ _ _ _ _ _ _ _ _ _ S) as Sg.
        pose proof (sv_get _ _ _ _ _ _ _ _ _ _ _ S') as Sg'. pose proof (sv_full _ _ _ _ _ _ _ _ _ _ _ S') as Sf'.
        apply (accept_cases fl) in Hstep as (d2 & ids2 & n & d3 & st3 & Hd & Hp2 & Hc). rewrite Sg in Hd. injection Hd as <-.
        rewrite Hp in Hp2. injection Hp2 as <- _ <- <-.
        assert (F2 : Forall (fun d => full_dict d /\ closed d) (upd (bheap b) (bptr b) d1)).
        { apply forall_upd; [exact F|]. split; [exact (fi_full _ _ _ _ _ F1)|exact (fi_closed _ _ _ _ _ F1)]. }
        destruct Hc as [[_ ->]|(_ & ws & fs & mp & d4 & st4 & prob & best & turns & _ & _ & ->)].
        + split; [exact F2|]. split; [unfold parsed; cbn [bptr bheap]; now rewrite upd_length|].
          unfold parsed. cbn [bres bptr]. intros p st E. destruct (O p st E) as (Hlt & dd & Hg & Hcn). split; [easy|].
          assert (EW : window_step fl ops b (BAccept e s) (parsed fl b d1 st1) (i, j, ph) = (i, j, Frozen)).
          { unfold window_step, is_updated, parsed. cbn [bheap]. rewrite upd_length, Nat.ltb_irrefl. unfold phase_of in Eph. rewrite E in Eph. now rewrite Eph. }
          unfold parsed in EW. rewrite EW. apply (counted_phase i j ph Frozen) in Hcn.
          exists dd. split; [|now apply counted_app]. unfold hget. cbn [bheap]. apply vget_some. rewrite upd_other by lia. now apply vget_ok in Hg.
        + split.
          { apply Forall_app. split; [exact F2|]. constructor; [|constructor]. unfold hget in Sg'. cbn [bheap bptr] in Sg'.
            apply vget_ok in Sg'. rewrite nth_error_app2, upd_length, Nat.sub_diag in Sg' by (rewrite upd_length; lia).
            injection Sg' as <-. split; [exact (fi_full _ _ _ _ _ Sf')|exact (fi_closed _ _ _ _ _ Sf')]. }
          split; [cbn [bptr bheap]; rewrite app_length, upd_length; cbn [length]; lia|]. cbn [bres bptr bheap].
          assert (Ht : (length (bheap b) <? length (upd (bheap b) (bptr b) d1 ++ [d4])) = true)
            by (apply Nat.ltb_lt; rewrite app_length, upd_length; cbn [length]; lia).
          intros p st E. unfold next_res in E. unfold window_step, is_updated, window_next. cbn [bheap]. rewrite Ht. unfold phase_of in Eph.
          destruct (bpop b); [|discriminate E].
          destruct (bres b) as [| |p0 s0] eqn:Er; [discriminate E| |]; subst ph.
          * injection E as <- <-. split; [easy|]. exists d1. split; [|destruct HW as [-> _]; [easy|exact S1]]. unfold hget. cbn [bheap].
            apply vget_some. rewrite nth_error_app1 by (now rewrite upd_length). now apply upd_same.
          * injection E as <- <-. destruct (O p0 s0 eq_refl) as (Hlt & dd & Hg & Hcn). split; [lia|]. exists dd.
            split; [|now apply counted_app]. unfold hget. cbn [bheap]. apply vget_some. rewrite nth_error_app1 by (rewrite upd_length; lia).
            rewrite upd_other by lia. now apply vget_ok in Hg.
      - destruct Hstep as (fs & Hf). rewrite app_nil_r. unfold result_freqs in Hf. apply bind_ok in Hf as (dd & Hd & Hf).
        destruct (bres b) as [| |p st] eqn:Er; injection Hf as _ <-.
        1,2: (split; [exact F|]; split; [exact Op|]; cbn [bres]; rewrite ?Er; discriminate).
        split; [exact F|]. split; [exact Op|]. cbn [bres]. intros p' st' [= <- <-]. destruct (O p st eq_refl) as (Hlt & dd' & Hg & Hcn).
        split; [exact Hlt|]. exists dd'. split; [exact Hg|]. unfold result_ptr in Hd. rewrite Er in Hd. rewrite Hg in Hd. injection Hd as <-.
        rewrite (grow_noop fl); [exact Hcn|]. now destruct Hcn as (_ & _ & _ & _ & Hl & _).
      - destruct Hstep as (dd & o & n & dd' & Hg & Hpw & ->). rewrite app_nil_r.
        assert (Hc : covers (seqs dd) s) by (exact (Hcov ops p s freqs total [] b dd eq_refl H Hg)).
        assert (Hfd : full_dict dd) by (apply (proj1 (Forall_forall _ _) F dd); now apply (hget_in fl _ _ _) in Hg).
        assert (dd' = dd) by (now apply (parse_known fl dd s freqs total [] o n)). subst dd'.
        assert (E : forall q, hget fl (hput fl b p dd) q = hget fl b q).
        { intro q. unfold hget, hput, vget. cbn [bheap]. destruct (Nat.eq_dec p q) as [<-|Hq].
          - rewrite upd_same by (now apply (hget_in fl _ _ _) in Hg). apply vget_ok in Hg. now rewrite Hg.
          - now rewrite upd_other. }
        split; [apply forall_upd; [exact F|]; apply (proj1 (Forall_forall _ _) F dd); now apply (hget_in fl _ _ _) in Hg|].
        split; [unfold hput; cbn [bptr bheap]; now rewrite upd_length|].
        intros q st Er. destruct (O q st Er) as (Hlt & d3 & Hg3 & Hcn). split; [exact Hlt|]. exists d3. now rewrite E.
    Qed.

    (** What result_freqs gives. *)
    Lemma result_counted ops w b fs b' : whist fl b0 (phase_of b0) ops w b -> safe_ops fl ws0 b0 N ops -> shared_covered b0 ops ->
      result_freqs fl b [] = Ok (fs, b') ->
      exists d, hget fl b (result_ptr fl b) = Ok d /\ counted w (accepted fl ops) (seqs d) fs.
    Proof.
      intros Hw Hok Hcov Hr. destruct (own_hist ops w b Hw Hok Hcov) as [F [_ O]].
      destruct (window_update b0 ops w b Hw) as (pre & U & HW). destruct w as [[i j] ph]. destruct HW as [Eph HW].
      destruct (safe_hist fl L ws0 a0 b0 B Size N d00 st00 I0 S0 Hcl Hwl HB HSz Ha ops pre b U Hok) as (I & Hbs & d & d0 & st0 & log & S).
      pose proof (sinv_counted ph _ _ _ _ _ _ _ _ _ S) as Hcn. pose proof (sv_get _ _ _ _ _ _ _ _ _ _ _ S) as Sg.
      pose proof (fi_len _ _ _ _ _ (sv_full _ _ _ _ _ _ _ _ _ _ _ S)) as Hl.
      unfold phase_of in Eph. unfold result_freqs, result_ptr in *. destruct (bres b) as [| |p st] eqn:Er.
      1,2: (rewrite Sg in Hr; cbn [bind] in Hr; rewrite (grow_noop fl) in Hr by exact Hl; injection Hr as <- _; exists d; split; [exact Sg|]; destruct HW as [-> ->]; [congruence|exact Hcn]).
      destruct (O p st eq_refl) as (_ & dd & Hg & Hcd). rewrite Hg in Hr. cbn [bind] in Hr.
      rewrite (grow_noop fl) in Hr by (now destruct Hcd as (_ & _ & _ & _ & Hx & _)). injection Hr as <- _. now exists dd.
    Qed.
  End Hist.
End Own.
