(** When the builder rebuilds its dictionary. *)
From Verif Require Import ExpandProofs Base Spec FloatOps FloatLaws FloatRebuild OrderProofs DictProofs ModelDict Maps ModelStat ModelBuilder
  SpecStat SpecBuilder StatProofs ReduceProofs RunProofs BuilderProofs.

Section R.
  Context (fl : fops) (L : flaws fl) (thr : Z) (Rl : rlaws fl L thr).
  Local Notation rpp := (rp fl L thr Rl).
  Local Notation rmp := (rm fl L thr Rl).

  (** ** The minimum probability stays in a closed set *)
  Section Q.
    Context (Q : F fl -> Prop) (HQ : mclosed fl L Q).
    Lemma expand_out_q d T : (T <= maxcount)%Z -> forall items slots mp ws fs ws' fs' mp', Q mp ->
      Forall (fun it => forall f, first it = Some f -> (1 <= icount it <= T)%Z) items ->
      expand_out fl d (fofZ fl T) items slots mp ws fs = Ok (ws', fs', mp') -> Q mp'.
    Proof.
      intro HT. induction items as [|it items IH]; intros slots mp ws fs ws' fs' mp' Hq Hi H; cbn [expand_out] in H.
      - now injection H as <- <- <-.
      - destruct (fltb fl (score it) (fofZ fl 0)); [now injection H as <- <- <-|].
        destruct (Z.ltb (slots - 1) 0); [now injection H as <- <- <-|].
        apply bind_ok in H as (w & _ & H). inversion_clear Hi as [|? ? H1 H2].
        apply IH in H; [easy| |easy]. destruct (first it) as [f|]; [|easy]. specialize (H1 f eq_refl). now apply (mc_pair _ _ _ HQ).
    Qed.
    Lemma expand_q e d (st : sstat fl) slots ws fs mp T : env_ok fl e -> wf_dict d -> Q (minp st) ->
      (forall i j c, In ((i, j), c) (pairs st) -> (1 <= c)%Z) -> (all_pairs (pairs st) = T)%Z -> (T <= maxcount)%Z ->
      expand fl e d st slots = Ok (ws, fs, mp) -> Q mp.
    Proof.
      intros He Hwf Hq Hpos ET HT H. unfold expand in H. apply bind_ok in H as (its0 & Hw & H).
      destruct (expand_words_sound fl d st Hwf _ _ Hw) as [Hits _]. apply bind_ok in H as (se & _ & H).
      apply bind_ok in H as ([items kn] & Hp & H). apply bind_ok in H as (items' & Hs & H).
      apply (expand_pairs_sound fl e d) in Hp as (new & txts & -> & _ & _ & _ & Hfrom & _).
      apply (sort_items_perm fl) in Hs as [Hperm _]; [|easy]. pose proof (ok_pairs fl e He (pairs st)) as Hpp.
      assert (Ha : fsumZ fl (map snd (e_pairs e (pairs st))) = fofZ fl T).
      { unfold fsumZ. rewrite (fsumZ_exact fl L _ 0).
        - f_equal. rewrite <- ET. apply Permutation_sym in Hpp. now rewrite <- (all_pairs_perm _ _ Hpp).
        - lia.
        - apply Forall_forall. intros c Hc. apply in_map_iff in Hc as ([[i j] c'] & <- & Hc).
          apply (Permutation_in _ (Permutation_sym Hpp)) in Hc. apply Hpos in Hc. cbn. lia.
        - change (zsum (map snd (e_pairs e (pairs st)))) with (all_pairs (e_pairs e (pairs st))).
          rewrite <- (all_pairs_perm _ _ Hpp). lia. }
      rewrite Ha in H. apply expand_out_q in H; try easy. apply (Permutation_Forall Hperm). apply Forall_app. split.
      - eapply Forall_impl; [|exact Hits]. intros it (Hf & _) f Hff. congruence.
      - eapply Forall_impl; [|exact Hfrom]. intros it (f & sw & ew & Hf & Hin & _) f' _.
        apply (Permutation_in _ (Permutation_sym Hpp)) in Hin. rewrite <- ET. split; [now apply Hpos in Hin|].
        now apply (pair_le _ (f, second it)).
    Qed.
    Lemma reduce_out_q d pw : fcnt fl L pw -> (Z.of_nat (dsize d) <= maxcount)%Z ->
      forall items mp ws fs ws' fs' mp', Forall (fun it => (0 <= icount it < maxcount)%Z) items ->
      Q mp -> reduce_out fl d pw items mp ws fs = Ok (ws', fs', mp') -> Q mp'.
    Proof.
      intros Hpw H2. induction items as [|it items IH]; intros mp ws fs ws' fs' mp' Hc Hn H; cbn [reduce_out] in H.
      - now injection H as <- <- <-.
      - inversion_clear Hc as [|? ? Hit Hc'].
        apply bind_ok in H as (p & _ & H). apply bind_ok in H as (w & Hw & H).
        assert (H1 : 1 <= dsize d) by (apply vget_ok, nth_some_lt in Hw; unfold dsize; lia).
        apply IH in H; [easy|easy|]. destruct p; [|easy]. apply (mc_word _ _ _ HQ); try easy. lia.
    Qed.
    Lemma reduce_q e d (st : sstat fl) slots ws fs mp : env_ok fl e -> Q (minp st) -> (Z.of_nat (dsize d) <= maxcount)%Z ->
      (forall i, 0 <= freq fl st i < maxcount)%Z -> reduce fl e d st slots = Ok (ws, fs, mp) -> Q mp.
    Proof.
      intros He Hn H2 Hfr H. pose proof H as Hr. apply (reduce_sound fl L) in Hr as (ids & Hids & _ & Hfs & _); [|easy].
      unfold reduce in H. apply bind_ok in H as (items & _ & H).
      pose proof H as Hro. apply (reduce_out_sound fl) in Hro as (txts & _ & Efs & _). cbn [app] in Efs.
      assert (Hc : Forall (fun it => (0 <= icount it < maxcount)%Z) items).
      { apply Forall_forall. intros it Hit. apply (in_map icount) in Hit. rewrite <- Efs, Hfs in Hit.
        apply in_map_iff in Hit as (i & <- & _). apply Hfr. }
      apply reduce_out_q in H; try easy.
      - unfold fsumZ. apply (fsumZ_cnt fl L).
        + apply (cnt_ofZ fl L). unfold maxcount. lia.
        + apply Forall_forall. intros f Hf. apply in_map_iff in Hf as (it & <- & Hit).
          rewrite Forall_forall in Hc. apply Hc in Hit. lia.
      - apply (mc_inv _ _ _ HQ); [lia|easy].
    Qed.
  End Q.

  (** ** One accept *)
  Lemma rate_prob d (b : builder fl) prob best turns : update_rate fl d b = (prob, best, turns) ->
    prob = bprob b \/ prob = fmul fl (bprob b) (flit fl 8 10).
  Proof.
    unfold update_rate. destruct (fold_left _ _ _) as [sum len]. destruct (fltb fl _ (bbest b)); intros [= <- <- <-]; [now left|].
    destruct (Z.ltb 3 (bturns b + 1)); [now right|now left].
  Qed.
  Lemma accept_prob e b s b' : accept fl e b s = Ok b' -> bprob b' = bprob b \/ bprob b' = fmul fl (bprob b) (flit fl 8 10).
  Proof.
    intro H. unfold accept in H. apply bind_ok in H as (d & Hd & H). apply bind_ok in H as ([[[ids n] d1] st1] & Hp & H).
    set (b1 := mkBuilder _ _ _ _ _ _ _ _ _ _) in H. destruct (ready fl b1) eqn:Er; [|injection H as <-; now left].
    unfold update in H. rewrite Er in H. cbn [negb] in H. apply bind_ok in H as (d2 & Hd2 & H).
    destruct (update_rate fl d2 b1) as [[prob best] turns] eqn:Eu. apply rate_prob in Eu.
    apply bind_ok in H as ([[ws fs] mp] & Hx & H). apply bind_ok in H as ([d' st'] & Hm & H). injection H as <-. exact Eu.
  Qed.
  Lemma ofZ_inj a b : (0 <= a <= maxcount)%Z -> (0 <= b <= maxcount)%Z -> fofZ fl a = fofZ fl b -> a = b.
  Proof.
    intros Ha Hb E. destruct (Z.lt_trichotomy a b) as [H|[H|H]]; [exfalso|easy|exfalso].
    - apply (ofZ_lt fl L) in H; [|easy|easy]. rewrite E, (lt_irrefl fl L) in H. discriminate H.
    - apply (ofZ_lt fl L) in H; [|easy|easy]. rewrite E, (lt_irrefl fl L) in H. discriminate H.
  Qed.

  (** What an accept does, seen from the invariant. *)
  Lemma accept_view W0 xs B Size N e b s b' : env_ok fl e -> binv fl L W0 xs B Size b ->
    (kmax + N <= B <= 2 ^ 52)%Z -> (Z.of_nat (length s) <= N)%Z -> (N <= 2 ^ 40)%Z ->
    (Size + 2 * Z.of_nat (length s) <= 2 ^ 51)%Z -> accept fl e b s = Ok b' ->
    exists P P1 st1, (0 <= P <= kmax)%Z /\ power (bcur b) = fofZ fl P /\ (P <= P1 <= P + Z.of_nat (length s))%Z /\
      power st1 = fofZ fl P1 /\ minp st1 = minp (bcur b) /\
      let go := enough fl st1 (bprob b) || fltb fl (k_max_power fl) (power st1) in
      ((go = false /\ length (bheap b') = length (bheap b) /\ bcur b' = st1 /\ bpop b' = bpop b /\ bres b' = bres b /\ bprob b' = bprob b) \/
       (go = true /\ length (bheap b') = S (length (bheap b)) /\ power (bcur b') = fofZ fl 0 /\ chars (bcur b') = fofZ fl 0 /\
          bpop b' = negb (bpop b) /\ (bpop b = true -> bres b = RNull -> bres b' = RNull) /\
          forall Q, mclosed fl L Q -> Q (minp (bcur b)) -> Q (minp (bcur b')))).
  Proof.
    intros He I HB Hs HN HSz H. unfold kmax in HB.
    destruct (bi_cur _ _ _ _ _ _ _ I) as (d & P & Hd & HP & SI).
    apply (accept_cases fl) in H as (d0 & ids & n & d1 & st1 & Hd0 & Hp & H).
    rewrite Hd in Hd0. injection Hd0 as <-. destruct (hget_in fl _ _ _ Hd) as [Hin Hpl].
    assert (DI : dict_inv W0 xs d) by (exact (proj1 (Forall_forall _ _) (bi_heap _ _ _ _ _ _ _ I) d Hin)).
    destruct (stat_step fl L W0 xs B Size d (bcur b) P s ids n d1 st1 DI SI HP) as (P1 & HP1 & DI1 & SI1 & Hext & Hmp);
      try easy; try lia.
    pose proof (si_P _ _ _ _ _ _ _ _ _ SI) as HP0. unfold kmax in HP.
    exists P, P1, st1. split; [unfold kmax; lia|]. split; [exact (si_power _ _ _ _ _ _ _ _ _ SI)|]. split; [lia|].
    split; [exact (si_power _ _ _ _ _ _ _ _ _ SI1)|]. split; [exact Hmp|].
    change (enough fl st1 (bprob b) || fltb fl (k_max_power fl) (power st1)) with (ready fl (parsed fl b d1 st1)). cbv zeta.
    destruct H as [[Hr ->]|(Hr & ws & fs & mp & d' & st' & prob & best & turns & Hx & Hm & ->)]; rewrite Hr; [left|right].
    - unfold parsed. cbn [bheap bcur bpop bres bprob]. rewrite upd_length. easy.
    - cbn [bheap bcur bpop bres]. rewrite app_length, upd_length. cbn [length].
      destruct (mk_stat_ok fl ws mp (Some fs)) as (d2 & st2 & H' & _ & _ & _ & _ & _ & E3 & _ & _ & E6 & E7).
      rewrite Hm in H'. injection H' as <- <-. split; [easy|]. split; [lia|]. split; [easy|]. split; [easy|]. split; [easy|].
      split. { intros Hpop Hres. unfold next_res. now rewrite Hpop, Hres. }
      intros Q HQ Hq. rewrite E6. rewrite <- Hmp in Hq. pose proof DI1 as (Hwf & Hne & Hw).
      destruct (bpop b).
      + eapply (expand_q Q HQ); [exact He|exact Hwf|exact Hq| |reflexivity| |exact Hx].
        * intros i j c Hc. now apply SI1 in Hc.
        * pose proof (si_psum _ _ _ _ _ _ _ _ _ SI1). unfold maxcount. lia.
      + eapply (reduce_q Q HQ); [exact He|exact Hq| | |exact Hx].
        * pose proof (si_size _ _ _ _ _ _ _ _ _ SI1). unfold maxcount. lia.
        * intro i. rewrite freq_at0. pose proof (si_sf _ _ _ _ _ _ _ _ _ SI1 i). unfold maxcount. lia.
  Qed.

  Lemma go_false p m (st : sstat fl) n : rpp p -> rmp m -> minp st = m -> power st = fofZ fl n -> (0 <= n < thr)%Z ->
    enough fl st p || fltb fl (k_max_power fl) (power st) = false.
  Proof.
    intros Hp Hm E1 E2 Hn. unfold enough. rewrite E1, E2. rewrite (waits _ _ _ Rl p m n Hp Hm Hn). cbn [orb].
    pose proof (thr_pos _ _ _ Rl) as Ht. unfold k_max_power. destruct (fltb fl (fofZ fl 20000000) (fofZ fl n)) eqn:E; [|easy].
    apply (ofZ_lt fl L) in E; unfold maxcount; lia.
  Qed.

  (** ** Histories *)
  Definition symbols_fed (ops : list (bop fl)) : Z := Z.of_nat (length (concat (accepted fl ops))).
  Lemma symbols_fed_snoc ops op : symbols_fed (ops ++ [op]) = (symbols_fed ops + Z.of_nat (length (concat (op_accepted fl op))))%Z.
  Proof. unfold symbols_fed. rewrite (accepted_snoc fl), concat_app, app_length. lia. Qed.
  Lemma fed_processed ops : (0 <= symbols_fed ops <= processed fl ops)%Z.
  Proof.
    induction ops as [|op ops IH] using rev_ind; [unfold symbols_fed; cbn; lia|]. rewrite symbols_fed_snoc, (processed_snoc fl).
    destruct op as [e s| |p s freqs total]; cbn [op_accepted op_length concat]; rewrite ?app_nil_r; cbn [length]; lia.
  Qed.

  (** The state between calls: [n] rebuilds so far. *)
  Record calmly (b0 : builder fl) (ops : list (bop fl)) (b : builder fl) : Prop := {
    ca_prob : rpp (bprob b);
    ca_minp : rmp (minp (bcur b));
    ca_ready : ready fl b = false;
    ca_heap : (length (bheap b0) <= length (bheap b));
    ca_power : exists P, (0 <= P <= kmax)%Z /\ power (bcur b) = fofZ fl P /\
      (thr * Z.of_nat (length (bheap b) - length (bheap b0)) + P <= symbols_fed ops)%Z;
    ca_chars : exists C, (0 <= C <= symbols_fed ops)%Z /\ chars (bcur b) = fofZ fl C
  }.
  Definition rested (b : builder fl) : Prop :=
    rpp (bprob b) /\ rmp (minp (bcur b)) /\ power (bcur b) = fofZ fl 0 /\ chars (bcur b) = fofZ fl 0.
  Lemma rested_calm b : rested b -> calmly b [] b.
  Proof.
    intros (H1 & H2 & H3 & H4). pose proof (thr_pos _ _ _ Rl) as Ht. split; try easy.
    - unfold ready. apply (go_false _ (minp (bcur b)) _ 0); try easy. lia.
    - exists 0%Z. rewrite Nat.sub_diag. unfold kmax, symbols_fed. cbn. split; [lia|]. split; [easy|lia].
    - exists 0%Z. unfold symbols_fed. cbn. split; [lia|easy].
  Qed.

  Lemma parse_chars d (st : sstat fl) s ids n d' st' : stat_parse fl d st s [] = Ok (ids, n, d', st') ->
    chars st' = fadd fl (chars st) (fofZ fl (Z.of_nat (length s))).
  Proof.
    intro H. unfold stat_parse in H. apply bind_ok in H as ([[o m] d1] & Hp & H). apply bind_ok in H as (st2 & Hf & H).
    injection H as <- _ <- <-. cbn [chars]. apply (fold_inv fl) in Hf as (_ & _ & _ & _ & _ & _ & E). exact E.
  Qed.
  Lemma accept_chars e b s b' : accept fl e b s = Ok b' -> length (bheap b') = length (bheap b) ->
    chars (bcur b') = fadd fl (chars (bcur b)) (fofZ fl (Z.of_nat (length s))).
  Proof.
    intros H Hl. apply (accept_cases fl) in H as (d & ids & n & d1 & st1 & _ & Hp & [[_ ->]|(_ & ws & fs & mp & d' & st' & prob & best & turns & _ & _ & ->)]).
    - unfold parsed. cbn [bcur]. now apply parse_chars in Hp.
    - cbn [bheap] in Hl. rewrite app_length, upd_length in Hl. cbn in Hl. lia.
  Qed.
  Lemma freqs_same b fs b' : result_freqs fl b [] = Ok (fs, b') -> bprob b' = bprob b /\ minp (bcur b') = minp (bcur b) /\
    power (bcur b') = power (bcur b) /\ chars (bcur b') = chars (bcur b) /\ bheap b' = bheap b /\ bpop b' = bpop b /\
    (bres b = RNull <-> bres b' = RNull).
  Proof.
    intro H. unfold result_freqs in H. apply bind_ok in H as (d & _ & H).
    destruct (bres b) as [| |p st] eqn:E; injection H as _ <-; cbn [bprob bcur bheap bpop bres grow_freqs minp power chars]; rewrite ?E; repeat split; easy.
  Qed.

  Section Hist.
    Context (W0 : seq -> Prop) (B Size N : Z) (b0 : builder fl).
    Context (I0 : binv fl L W0 [] B Size b0) (HB : (kmax + N <= B <= 2 ^ 52)%Z) (HS : (Size <= 2 ^ 50)%Z).
    Definition fine (ops : list (bop fl)) : Prop := envs_ok fl ops /\ lengths_ok fl N ops /\ shared_known fl W0 ops.
    Lemma fine_snoc ops op : fine (ops ++ [op]) -> fine ops.
    Proof.
      intros (H1 & H2 & H3). split; [now apply envs_snoc in H1|]. split; [now apply lengths_snoc in H2|now apply shared_snoc in H3].
    Qed.
    Lemma fine_inv ops b : bhist fl b0 ops b -> fine ops -> binv fl L W0 (accepted fl ops) B (Size + 2 * processed fl ops) b.
    Proof. intros H (H1 & H2 & H3). now apply (hist_inv fl L W0 B Size N b0 I0 HB HS ops b H). Qed.
    Lemma fine_view ops b e s b' : bhist fl b0 ops b -> fine (ops ++ [BAccept e s]) -> accept fl e b s = Ok b' ->
      exists P P1 st1, (0 <= P <= kmax)%Z /\ power (bcur b) = fofZ fl P /\ (P <= P1 <= P + Z.of_nat (length s))%Z /\
      power st1 = fofZ fl P1 /\ minp st1 = minp (bcur b) /\
      let go := enough fl st1 (bprob b) || fltb fl (k_max_power fl) (power st1) in
      ((go = false /\ length (bheap b') = length (bheap b) /\ bcur b' = st1 /\ bpop b' = bpop b /\ bres b' = bres b /\ bprob b' = bprob b) \/
       (go = true /\ length (bheap b') = S (length (bheap b)) /\ power (bcur b') = fofZ fl 0 /\ chars (bcur b') = fofZ fl 0 /\
          bpop b' = negb (bpop b) /\ (bpop b = true -> bres b = RNull -> bres b' = RNull) /\
          forall Q, mclosed fl L Q -> Q (minp (bcur b)) -> Q (minp (bcur b')))).
    Proof.
      intros H Hf Ha. pose proof Hf as (He & Hl & _). pose proof Hl as ((HN & HN') & _). destruct (lengths_snoc _ _ _ _ Hl) as (_ & Hp & Hn).
      cbn [op_accepted op_length] in *. inversion_clear Hn as [|? ? Hs _]. pose proof (processed_nonneg fl ops) as Hpn.
      apply (accept_view W0 (accepted fl ops) B (Size + 2 * processed fl ops) N e b s b'); try easy; try lia.
      - apply (He e s), in_or_app. right. now left.
      - apply fine_inv; [easy|now apply fine_snoc in Hf].
    Qed.

    Lemma calm_hist : rested b0 -> forall ops b, bhist fl b0 ops b -> fine ops -> calmly b0 ops b.
    Proof.
      intro R0. induction 1 as [|ops b op b' H IH Hs]; intro Hf; [now apply rested_calm|].
      specialize (IH (fine_snoc _ _ Hf)). pose proof Hf as (_ & Hl & _). destruct (lengths_snoc _ _ _ _ Hl) as (_ & Hpr & _).
      pose proof (symbols_fed_snoc ops op) as ES. pose proof (fed_processed ops) as Hfp. pose proof (thr_pos _ _ _ Rl) as Ht.
      destruct op as [e s| |p s freqs total]; cbn [bstep op_accepted op_length concat] in *.
      - rewrite app_nil_r in ES. pose proof (accept_prob _ _ _ _ Hs) as Hpb.
        assert (Hpb' : rpp (bprob b')).
        { destruct Hpb as [->| ->]; [|apply (rp_step _ _ _ Rl)]; exact (ca_prob _ _ _ IH). }
        destruct (ca_power _ _ _ IH) as (P0 & HP0 & EP0 & Hle). destruct (ca_chars _ _ _ IH) as (C0 & HC0 & EC0). pose proof (ca_heap _ _ _ IH) as Hh.
        destruct (fine_view ops b e s b' H Hf Hs) as (P & P1 & st1 & HP & EP & HP1 & EP1 & Em & [(Hg & Hlen & Ec & _ & _ & Ep)|(Hg & Hlen & Ew & Ech & _ & _ & HQ)]).
        all: assert (P0 = P) by (apply ofZ_inj; [unfold maxcount, kmax in *; lia|unfold maxcount, kmax in *; lia|congruence]); subst P0.
        + assert (Hr : ready fl b' = false) by (unfold ready; now rewrite Ec, Ep).
          split; try easy.
          * rewrite Ec, Em. exact (ca_minp _ _ _ IH).
          * lia.
          * exists P1. rewrite Hlen, Ec. split; [|split; [easy|lia]]. split; [lia|].
            apply (not_ready fl L b' P1 Hr); [now rewrite Ec|]. unfold maxcount, kmax in *. lia.
          * rewrite (accept_chars _ _ _ _ Hs Hlen), EC0. exists (C0 + Z.of_nat (length s))%Z. split; [lia|].
            apply (ofZ_add fl L); unfold maxcount; lia.
        + assert (Hth : (thr <= P1)%Z).
          { destruct (Z.le_gt_cases thr P1) as [|Hlt]; [easy|]. exfalso.
            rewrite (go_false (bprob b) (minp (bcur b)) st1 P1 (ca_prob _ _ _ IH) (ca_minp _ _ _ IH) Em EP1) in Hg; [discriminate Hg|lia]. }
          split; try easy.
          * apply HQ; [exact (rm_closed _ _ _ Rl)|exact (ca_minp _ _ _ IH)].
          * unfold ready. apply (go_false _ (minp (bcur b')) _ 0); try easy; [|lia]. apply HQ; [exact (rm_closed _ _ _ Rl)|exact (ca_minp _ _ _ IH)].
          * lia.
          * exists 0%Z. split; [unfold kmax; lia|]. split; [easy|]. rewrite Hlen.
            replace (Z.of_nat (S (length (bheap b)) - length (bheap b0))) with (Z.of_nat (length (bheap b) - length (bheap b0)) + 1)%Z by lia. lia.
          * exists 0%Z. split; [lia|easy].
      - destruct Hs as (fs & Hs). apply freqs_same in Hs as (E1 & E2 & E3 & E4 & E5 & _). rewrite Z.add_0_r in ES. destruct IH as [A1 A2 A3 A4 A5 A6].
        split; rewrite ?E1, ?E2, ?E3, ?E4, ?E5, ?ES; try easy. unfold ready, enough in *. now rewrite E1, E2, E3.
      - destruct Hs as (d & o & n & d' & _ & _ & ->). rewrite Z.add_0_r in ES. destruct IH as [A1 A2 A3 A4 A5 A6].
        split; unfold hput; cbn [bprob bcur bheap]; rewrite ?upd_length, ?ES; easy.
    Qed.

    (** Loaded with -1: every accept rebuilds. *)
    Definition eager (b : builder fl) : Prop := rpp (bprob b) /\ minp (bcur b) = fofZ fl (-1).
    Lemma eager_updates ops b e s b' : bhist fl b0 ops b -> fine (ops ++ [BAccept e s]) -> eager b -> accept fl e b s = Ok b' ->
      updated fl b b' /\ eager b' /\ bpop b' = negb (bpop b).
    Proof.
      intros H Hf [H1 H2] Ha. pose proof (accept_prob _ _ _ _ Ha) as Hpb.
      assert (Hpb' : rpp (bprob b')) by (destruct Hpb as [->| ->]; [|apply (rp_step _ _ _ Rl)]; exact H1).
      pose proof Hf as (_ & Hl & _). pose proof Hl as ((HN & HN') & _). destruct (lengths_snoc _ _ _ _ Hl) as (_ & Hp & Hn).
      cbn [op_accepted op_length] in *. inversion_clear Hn as [|? ? Hs _].
      destruct (fine_view ops b e s b' H Hf Ha) as (P & P1 & st1 & HP & EP & HP1 & EP1 & Em & [(Hg & _)|(_ & Hlen & _ & _ & Hpop & _ & HQ)]).
      - exfalso. unfold enough in Hg. rewrite Em, EP1, H2 in Hg.
        rewrite (ever _ _ _ Rl (bprob b) P1 H1) in Hg; [discriminate Hg|]. unfold maxcount, kmax in *. lia.
      - split; [unfold updated; lia|]. split; [|easy]. split; [exact Hpb'|]. symmetry. apply (HQ (eq (fofZ fl (-1))) (neg_closed _ _ _ Rl)). now symmetry.
    Qed.
    Lemma eager_hist : eager b0 -> forall ops b, bhist fl b0 ops b -> fine ops -> eager b.
    Proof.
      intro R0. induction 1 as [|ops b op b' H IH Hs]; intro Hf; [easy|]. specialize (IH (fine_snoc _ _ Hf)).
      destruct op as [e s| |p s freqs total]; cbn [bstep] in *.
      - now apply (eager_updates ops b e s b').
      - destruct Hs as (fs & Hs). apply freqs_same in Hs as (E1 & E2 & _). destruct IH as [A1 A2]. split; congruence.
      - destruct Hs as (d & o & n & d' & _ & _ & ->). exact IH.
    Qed.

    (** ** How long words can be *)
    Definition bounded_by (k : nat) (d : dict) : Prop := forall w, In w (seqs d) -> length w <= 2 ^ k.
    Lemma bounded_parse k d d' s fr tot o n : wf_dict d -> bounded_by k d -> parse_weighted fl d s fr tot [] = Ok (o, n, d') -> bounded_by k d'.
    Proof.
      intros Hwf Hb Hp w Hw. destruct (parse_new _ _ _ _ _ _ _ _ _ Hwf Hp) as (_ & _ & Hnew & _).
      destruct (Hnew w Hw) as [Hin|(c & _ & ->)]; [now apply Hb|]. cbn [length]. pose proof (Nat.pow_nonzero 2 k). lia.
    Qed.
    Record short (n : nat) (b : builder fl) : Prop := {
      sh_pop : bpop b = Nat.even n;
      sh_words : Forall (bounded_by (Nat.div2 (S n))) (bheap b)
    }.
    Lemma div2_mono n : Nat.div2 (S n) <= Nat.div2 (S (S n)).
    Proof. cbn [Nat.div2]. destruct n as [|n]; [lia|]. assert (Nat.div2 n <= Nat.div2 (S n) <= S (Nat.div2 n)); [|lia].
      clear. rewrite !Nat.div2_div. split; [apply Nat.div_le_mono; lia|]. replace (S (n / 2)) with ((n + 1 * 2) / 2) by (rewrite Nat.div_add; lia). apply Nat.div_le_mono; lia. Qed.
    Lemma bounded_mono k k' d : k <= k' -> bounded_by k d -> bounded_by k' d.
    Proof. intros Hk H w Hw. apply H in Hw. pose proof (Nat.pow_le_mono_r 2 k k'). lia. Qed.
    Lemma short_accept n ops b e s b' : bhist fl b0 ops b -> fine (ops ++ [BAccept e s]) -> short n b -> accept fl e b s = Ok b' ->
      short (if is_updated fl b b' then S n else n) b'.
    Proof.
      intros H Hf [H1 H2] Ha. pose proof (fine_inv ops b H (fine_snoc _ _ Hf)) as I. pose proof Hf as (He & _).
      assert (He' : env_ok fl e) by (apply (He e s), in_or_app; right; now left).
      apply (accept_cases fl) in Ha as (d & ids & m & d1 & st1 & Hd & Hp & Hc).
      destruct (hget_in fl _ _ _ Hd) as [Hin Hpl]. pose proof (proj1 (Forall_forall _ _) (bi_heap _ _ _ _ _ _ _ I) d Hin) as (Hwf & _ & _).
      pose proof (proj1 (Forall_forall _ _) H2 d Hin) as Hbd.
      pose proof Hp as Hps. unfold stat_parse in Hps. apply bind_ok in Hps as ([[o q] d2] & Hpw & Hps). apply bind_ok in Hps as (st2 & _ & Hps).
      injection Hps as _ _ -> _.
      pose proof (bounded_parse _ _ _ _ _ _ _ _ Hwf Hbd Hpw) as Hb1. destruct (parse_new _ _ _ _ _ _ _ _ _ Hwf Hpw) as (Hwf1 & _).
      assert (Hh : Forall (bounded_by (Nat.div2 (S n))) (upd (bheap b) (bptr b) d1)) by (now apply forall_upd).
      destruct Hc as [[_ ->]|(_ & ws & fs & mp & d' & st' & prob & best & turns & Hx & Hm & ->)].
      - assert (E : is_updated fl b (parsed fl b d1 st1) = false) by (unfold is_updated, parsed; cbn [bheap]; rewrite upd_length; apply Nat.ltb_irrefl).
        rewrite E. now split.
      - set (b' := mkBuilder _ _ _ _ _ _ _ _ _ _).
        assert (E : is_updated fl b b' = true) by (unfold is_updated, b'; cbn [bheap]; rewrite app_length, upd_length; cbn [length]; apply Nat.ltb_lt; lia).
        rewrite E. split; unfold b'; cbn [bpop bheap].
        + now rewrite H1, Nat.even_succ, <- Nat.negb_even.
        + apply Forall_app. split.
          { eapply Forall_impl; [|exact Hh]. intros x. apply bounded_mono. apply div2_mono. }
          constructor; [|constructor]. intros w Hw.
          destruct (mk_stat_ok fl ws mp (Some fs)) as (d3 & st3 & H' & _ & Hs & _). rewrite Hm in H'. injection H' as <- <-.
          rewrite Hs in Hw. apply (Permutation_in _ (isort_perm ws)) in Hw.
          destruct (bpop b) eqn:Epop.
          * destruct (expand_sound fl e d1 st1 _ ws fs mp He' Hwf1 Hx) as (Hk & _).
            symmetry in H1. apply Nat.even_spec in H1 as [m' ->].
            replace (Nat.div2 (S (S (2 * m')))) with (S m') by (cbn [Nat.div2]; now rewrite Nat.div2_double).
            replace (Nat.div2 (S (2 * m'))) with m' in * by (now rewrite Nat.div2_succ_double).
            cbn [Nat.pow]. destruct (proj1 (Forall_forall _ _) Hk w Hw) as [Hd'|(i & j & c & a & b2 & _ & Ha & Hb & ->)].
            -- apply Hb1 in Hd'. lia.
            -- rewrite app_length. apply nth_error_In in Ha, Hb. apply Hb1 in Ha, Hb. lia.
          * destruct (reduce_sound fl L e d1 st1 _ ws fs mp He' Hx) as (ids' & Hids & _).
            apply (words_in _ _ _ _ Hids) in Hw. apply Hb1 in Hw. pose proof (Nat.pow_le_mono_r 2 _ _ ltac:(lia) (div2_mono n)). lia.
    Qed.
    Lemma short_other n ops b op b' : bhist fl b0 ops b -> fine ops -> short n b -> (forall e s, op <> BAccept e s) -> bstep fl b op b' -> short n b'.
    Proof.
      intros H Hf [H1 H2] Ho Hs. destruct op as [e s| |p s freqs total]; cbn [bstep] in *; [now elim (Ho e s)| |].
      - destruct Hs as (fs & Hs). apply freqs_same in Hs as (_ & _ & _ & _ & E5 & E6 & _). split; congruence.
      - destruct Hs as (d & o & m & d' & Hd & Hp & ->). split; [exact H1|]. unfold hput. cbn [bheap].
        destruct (hget_in fl _ _ _ Hd) as [Hin _]. apply forall_upd; [exact H2|].
        pose proof (fine_inv ops b H Hf) as I. pose proof (proj1 (Forall_forall _ _) (bi_heap _ _ _ _ _ _ _ I) d Hin) as (Hwf & _ & _).
        apply (bounded_parse _ d _ s freqs total o m); [easy| |easy]. exact (proj1 (Forall_forall _ _) H2 d Hin).
    Qed.
    (** For a builder that starts by expanding, with words of one symbol. *)
    Lemma short_hist : short 0 b0 -> forall ops b, bhist fl b0 ops b -> fine ops ->
      length (bheap b0) <= length (bheap b) /\ short (length (bheap b) - length (bheap b0)) b.
    Proof.
      intro R0. induction 1 as [|ops b op b' H IH Hs]; intro Hf; [rewrite Nat.sub_diag; now split|].
      destruct (IH (fine_snoc _ _ Hf)) as [IH1 IH2].
      destruct op as [e s| |p s freqs total].
      - cbn [bstep] in Hs. pose proof (short_accept _ ops b e s b' H Hf IH2 Hs) as Sh.
        destruct (fine_view ops b e s b' H Hf Hs) as (P & P1 & st1 & _ & _ & _ & _ & _ & [(_ & Hlen & _)|(_ & Hlen & _)]); unfold is_updated in Sh; rewrite Hlen in Sh |- *.
        + rewrite Nat.ltb_irrefl in Sh. now split.
        + replace (length (bheap b) <? S (length (bheap b))) with true in Sh by (symmetry; apply Nat.ltb_lt; lia). split; [lia|].
          replace (S (length (bheap b)) - length (bheap b0)) with (S (length (bheap b) - length (bheap b0))) by lia. exact Sh.
      - assert (Sh : short (length (bheap b) - length (bheap b0)) b') by (refine (short_other _ ops b _ b' H (fine_snoc _ _ Hf) IH2 _ Hs); discriminate). destruct Hs as (fs & Hs).
        apply freqs_same in Hs as (_ & _ & _ & _ & E5 & _). rewrite E5. now split.
      - assert (Sh : short (length (bheap b) - length (bheap b0)) b') by (refine (short_other _ ops b _ b' H (fine_snoc _ _ Hf) IH2 _ Hs); discriminate). destruct Hs as (d & o & n & d' & _ & _ & ->).
        unfold hput in *. cbn [bheap] in *. rewrite upd_length. now split.
    Qed.
    (** No reduction, no result. *)
    Lemma null_hist : short 0 b0 -> bres b0 = RNull -> forall ops b, bhist fl b0 ops b -> fine ops ->
      length (bheap b) - length (bheap b0) < 2 -> bres b = RNull.
    Proof.
      intros R0 N0. induction 1 as [|ops b op b' H IH Hs]; intros Hf Hlt; [easy|].
      pose proof (fine_snoc _ _ Hf) as Hf'. destruct (short_hist R0 ops b H Hf') as [S1 S2].
      destruct op as [e s| |p s freqs total]; cbn [bstep] in Hs.
      - destruct (fine_view ops b e s b' H Hf Hs) as (P & P1 & st1 & _ & _ & _ & _ & _ & [(_ & Hlen & _ & _ & Er & _)|(_ & Hlen & _ & _ & _ & Hr & _)]).
        + rewrite Er. apply IH; [easy|lia].
        + apply Hr; [|apply IH; [easy|lia]]. rewrite (sh_pop _ _ S2).
          replace (length (bheap b) - length (bheap b0)) with 0 by lia. easy.
      - destruct Hs as (fs & Hs). apply freqs_same in Hs as (_ & _ & _ & _ & E5 & _ & E7). apply E7. apply IH; [easy|]. now rewrite <- E5.
      - destruct Hs as (d & o & n & d' & _ & _ & ->). unfold hput in *. cbn [bres bheap] in *. rewrite upd_length in Hlt. now apply IH.
    Qed.

    (** Accepting nothing. *)
    Lemma accept_nothing ops b e : rested b0 -> bhist fl b0 ops b -> fine ops -> accept fl e b [] = Ok b.
    Proof.
      intros R0 H Hf. pose proof (calm_hist R0 ops b H Hf) as C. pose proof (fine_inv ops b H Hf) as I.
      destruct (bi_cur _ _ _ _ _ _ _ I) as (d & P & Hd & _). unfold accept, cur_dict. rewrite Hd. cbn [bind].
      destruct (ca_chars _ _ _ C) as (Cn & HC & EC). pose proof Hf as (_ & (_ & _ & Hp) & _). pose proof (fed_processed ops) as Hfp.
      unfold stat_parse, parse_weighted, weighted_parse. cbn [length repeat dp_loop bind snd fst backtrack].
      destruct (bcur b) as [sf pf pw ip prs mp ch] eqn:Eb. cbn [bind vget nth_error app length foldM sfreqs pfreqs power ipower pairs minp chars count_pairs].
      cbn [chars] in EC. subst ch. change (Z.of_nat 0) with 0%Z. rewrite (ofZ_add fl L) by (unfold maxcount; lia). rewrite Z.add_0_r.
      assert (Eu : upd (bheap b) (bptr b) d = bheap b).
      { apply vget_ok in Hd. clear -Hd. revert Hd. generalize (bptr b). induction (bheap b) as [|x l IHl]; intros [|p] Hp; try discriminate; cbn in *.
        - congruence.
        - f_equal. now apply IHl. }
      rewrite Eu. rewrite <- Eb. replace (mkBuilder _ _ _ _ _ _ _ _ _ _) with b by (destruct b; easy). now rewrite (ca_ready _ _ _ C).
    Qed.
  End Hist.
End R.
