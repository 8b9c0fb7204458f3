(** ScheduleProofs: the periods between rebuilds. *)
From Verif Require Import ExpandProofs Base Spec FloatOps FloatLaws FloatRebuild FloatSchedule OrderProofs DictProofs GreedyProofs WeightedProofs ModelDict Maps ModelStat ModelBuilder
  SpecStat SpecBuilder StatProofs ReduceProofs RunProofs BuilderProofs RebuildProofs StreamProofs PropsStreamLemmas ModelCoder ModelStream SpecStream SpecSchedule.

Section S.
  Context (fl : fops).

  (** ** The rate *)
  Lemma fold_pair {X A B} (g : A -> X -> A) (h : B -> X -> B) : forall l a b,
    fold_left (fun c x => (g (fst c) x, h (snd c) x)) l (a, b) = (fold_left g l a, fold_left h l b).
  Proof. induction l as [|x l IH]; intros a b; [easy|]. cbn [fold_left fst snd]. apply IH. Qed.
  Lemma fold_map {X Y A} (f : X -> Y) (g : A -> Y -> A) : forall l a,
    fold_left (fun c x => g c (f x)) l a = fold_left g (map f l) a.
  Proof. induction l as [|x l IH]; intro a; [easy|]. cbn [fold_left map]. apply IH. Qed.
  Definition word_or (ws : list seq) (i : nat) : seq := match nth_error ws i with Some w => w | None => [] end.
  Lemma combine_map (ws : list seq) (f : nat -> Z) :
    map (fun i => (word_or ws i, f i)) (List.seq 0 (length ws)) = combine ws (map f (List.seq 0 (length ws))).
  Proof.
    assert (G : forall vs k, (forall i, nth_error vs i = nth_error ws (k + i)) ->
      map (fun i => (word_or ws i, f i)) (List.seq k (length vs)) = combine vs (map f (List.seq k (length vs)))).
    { induction vs as [|v vs IH]; intros k Hk; [easy|]. cbn [length List.seq map combine]. f_equal.
      - f_equal. unfold word_or. specialize (Hk 0). rewrite Nat.add_0_r in Hk. now rewrite <- Hk.
      - apply IH. intro i. specialize (Hk (S i)). cbn in Hk. rewrite Hk. f_equal. lia. }
    apply (G ws 0). easy.
  Qed.
  Definition rate_of (d : dict) (st : sstat fl) : F fl :=
    rate fl (seqs d) (map (freq fl st) (List.seq 0 (dsize d))) (power st).
  Lemma update_rate_spec d (b : builder fl) : update_rate fl d b =
    if fltb fl (rate_of d (bcur b)) (bbest b) then (bprob b, rate_of d (bcur b), 0%Z)
    else (if Z.ltb 3 (bturns b + 1) then fmul fl (bprob b) (flit fl 8 10) else bprob b, bbest b, (bturns b + 1)%Z).
  Proof.
    unfold update_rate.
    rewrite (fold_pair (fun a i => if Z.ltb 0 (freq fl (bcur b) i) then fsub fl a (fdiv fl (xlogx fl (freq fl (bcur b) i)) (flog fl (fofZ fl 2))) else a)
      (fun a i => fadd fl a (fofZ fl ((Z.of_nat (length (word_or (seqs d) i)) * freq fl (bcur b) i) mod 2 ^ 64)%Z))).
    unfold rate_of, rate, dsize. rewrite <- (combine_map (seqs d) (freq fl (bcur b))).
    rewrite <- !fold_map. reflexivity.
  Qed.

  (** ** One call *)
  Lemma reads_rate e b s b' d0 ids n d st : accept fl e b s = Ok b' -> hget fl b (bptr b) = Ok d0 -> stat_parse fl d0 (bcur b) s [] = Ok (ids, n, d, st) ->
    (ready fl (parsed fl b d st) = false /\ is_updated fl b b' = false /\ b' = parsed fl b d st) \/
    (ready fl (parsed fl b d st) = true /\ is_updated fl b b' = true /\ (bprob b', bbest b', bturns b') = update_rate fl d (parsed fl b d st)).
  Proof.
    intros H Hd0 Hp. unfold accept in H. unfold cur_dict in H. rewrite Hd0 in H. cbn [bind] in H. rewrite Hp in H. cbn [bind] in H.
    fold (parsed fl b d st) in H. unfold is_updated.
    destruct (ready fl (parsed fl b d st)) eqn:Er.
    2:{ left. split; [easy|]. injection H as <-. split; [|easy]. unfold parsed. cbn [bheap]. rewrite upd_length. apply Nat.ltb_irrefl. }
    right. split; [easy|].
    unfold update in H. rewrite Er in H. cbn [negb] in H. apply bind_ok in H as (d2 & Hd2 & H).
    assert (d2 = d).
    { unfold cur_dict, hget, parsed in Hd2. cbn [bheap bptr] in Hd2. unfold hget in Hd0. apply vget_ok in Hd0, Hd2.
      rewrite upd_same in Hd2 by (now apply nth_some_lt in Hd0). now injection Hd2 as <-. }
    subst d2. destruct (update_rate fl d (parsed fl b d st)) as [[prob bst] turns].
    apply bind_ok in H as ([[ws fs] mp] & Hx & H). apply bind_ok in H as ([d' st'] & Hm & H). injection H as <-.
    split; [|easy]. unfold parsed. cbn [bheap]. rewrite app_length, upd_length. cbn [length]. apply Nat.ltb_lt. lia.
  Qed.
  Lemma s_reads e (z : stream fl) s z' ids d st : s_accept fl e z s = Ok z' -> reads fl z s ids d st ->
    (ready fl (parsed fl (zb z) d st) = false /\ rebuilds fl z z' = false /\ zb z' = parsed fl (zb z) d st) \/
    (ready fl (parsed fl (zb z) d st) = true /\ rebuilds fl z z' = true /\
       (bprob (zb z'), bbest (zb z'), bturns (zb z')) = update_rate fl d (parsed fl (zb z) d st)).
  Proof.
    intros H (d0 & n & Hd & Hp). unfold s_accept in H. destruct (encode (zcoder z) s) as [codes c]. cbn [fst] in Hp.
    apply bind_ok in H as (b' & Ha & E). injection E as <-. unfold rebuilds. cbn [zb]. exact (reads_rate _ _ _ _ _ _ _ _ _ Ha Hd Hp).
  Qed.
  (** The other calls. *)
  Lemma other_same (z : stream fl) op z' : sstep fl z op z' -> op_fed fl op = [] ->
    bprob (zb z') = bprob (zb z) /\ bbest (zb z') = bbest (zb z) /\ bturns (zb z') = bturns (zb z) /\
    minp (bcur (zb z')) = minp (bcur (zb z)) /\ power (bcur (zb z')) = power (bcur (zb z)).
  Proof.
    intros Hs Ho. destruct op as [e s|s|]; cbn [op_fed] in Ho; [discriminate| |]; cbn [sstep] in Hs.
    - destruct Hs as [ids Hs]. unfold s_parse in Hs. apply bind_ok in Hs as (da & _ & Hs). apply bind_ok in Hs as ([p d] & _ & Hs).
      apply bind_ok in Hs as ([[i n] d'] & _ & Hs). injection Hs as _ <-. unfold put_dict, hput. easy.
    - assert (K : forall fs b, result_freqs fl (zb z) (zfreqs z) = Ok (fs, b) -> bprob b = bprob (zb z) /\ bbest b = bbest (zb z) /\
        bturns b = bturns (zb z) /\ minp (bcur b) = minp (bcur (zb z)) /\ power (bcur b) = power (bcur (zb z))).
      { intros fs b Hf. unfold result_freqs in Hf. apply bind_ok in Hf as (d & _ & Hf). destruct (bres (zb z)); now injection Hf as _ <-. }
      unfold s_update in Hs. destruct (zdict z) as [q|]; [destruct (Nat.eqb q _); [injection Hs as <-; easy|]|];
        apply bind_ok in Hs as ([fs b] & Hf & Hs); injection Hs as <-; cbn [zb]; now apply K in Hf.
  Qed.
  Lemma timed_hist z0 ops ps n z : timed fl z0 ops ps n z -> shist fl z0 ops z.
  Proof. induction 1; [constructor|econstructor; [eassumption|cbn [sstep]; assumption]..]. Qed.

  (** ** The list of rates *)
  Lemma best_snoc rs r : best fl (rs ++ [r]) = if fltb fl r (best fl rs) then r else best fl rs.
  Proof. unfold best. now rewrite fold_left_app. Qed.
  Lemma improves_old rs r j : j < length rs -> improves fl (rs ++ [r]) j = improves fl rs j.
  Proof.
    intro H. unfold improves. rewrite nth_error_app1 by easy. destruct (nth_error rs j); [|easy].
    rewrite firstn_app. replace (j - length rs) with 0 by lia. cbn [firstn]. now rewrite app_nil_r.
  Qed.
  Lemma improves_new rs r : improves fl (rs ++ [r]) (length rs) = fltb fl r (best fl rs).
  Proof.
    unfold improves. rewrite nth_error_app2, Nat.sub_diag by easy. cbn [nth_error].
    now rewrite firstn_app, Nat.sub_diag, firstn_O, app_nil_r, firstn_all.
  Qed.
  Lemma stuck_old rs r j : j < length rs -> stuck fl (rs ++ [r]) j = stuck fl rs j.
  Proof.
    intro H. unfold stuck. destruct (Nat.leb_spec 3 j); [|easy]. cbn [andb forallb].
    now rewrite !improves_old by lia.
  Qed.
  Lemma cuts_snoc rs r : cuts fl (rs ++ [r]) = cuts fl rs + (if stuck fl (rs ++ [r]) (length rs) then 1 else 0).
  Proof.
    unfold cuts. rewrite app_length. cbn [length]. rewrite Nat.add_1_r, seq_S, filter_app, app_length. cbn [plus filter].
    f_equal; [|now destruct (stuck fl (rs ++ [r]) (length rs))].
    f_equal. apply filter_ext_in. intros j Hj. apply in_seq in Hj. apply stuck_old. lia.
  Qed.
  Lemma idle_nil : idle fl [] 0.
  Proof. split; [easy|]. split; [cbn; lia|now left]. Qed.
  Lemma idle_better rs r : fltb fl r (best fl rs) = true -> idle fl (rs ++ [r]) 0.
  Proof.
    intro H. split; [lia|]. split; [lia|]. right. rewrite app_length. cbn [length].
    replace (length rs + 1 - 0 - 1) with (length rs) by lia. now rewrite improves_new.
  Qed.
  Lemma idle_worse rs r k : fltb fl r (best fl rs) = false -> idle fl rs k -> idle fl (rs ++ [r]) (S k).
  Proof.
    intros H (H1 & H2 & H3). unfold idle. rewrite app_length. cbn [length]. split; [lia|]. split.
    - intros j Hj. destruct (Nat.eq_dec j (length rs)) as [->|Hn]; [now rewrite improves_new|].
      rewrite improves_old by lia. apply H2. lia.
    - destruct H3 as [->|H3]; [left; lia|right].
      assert (Hk : k < length rs).
      { destruct (le_lt_dec (length rs) k); [|easy]. exfalso. assert (k = length rs) by lia. subst k.
        destruct rs as [|a rs]; cbn in H3; [discriminate|]. rewrite Nat.sub_diag in H3. cbn [Nat.sub] in H3.
        rewrite (H2 0) in H3; [discriminate|cbn; lia]. }
      rewrite improves_old by lia. replace (length rs + 1 - S k - 1) with (length rs - k - 1) by lia. exact H3.
  Qed.
  Lemma stuck_new rs r k : idle fl rs k ->
    stuck fl (rs ++ [r]) (length rs) = negb (fltb fl r (best fl rs)) && Nat.leb 3 k.
  Proof.
    intros (H1 & H2 & H3). unfold stuck. cbn [forallb].
    destruct (Nat.leb_spec 3 (length rs)) as [Hl|Hl]; cbn [andb].
    - rewrite improves_new. rewrite !improves_old by lia.
      destruct (Nat.leb_spec 3 k) as [Hk|Hk].
      + rewrite !H2 by lia. cbn. destruct (fltb fl r (best fl rs)); easy.
      + destruct H3 as [->|H3]; [lia|].
        assert (E : improves fl rs (length rs - 3) = true \/ improves fl rs (length rs - 2) = true \/ improves fl rs (length rs - 1) = true).
        { assert (k = 0 \/ k = 1 \/ k = 2) as [->|[->| ->]] by lia.
          - right. right. now rewrite Nat.sub_0_r in H3.
          - right. left. now replace (length rs - 1 - 1) with (length rs - 2) in H3 by lia.
          - left. now replace (length rs - 2 - 1) with (length rs - 3) in H3 by lia. }
        rewrite andb_false_r. destruct E as [-> |[-> | ->]]; cbn; rewrite ?andb_false_r; reflexivity.
    - destruct (Nat.leb_spec 3 k); [lia|]. now rewrite andb_false_r.
  Qed.

  Definition fresh_schedule (b : builder fl) : Prop := bprob b = flit fl 1 10 /\ bbest b = fofZ fl 1 /\ bturns b = 0%Z.
  Lemma schedule z0 ops ps n z : fresh_schedule (zb z0) -> timed fl z0 ops ps n z ->
    let rs := map p_rate ps in
    bprob (zb z) = prob_after fl (cuts fl rs) /\ bbest (zb z) = best fl rs /\ exists k, bturns (zb z) = Z.of_nat k /\ idle fl rs k.
  Proof.
    intros (F1 & F2 & F3) H. induction H as [|ops ps n z e s z' ids d st H IH Ha Hr Hu|ops ps n z e s z' ids d st H IH Ha Hr Hu|ops ps n z op z' H IH Hs Ho].
    - cbn. split; [easy|]. split; [easy|]. exists 0. split; [easy|apply idle_nil].
    - destruct (s_reads _ _ _ _ _ _ _ Ha Hr) as [(_ & _ & ->)|(_ & Hx & _)]; [exact IH|congruence].
    - destruct (s_reads _ _ _ _ _ _ _ Ha Hr) as [(_ & Hx & _)|(_ & _ & E)]; [congruence|].
      rewrite update_rate_spec in E. unfold parsed in E. cbn [bcur bprob bbest bturns] in E. fold (rate_of d st).
      rewrite map_app. cbn [map p_rate]. destruct IH as (I1 & I2 & k & I3 & I4). cbn zeta.
      set (rs := map p_rate ps) in *. set (r := rate_of d st) in *.
      rewrite cuts_snoc, best_snoc, (stuck_new rs r k I4). rewrite I2 in E.
      destruct (fltb fl r (best fl rs)) eqn:Er; injection E as E1 E2 E3; cbn [negb andb].
      + rewrite E1, E2, E3, Nat.add_0_r. split; [easy|]. split; [easy|]. exists 0. split; [easy|now apply idle_better].
      + rewrite E1, E2, E3, I3. split.
        * destruct (Z.ltb_spec 3 (Z.of_nat k + 1)), (Nat.leb_spec 3 k); try lia.
          -- rewrite Nat.add_1_r. unfold prob_after. cbn [Nat.iter]. fold (prob_after fl (cuts fl rs)). now rewrite I1.
          -- now rewrite Nat.add_0_r.
        * split; [easy|]. exists (S k). split; [lia|now apply idle_worse].
    - destruct (other_same _ _ _ Hs Ho) as (-> & -> & -> & _). exact IH.
  Qed.
End S.

Section T.
  Context (fl : fops) (L : flaws fl).

  (** ** The words read since the last rebuild *)
  Lemma words_step W0 xs B Size N e b s b' ids n d0 d st (P : Z) : env_ok fl e -> binv fl L W0 xs B Size b ->
    (kmax + N <= B <= 2 ^ 52)%Z -> (Z.of_nat (length s) <= N)%Z -> (N <= 2 ^ 40)%Z -> (Size + 2 * Z.of_nat (length s) <= 2 ^ 51)%Z ->
    accept fl e b s = Ok b' -> hget fl b (bptr b) = Ok d0 -> stat_parse fl d0 (bcur b) s [] = Ok (ids, n, d, st) ->
    power (bcur b) = fofZ fl P -> (0 <= P <= kmax)%Z ->
    power st = fofZ fl (P + Z.of_nat (length ids)) /\ length ids <= length s /\ minp st = minp (bcur b) /\
    (is_updated fl b b' = true -> power (bcur b') = fofZ fl 0 /\ forall Q, mclosed fl L Q -> Q (minp (bcur b)) -> Q (minp (bcur b'))) /\
    (is_updated fl b b' = false -> (P + Z.of_nat (length ids) <= kmax)%Z).
  Proof.
    intros He I HB Hs HN HSz Ha Hd0 Hp HP Hr.
    assert (E : exists P', power (bcur b) = fofZ fl P' /\ fcnt fl L (power (bcur b)) /\ fcnt fl L (ipower (bcur b)) /\ (Z.of_nat (dsize d0) <= Size)%Z /\
      Forall (fun f => (0 <= f < maxcount)%Z) (pfreqs (bcur b)) /\ wf_dict d0 /\ no_empty d0).
    { destruct (bi_cur _ _ _ _ _ _ _ I) as (d1 & P' & Hd1 & HP' & SI). rewrite Hd0 in Hd1. injection Hd1 as <-. unfold kmax in *.
      destruct (hget_in fl _ _ _ Hd0) as [Hin _]. pose proof (proj1 (Forall_forall _ _) (bi_heap _ _ _ _ _ _ _ I) d0 Hin) as (Hwf & Hne & _).
      pose proof (si_P _ _ _ _ _ _ _ _ _ SI) as HP0. pose proof (si_size _ _ _ _ _ _ _ _ _ SI) as Hsz.
      destruct (stat_bounds fl L _ _ _ _ _ _ _ SI ltac:(lia) ltac:(lia)) as [Hpw Hpf].
      exists P'. split; [exact (si_power _ _ _ _ _ _ _ _ _ SI)|]. split; [exact Hpw|]. split; [exact (si_ip _ _ _ _ _ _ _ _ _ SI)|]. split; [lia|].
      split; [apply Hpf; unfold maxcount; lia|]. now split. }
    destruct E as (P' & _ & Hpw & Hip & Hsz & Hpf & Hwf & Hne).
    destruct (parse_inv fl L _ _ _ _ _ _ _ Hp Hwf Hne Hpf Hpw Hip) as (Hsp & _ & Hne' & _ & _ & _ & _ & _ & Hpw' & _ & _ & Hmp).
    { unfold maxlen. lia. } { unfold maxcount. lia. }
    assert (Hle : length ids <= length s) by (apply (spells_le (seqs d)); [exact Hne'|exact Hsp]).
    assert (Epw : power st = fofZ fl (P + Z.of_nat (length ids))).
    { rewrite Hpw', HP. apply (padd_ofZ fl L); unfold kmax, maxcount in *; lia. }
    split; [exact Epw|]. split; [exact Hle|]. split; [exact Hmp|]. split.
    - intro Hu. unfold is_updated in Hu. apply Nat.ltb_lt in Hu.
      destruct (accept_view fl L W0 xs B Size N e b s b' He I HB Hs HN HSz Ha) as (P2 & P1 & st1 & _ & _ & _ & _ & _ & [(_ & Hl & _)|(_ & Hl & Hp0 & _ & _ & _ & HQ)]); [lia|].
      split; [exact Hp0|exact HQ].
    - intro Hu. destruct (reads_rate fl _ _ _ _ _ _ _ _ _ Ha Hd0 Hp) as [(Hrd & _ & _)|(_ & Hx & _)]; [|congruence].
      apply (not_ready fl L (parsed fl b d st) _ Hrd); [exact Epw|]. unfold kmax, maxcount in *. lia.
  Qed.

  Section Sim.
    Context (ws0 : list seq) (syms0 : list Z) (z0 : stream fl) (B Size N T0 : Z).
    Context (Z0 : start_stream fl L ws0 syms0 z0 B Size T0) (HB : (B = kmax + N)%Z) (HSz : (Size <= 2 ^ 49)%Z).
    Context (P0 : power (bcur (zb z0)) = fofZ fl 0).

    Lemma s_words ops z e s z' ids d st (P : Z) : shist fl z0 ops z -> normal fl N (ops ++ [SAccept e s]) ->
      s_accept fl e z s = Ok z' -> reads fl z s ids d st -> power (bcur (zb z)) = fofZ fl P -> (0 <= P <= kmax)%Z ->
      power st = fofZ fl (P + Z.of_nat (length ids)) /\ length ids <= length s /\ minp st = minp (bcur (zb z)) /\
      (rebuilds fl z z' = true -> power (bcur (zb z')) = fofZ fl 0 /\ forall Q, mclosed fl L Q -> Q (minp (bcur (zb z))) -> Q (minp (bcur (zb z')))) /\
      (rebuilds fl z z' = false -> (P + Z.of_nat (length ids) <= kmax)%Z).
    Proof.
      intros Hs Hn Ha (d0 & n & Hd & Hp) HP Hr. pose proof (normal_snoc fl _ _ _ Hn) as Hn0.
      destruct (sim_exists fl L ws0 syms0 z0 B Size N T0 Z0 HB HSz ops z Hs Hn0) as [bops S].
      unfold s_accept in Ha. destruct (like_encode s _ _ (symbols_nodup fl L ws0 syms0 z0 B Size T0 Z0 ops) (sm_coder _ _ _ _ _ _ _ _ _ _ _ _ S)) as (c' & Ec & _).
      rewrite Ec in Ha, Hp. cbn [fst] in Hp. apply bind_ok in Ha as (b' & Ha & E). injection E as <-. unfold rebuilds. cbn [zb].
      pose proof Hn as (He & HN & Hfd & Hh & _). rewrite fed_snoc in Hfd. rewrite handled_snoc in Hh. cbn [op_fed op_handled] in *.
      apply Forall_app in Hfd as [_ Hfd]. inversion_clear Hfd as [|? ? Hls _].
      set (cs := enc (CoderProofs.adds (symbols_of fl syms0 ops) s) s) in *.
      assert (Hl : length cs = length s) by (unfold cs, enc; apply map_length).
      pose proof (sm_proc _ _ _ _ _ _ _ _ _ _ _ _ S) as Hpr. rewrite <- Hl.
      assert (HB' : (kmax + N <= B <= 2 ^ 52)%Z) by (unfold kmax in *; lia).
      refine (words_step _ _ _ _ N e (zb z) cs b' ids n d0 d st P _ (sm_binv _ _ _ _ _ _ _ _ _ _ _ _ S) HB' _ _ _ Ha Hd Hp HP Hr); try lia.
      apply (He e s), in_or_app. right. now left.
    Qed.
    Lemma timed_power ops ps n z : timed fl z0 ops ps n z -> normal fl N ops -> power (bcur (zb z)) = fofZ fl n /\ (0 <= n <= kmax)%Z.
    Proof.
      induction 1 as [|ops ps n z e s z' ids d st H IH Ha Hr Hu|ops ps n z e s z' ids d st H IH Ha Hr Hu|ops ps n z op z' H IH Hs Ho]; intro Hn.
      - split; [exact P0|unfold kmax; lia].
      - destruct (IH (normal_snoc fl _ _ _ Hn)) as [E R].
        destruct (s_words ops z e s z' ids d st n (timed_hist fl _ _ _ _ _ H) Hn Ha Hr E R) as (E1 & _ & _ & _ & E2). specialize (E2 Hu).
        destruct (s_reads fl _ _ _ _ _ _ _ Ha Hr) as [(_ & _ & ->)|(_ & Hx & _)]; [|congruence]. split; [exact E1|lia].
      - destruct (IH (normal_snoc fl _ _ _ Hn)) as [E R].
        destruct (s_words ops z e s z' ids d st n (timed_hist fl _ _ _ _ _ H) Hn Ha Hr E R) as (_ & _ & _ & E1 & _). destruct (E1 Hu) as [E2 _].
        split; [exact E2|unfold kmax; lia].
      - destruct (other_same fl _ _ _ Hs Ho) as (_ & _ & _ & _ & ->). exact (IH (normal_snoc fl _ _ _ Hn)).
    Qed.
    (** When the next rebuild comes. *)
    Lemma due ops ps n z e s z' ids d st : fresh_schedule fl (zb z0) -> timed fl z0 ops ps n z -> normal fl N (ops ++ [SAccept e s]) ->
      s_accept fl e z s = Ok z' -> reads fl z s ids d st ->
      (rebuilds fl z z' = true <->
        fltb fl (wait fl (prob_after fl (cuts fl (map p_rate ps))) (minp (bcur (zb z)))) (fofZ fl (n + Z.of_nat (length ids))) = true \/
        (20000000 < n + Z.of_nat (length ids))%Z).
    Proof.
      intros F H Hn Ha Hr. destruct (timed_power _ _ _ _ H (normal_snoc fl _ _ _ Hn)) as [E R].
      destruct (s_words ops z e s z' ids d st n (timed_hist fl _ _ _ _ _ H) Hn Ha Hr E R) as (E1 & Hl & E2 & _).
      destruct (schedule fl _ _ _ _ _ F H) as (Ep & _). rewrite <- Ep.
      assert (Er : ready fl (parsed fl (zb z) d st) = fltb fl (wait fl (bprob (zb z)) (minp (bcur (zb z)))) (fofZ fl (n + Z.of_nat (length ids))) ||
        fltb fl (fofZ fl 20000000) (fofZ fl (n + Z.of_nat (length ids)))).
      { unfold ready, enough, parsed, wait, k_max_power. cbn [bcur bprob]. now rewrite E1, E2. }
      assert (E3 : fltb fl (fofZ fl 20000000) (fofZ fl (n + Z.of_nat (length ids))) = true <-> (20000000 < n + Z.of_nat (length ids))%Z).
      { pose proof Hn as (_ & HN & Hfd & _). rewrite fed_snoc in Hfd. apply Forall_app in Hfd as [_ Hfd]. cbn [op_fed] in Hfd. inversion_clear Hfd as [|? ? Hls _].
        apply (ofZ_lt fl L); unfold kmax, maxcount in *; lia. }
      destruct (s_reads fl _ _ _ _ _ _ _ Ha Hr) as [(Hf & -> & _)|(Hf & -> & _)]; rewrite Er in Hf.
      - split; [discriminate|]. apply orb_false_iff in Hf as [F1 F2]. rewrite F1. rewrite <- E3, F2. now intros [?|?].
      - split; [intros _|easy]. apply orb_true_iff in Hf as [F1|F1]; [now left|right; now apply E3].
    Qed.

    (** ** Periods do not become shorter *)
    Context (thr : Z) (Rl : rlaws fl L thr) (W : wlaws fl L thr Rl).
    Local Notation rpp := (rp fl L thr Rl).
    Local Notation rmp := (rm fl L thr Rl).
    Lemma below_closed m0 : mclosed fl L (fun m => rmp m /\ fltb fl m0 m = false).
    Proof.
      assert (K1 : forall q m, rmp m -> fltb fl m0 m = false -> fltb fl m0 (fmin fl q m) = false).
      { intros q m Hm H. unfold fmin. destruct (fltb fl m q) eqn:E; [easy|].
        apply (le_trans fl L q m m0); [now apply (rm_num _ _ _ _ W)|exact E|exact H]. }
      assert (K2 : forall q m, rmp m -> fltb fl m0 m = false -> fltb fl m0 (fmin fl m q) = false).
      { intros q m Hm H. unfold fmin. destruct (fltb fl q m) eqn:E; [|easy].
        apply (le_trans fl L q m m0); [now apply (rm_num _ _ _ _ W)|now apply (lt_asym fl L)|exact H]. }
      destruct (rm_closed _ _ _ Rl) as [C1 C2 C3]. split.
      - intros n m Hn [H1 H2]. split; [now apply C1|now apply K1].
      - intros c t m Hc Ht [H1 H2]. split; [now apply C2|now apply K2].
      - intros c t n m Hc Ht Hn [H1 H2]. split; [now apply C3|now apply K1].
    Qed.
    Lemma wait_grows p m p' m' k : rpp p -> rmp m -> rmp m' -> p' = p \/ p' = fmul fl p (flit fl 8 10) -> fltb fl m m' = false ->
      fltb fl (wait fl p m) k = false -> fltb fl (wait fl p' m') k = false.
    Proof.
      intros Hp Hm Hm' Hpp Hmm Hk. unfold wait in *.
      assert (H1 : fltb fl (fdiv fl (fneg fl (flog fl p)) m') k = false).
      { refine (le_trans fl L _ _ _ _ Hk _); [now apply (wait_num _ _ _ _ W)|now apply (wait_minp _ _ _ _ W)]. }
      destruct Hpp as [->| ->]; [exact H1|].
      refine (le_trans fl L _ _ _ _ H1 _); [now apply (wait_num _ _ _ _ W)|now apply (wait_prob _ _ _ _ W)].
    Qed.
    Lemma longer w a b : (0 <= a <= maxcount)%Z -> (0 <= b <= maxcount)%Z -> fltb fl w (fofZ fl a) = false -> fltb fl w (fofZ fl b) = true -> (a < b)%Z.
    Proof.
      intros Ha Hb H1 H2. destruct (Z.lt_ge_cases a b) as [|Hge]; [easy|]. exfalso.
      assert (E : fltb fl (fofZ fl a) (fofZ fl b) = false).
      { destruct (fltb fl (fofZ fl a) (fofZ fl b)) eqn:E; [|easy]. apply (ofZ_lt fl L) in E; [lia|easy|easy]. }
      destruct (fnan fl (fofZ fl a)) eqn:En.
      - assert (E0 : fltb fl (fofZ fl a) (fofZ fl (a + 1)) = true \/ a = maxcount).
        { destruct (Z.eq_dec a maxcount); [now right|left]. apply (ofZ_lt fl L); lia. }
        destruct E0 as [E0| ->].
        + apply (lt_num fl L) in E0 as [E0 _]. congruence.
        + assert (E0 : fltb fl (fofZ fl 0) (fofZ fl maxcount) = true) by (apply (ofZ_lt fl L); unfold maxcount; lia).
          apply (lt_num fl L) in E0 as [_ E0]. congruence.
      - rewrite (le_trans fl L _ _ _ En E H1) in H2. discriminate.
    Qed.
    Record steady (ps : list (period fl)) (n : Z) (z : stream fl) : Prop := {
      sd_prob : rpp (bprob (zb z));
      sd_minp : rmp (minp (bcur (zb z)));
      sd_now : fltb fl (wait fl (bprob (zb z)) (minp (bcur (zb z)))) (fofZ fl n) = false;
      sd_past : forall e, In e ps -> (0 <= p_before e <= kmax)%Z /\ fltb fl (wait fl (bprob (zb z)) (minp (bcur (zb z)))) (fofZ fl (p_before e)) = false;
      sd_order : forall i j e1 e2, i < j -> nth_error ps i = Some e1 -> nth_error ps j = Some e2 -> (p_before e1 < p_total e2)%Z
    }.
    Lemma steady_hist ops ps n z : rpp (bprob (zb z0)) -> rmp (minp (bcur (zb z0))) -> timed fl z0 ops ps n z -> normal fl N ops -> steady ps n z.
    Proof.
      intros R1 R2. pose proof (thr_pos _ _ _ Rl) as Ht.
      induction 1 as [|ops ps n z e s z' ids d st H IH Ha Hr Hu|ops ps n z e s z' ids d st H IH Ha Hr Hu|ops ps n z op z' H IH Hs Ho]; intro Hn.
      - split; try easy; [apply (waits _ _ _ Rl); [easy|easy|lia]|]. intros i j e1 e2 _ E. now destruct i.
      - pose proof (normal_snoc fl _ _ _ Hn) as Hn0. destruct (IH Hn0) as [A1 A2 A3 A4 A5]. destruct (timed_power _ _ _ _ H Hn0) as [E R].
        destruct (s_words ops z e s z' ids d st n (timed_hist fl _ _ _ _ _ H) Hn Ha Hr E R) as (E1 & _ & E2 & _ & _).
        destruct (s_reads fl _ _ _ _ _ _ _ Ha Hr) as [(Hrd & _ & Eb)|(_ & Hx & _)]; [|congruence].
        unfold ready, enough in Hrd. apply orb_false_iff in Hrd as [Hrd _]. unfold parsed in Hrd. cbn [bcur bprob] in Hrd. rewrite E1, E2 in Hrd.
        assert (Ep : bprob (zb z') = bprob (zb z)) by (now rewrite Eb). assert (Em : minp (bcur (zb z')) = minp (bcur (zb z))) by (rewrite Eb; exact E2).
        split; rewrite ?Ep, ?Em; easy.
      - pose proof (normal_snoc fl _ _ _ Hn) as Hn0. destruct (IH Hn0) as [A1 A2 A3 A4 A5]. destruct (timed_power _ _ _ _ H Hn0) as [E R].
        destruct (s_words ops z e s z' ids d st n (timed_hist fl _ _ _ _ _ H) Hn Ha Hr E R) as (E1 & Hl & E2 & HQ & _).
        destruct (HQ Hu) as [_ HQ']. destruct (HQ' _ (below_closed (minp (bcur (zb z))))) as [A2' Hlt]; [split; [exact A2|apply (lt_irrefl fl L)]|].
        assert (Hpb : bprob (zb z') = bprob (zb z) \/ bprob (zb z') = fmul fl (bprob (zb z)) (flit fl 8 10)).
        { unfold s_accept in Ha. destruct (encode (zcoder z) s) as [cs c]. apply bind_ok in Ha as (b' & Ha & Eb). injection Eb as <-. cbn [zb]. exact (accept_prob fl _ _ _ _ Ha). }
        assert (A1' : rpp (bprob (zb z'))) by (destruct Hpb as [->| ->]; [exact A1|now apply (rp_step _ _ _ Rl)]).
        pose proof Hn as (_ & HN & Hfd & _). rewrite fed_snoc in Hfd. apply Forall_app in Hfd as [_ Hfd]. cbn [op_fed] in Hfd. inversion_clear Hfd as [|? ? Hls _].
        split; [exact A1'|exact A2'|apply (waits _ _ _ Rl); [easy|easy|lia]| |].
        + intros x Hx. apply in_app_or in Hx as [Hx|[<-|[]]]; cbn [p_before].
          * destruct (A4 x Hx) as [X1 X2]. split; [exact X1|]. now apply (wait_grows (bprob (zb z)) (minp (bcur (zb z)))).
          * split; [exact R|]. now apply (wait_grows (bprob (zb z)) (minp (bcur (zb z)))).
        + intros i j e1 e2 Hij H1 H2. destruct (Nat.lt_ge_cases j (length ps)) as [Hj|Hj].
          { rewrite nth_error_app1 in H1, H2 by lia. now apply (A5 i j). }
          assert (j = length ps). { apply nth_some_lt in H2. rewrite app_length in H2. cbn in H2. lia. } subst j.
          rewrite nth_error_app2, Nat.sub_diag in H2 by lia. cbn in H2. injection H2 as <-. cbn [p_total].
          rewrite nth_error_app1 in H1 by easy. apply nth_error_In in H1. destruct (A4 _ H1) as [B1 B2].
          destruct (s_reads fl _ _ _ _ _ _ _ Ha Hr) as [(_ & Hx & _)|(Hrd & _ & _)]; [congruence|].
          unfold ready, enough in Hrd. unfold parsed in Hrd. cbn [bcur bprob] in Hrd. rewrite E1, E2 in Hrd. unfold kmax in *.
          apply orb_true_iff in Hrd as [Hrd|Hrd].
          * refine (longer _ _ _ _ _ B2 Hrd); unfold maxcount; lia.
          * unfold k_max_power in Hrd. apply (ofZ_lt fl L) in Hrd; unfold maxcount; lia.
      - destruct (IH (normal_snoc fl _ _ _ Hn)) as [A1 A2 A3 A4 A5]. destruct (other_same fl _ _ _ Hs Ho) as (E1 & _ & _ & E2 & _).
        split; rewrite ?E1, ?E2; easy.
    Qed.
  End Sim.
End T.
