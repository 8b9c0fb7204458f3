(** RunProofs: the state of a statistics dictionary after a series of parses. *)
From Verif Require Import Base Spec FloatOps FloatLaws OrderProofs DictProofs GreedyProofs WeightedProofs
  ModelDict Maps ModelStat SpecStat StatProofs ExpandProofs ReduceProofs.

Section Run.
  Context (fl : fops) (L : flaws fl).

  Definition prior (init : option (list Z)) : list Z := match init with Some l => l | None => [] end.

  Lemma mk_stat_ok ws mp init : exists d st, mk_stat fl ws mp init = Ok (d, st) /\
    mk_dict ws = Ok d /\ seqs d = isort ws /\ links_ok d /\
    sfreqs st = repeat 0%Z (length ws) /\
    pfreqs st = pad (prior init) (length ws) /\
    power st = fofZ fl 0 /\ ipower st = match init with Some l => fsumZ fl l | None => fofZ fl 0 end /\
    pairs st = [] /\ minp st = mp /\ chars st = fofZ fl 0.
  Proof.
    destruct (mk_dict_spec ws) as (d & Hd & Hs & Hl). unfold mk_stat. rewrite Hd. cbn [bind].
    assert (Hn : dsize d = length ws) by (unfold dsize; rewrite Hs; apply isort_length).
    destruct init as [l|]; do 2 eexists; (split; [reflexivity|]); cbn [sfreqs pfreqs power ipower pairs minp chars];
      rewrite ?Hn; repeat (split; [easy|]).
    - easy.
    - unfold prior, pad. cbn [length app]. rewrite Nat.sub_0_r. easy.
  Qed.
  Lemma at0_repeat n j : at0 (repeat 0%Z n) j = 0%Z.
  Proof.
    unfold at0. revert j. induction n as [|n IH]; intros [|j]; cbn; easy.
  Qed.

  Lemma zsum_snoc l x : zsum (l ++ [x]) = (zsum l + x)%Z.
  Proof. rewrite zsum_app. cbn. lia. Qed.
  Lemma zsum_nonneg l : Forall (fun x => 0 <= x)%Z l -> (0 <= zsum l)%Z.
  Proof. induction 1; cbn; [lia|]. fold (zsum l). lia. Qed.

  Lemma inputs_snoc ss s : inputs_ok (ss ++ [s]) -> inputs_ok ss /\ (Z.of_nat (length s) <= 2 ^ 40)%Z /\
    (zsum (map (fun s => Z.of_nat (length s)) ss) + Z.of_nat (length s) <= 2 ^ 48)%Z.
  Proof.
    intros [H1 H2]. apply Forall_app in H1 as [H1 H3]. apply Forall_inv in H3.
    rewrite map_app in H2. cbn [map] in H2. rewrite zsum_snoc in H2. cbn beta in H2, H3. unfold inputs_ok, seq in *. split; [split; [easy|lia]|]. lia.
  Qed.

  (** What holds after the parses in [log]. *)
  Record run_inv (d0 : dict) (st0 : sstat fl) (log : list (seq * list nat)) (d : dict) (st : sstat fl) : Prop := {
    ri_wf : wf_dict d;
    ri_ne : no_empty d;
    ri_ext : extends_by_symbols (seqs d0) (seqs d);
    ri_size : (Z.of_nat (dsize d) <= Z.of_nat (dsize d0) + symbols_consumed log)%Z;
    ri_spells : Forall (fun e => spells (seqs d) (snd e) (fst e)) log;
    ri_len : length (sfreqs st) <= dsize d;
    ri_len0 : length (sfreqs st0) <= length (sfreqs st);
    ri_plen : length (sfreqs st) <= length (pfreqs st);
    ri_used : Forall (fun e => Forall (fun i => i < length (sfreqs st)) (snd e)) log;
    ri_sf : forall j, at0 (sfreqs st) j = log_occ log j;
    ri_pf : forall j, at0 (pfreqs st) j = (at0 (pfreqs st0) j + log_occ log j)%Z;
    ri_words : (0 <= words_emitted log <= symbols_consumed log)%Z;
    ri_tot : total_freq fl d st = words_emitted log;
    ri_length : total_length fl d st = symbols_consumed log;
    ri_power : power st = fofZ fl (words_emitted log);
    ri_chars : chars st = fofZ fl (symbols_consumed log);
    ri_pairs : forall p q, find0 (pairs st) (p, q) = log_adjacent log p q;
    ri_keys : NoDup (map fst (pairs st));
    ri_pos : Forall (fun p => (1 <= snd p)%Z) (pairs st);
    ri_psum : (all_pairs (pairs st) <= words_emitted log)%Z;
    ri_ipower : ipower st = ipower st0;
    ri_minp : minp st = minp st0
  }.

  Definition started (d0 : dict) (st0 : sstat fl) : Prop :=
    wf_dict d0 /\ no_empty d0 /\ (Z.of_nat (dsize d0) <= 2 ^ 50)%Z /\
    length (sfreqs st0) <= dsize d0 /\ length (sfreqs st0) <= length (pfreqs st0) /\
    Forall (fun f => 0 <= f <= 2 ^ 52)%Z (pfreqs st0) /\ fcnt fl L (ipower st0) /\
    (forall j, at0 (sfreqs st0) j = 0%Z) /\ power st0 = fofZ fl 0 /\ chars st0 = fofZ fl 0 /\ pairs st0 = [].

  Lemma mk_stat_started ws mp init d st : start_ok ws init -> mk_stat fl ws mp init = Ok (d, st) -> started d st.
  Proof.
    intros (Hne & Hn & Hi) H. destruct (mk_stat_ok ws mp init) as (d' & st' & H' & _ & Hs & Hl & E1 & E2 & E3 & E4 & E5 & E6 & E7).
    rewrite H in H'. injection H' as <- <-.
    assert (Hdn : dsize d = length ws) by (unfold dsize; rewrite Hs; apply isort_length).
    split; [now apply links_wf|]. split.
    { intros w Hw E. subst w. rewrite Hs in Hw. apply Hne. apply (Permutation_in _ (isort_perm ws)). exact Hw. }
    split; [lia|]. rewrite E1, E2, E3, E4, E5, E7, repeat_length, pad_length.
    split; [lia|]. split; [lia|]. split.
    { unfold pad. apply Forall_app. split.
      - destruct init; [exact Hi|constructor].
      - apply Forall_forall. intros x Hx. apply repeat_spec in Hx. subst x. lia. }
    split.
    { destruct init as [l|].
      - unfold fsumZ. apply (fsumZ_cnt fl L).
        + apply (cnt_ofZ fl L). unfold maxcount. lia.
        + eapply Forall_impl; [|exact Hi]. intros a Ha. cbn beta in Ha. unfold maxcount. lia.
      - apply (cnt_ofZ fl L). unfold maxcount. lia. }
    split; [intro j; apply at0_repeat|easy].
  Qed.

  Lemma log_occ_snoc log e j : log_occ (log ++ [e]) j = (log_occ log j + occ (snd e) j)%Z.
  Proof. unfold log_occ. rewrite map_app. cbn [map]. apply zsum_snoc. Qed.
  Lemma log_adj_snoc log e p q : log_adjacent (log ++ [e]) p q = (log_adjacent log p q + times_adjacent p q (snd e))%Z.
  Proof. unfold log_adjacent. rewrite map_app. cbn [map]. apply zsum_snoc. Qed.
  Lemma words_snoc log e : words_emitted (log ++ [e]) = (words_emitted log + Z.of_nat (length (snd e)))%Z.
  Proof. unfold words_emitted. rewrite map_app. cbn [map]. apply zsum_snoc. Qed.
  Lemma symbols_snoc log e : symbols_consumed (log ++ [e]) = (symbols_consumed log + Z.of_nat (length (fst e)))%Z.
  Proof. unfold symbols_consumed. rewrite map_app. cbn [map]. apply zsum_snoc. Qed.
  Lemma symbols_map log : symbols_consumed log = zsum (map (fun s => Z.of_nat (length s)) (map fst log)).
  Proof. unfold symbols_consumed. now rewrite map_map. Qed.
  Lemma log_occ_nonneg log j : (0 <= log_occ log j)%Z.
  Proof.
    unfold log_occ. apply zsum_nonneg. apply Forall_forall. intros x Hx. apply in_map_iff in Hx as (e & <- & _).
    apply occ_nonneg.
  Qed.
  Lemma log_occ_le log j : (log_occ log j <= words_emitted log)%Z.
  Proof.
    unfold log_occ, words_emitted. induction log as [|e log IH]; cbn; [lia|].
    fold (zsum (map (fun p : seq * list nat => occ (snd p) j) log)).
    fold (zsum (map (fun p : seq * list nat => Z.of_nat (length (snd p))) log)).
    pose proof (occ_le (snd e) j). lia.
  Qed.

  Lemma run_tables d0 st0 log d st : started d0 st0 -> (symbols_consumed log <= 2 ^ 50)%Z ->
    run_inv d0 st0 log d st -> tables_ok fl L d st.
  Proof.
    intros (_ & _ & _ & _ & _ & Hpf & Hip & _) Hs R.
    pose proof (ri_words _ _ _ _ _ R) as Hw.
    split; [apply R|]. split; [apply R|]. split.
    - apply (forall_at0 (fun f => (0 <= f < maxcount)%Z)); [unfold maxcount; lia|]. intro j. rewrite (ri_pf _ _ _ _ _ R).
      pose proof (proj1 (forall_at0 (fun f => (0 <= f <= 2 ^ 52)%Z) (pfreqs st0) ltac:(cbn beta; lia)) Hpf j).
      pose proof (log_occ_nonneg log j). pose proof (log_occ_le log j). unfold maxcount. cbn beta in *. lia.
    - split.
      + rewrite (ri_power _ _ _ _ _ R). apply (cnt_ofZ fl L). unfold maxcount. lia.
      + rewrite (ri_ipower _ _ _ _ _ R). exact Hip.
  Qed.

  Lemma inv_start d0 st0 : started d0 st0 -> run_inv d0 st0 [] d0 st0.
  Proof.
    intros (Hwf & Hne & Hn & Hsl & Hpl & Hpf & Hip & Hsf & Hpw & Hch & Hps). split; try easy; try apply Nat.le_refl.
    - apply ext_refl.
    - unfold symbols_consumed. cbn. lia.
    - intro j. unfold log_occ. cbn. lia.
    - change (total_freq fl d0 st0) with (sumf (dsize d0) (freq fl st0)). apply sumf_zero.
      intros i _. rewrite freq_at0. apply Hsf.
    - change (total_length fl d0 st0) with
        (sumf (dsize d0) (fun i => freq fl st0 i * Z.of_nat (length (nth i (seqs d0) [])))%Z). apply sumf_zero.
      intros i _. rewrite freq_at0, Hsf. lia.
    - intros p q. rewrite Hps. easy.
    - rewrite Hps. constructor.
    - rewrite Hps. constructor.
    - rewrite Hps. unfold all_pairs, words_emitted. cbn. lia.
  Qed.

  Lemma inv_step d0 st0 log d st s : started d0 st0 -> run_inv d0 st0 log d st ->
    (Z.of_nat (length s) <= 2 ^ 40)%Z -> (symbols_consumed log + Z.of_nat (length s) <= 2 ^ 50)%Z ->
    exists ids d' st', stat_parse fl d st s [] = Ok (ids, length ids, d', st') /\
      run_inv d0 st0 (log ++ [(s, ids)]) d' st' /\ extends_by_symbols (seqs d) (seqs d') /\
      exists x, weighted_parse fl true false d s (pfreqs st) (fadd fl (power st) (ipower st)) None
                 = Ok (ids, x, d').
  Proof.
    intros Hst R Hl Hs. pose proof Hst as (_ & _ & Hn & _).
    assert (Hc : (0 <= symbols_consumed log)%Z) by (pose proof (ri_words _ _ _ _ _ R); lia).
    assert (T : tables_ok fl L d st) by (apply (run_tables d0 st0 log); try easy; lia).
    pose proof (ri_size _ _ _ _ _ R) as Hsz.
    destruct (stat_parse_spec fl L d st s (ri_wf _ _ _ _ _ R) (ri_ne _ _ _ _ _ R) T) as
      (ids & d' & st' & E & Hsp & Hwf & Hne & Hext & Hsz' & Hw & Hsf & Hpf & Hl1 & Hl2 & Hl3 & Hu & Hpw & Hpr & Hch & Hip & Hmp).
    { unfold maxlen. lia. } { unfold maxcount. lia. }
    exists ids, d', st'. split; [easy|]. split; [|easy].
    assert (Hle : length ids <= length s) by (apply (spells_le (seqs d')); [exact Hne|exact Hsp]).
    destruct (mass_step fl d d' st st' ids s) as [M1 M2]; try easy; [apply R|].
    pose proof (ri_words _ _ _ _ _ R) as Hw0.
    split; try easy.
    - eapply ext_trans; [apply R|exact Hext].
    - rewrite symbols_snoc. cbn [fst]. lia.
    - apply Forall_app. split.
      + eapply Forall_impl; [|apply R]. intros e He. now apply (spells_ext (seqs d)).
      + constructor; [exact Hsp|constructor].
    - eapply Nat.le_trans; [apply R|exact Hl3].
    - apply Forall_app. split.
      + eapply Forall_impl; [|apply (ri_used _ _ _ _ _ R)]. intros e He.
        eapply Forall_impl; [|exact He]. intros i Hi. cbn beta in Hi. lia.
      + constructor; [exact Hu|constructor].
    - intro j. rewrite Hsf, (ri_sf _ _ _ _ _ R), log_occ_snoc. easy.
    - intro j. rewrite Hpf, (ri_pf _ _ _ _ _ R), log_occ_snoc. cbn [snd]. lia.
    - rewrite words_snoc, symbols_snoc. cbn [fst snd]. lia.
    - rewrite M1, (ri_tot _ _ _ _ _ R), words_snoc. easy.
    - rewrite M2, (ri_length _ _ _ _ _ R), symbols_snoc. easy.
    - rewrite Hpw, (ri_power _ _ _ _ _ R), words_snoc. cbn [snd]. apply (padd_ofZ fl L); [lia|unfold maxcount; lia].
    - rewrite Hch, (ri_chars _ _ _ _ _ R), symbols_snoc. cbn [fst]. apply (ofZ_add fl L); unfold maxcount; lia.
    - intros p q. rewrite Hpr, count_pairs_spec, (ri_pairs _ _ _ _ _ R), log_adj_snoc. easy.
    - rewrite Hpr. apply count_pairs_nodup. apply R.
    - rewrite Hpr. apply count_pairs_pos. apply R.
    - pose proof (count_pairs_total ids None (pairs st)) as Ht. pose proof (ri_psum _ _ _ _ _ R) as Hp.
      rewrite Hpr, words_snoc. cbn [snd]. change (all_pairs (pairs st)) with (psumc (pairs st)) in Hp.
      change (all_pairs (count_pairs None ids (pairs st))) with (psumc (count_pairs None ids (pairs st))).
      destruct ids; lia.
    - rewrite Hip. apply R.
    - rewrite Hmp. apply R.
  Qed.

  Lemma run_spec d0 st0 : started d0 st0 -> forall log d st, stat_run fl d0 st0 log d st ->
    inputs_ok (map fst log) -> run_inv d0 st0 log d st.
  Proof.
    intros Hst. induction 1 as [|log d st s ids n d' st' Hr IH E]; intro Hin; [now apply inv_start|].
    rewrite map_app in Hin. cbn [map fst] in Hin. apply inputs_snoc in Hin as (Hin & Hl & Hs).
    rewrite <- symbols_map in Hs.
    destruct (inv_step d0 st0 log d st s Hst (IH Hin) Hl ltac:(lia)) as (ids' & d1 & st1 & E1 & R & _).
    rewrite E in E1. injection E1 as <- _ <- <-. exact R.
  Qed.

  Lemma run_total d0 st0 : started d0 st0 -> forall ss, inputs_ok ss ->
    exists log d st, map fst log = ss /\ stat_run fl d0 st0 log d st /\ run_inv d0 st0 log d st.
  Proof.
    intros Hst ss. induction ss as [|s ss IH] using rev_ind; intro Hin.
    - exists [], d0, st0. split; [easy|]. split; [constructor|now apply inv_start].
    - apply inputs_snoc in Hin as (Hin & Hl & Hs). destruct (IH Hin) as (log & d & st & E & Hr & R).
      rewrite <- E, <- symbols_map in Hs.
      destruct (inv_step d0 st0 log d st s Hst R Hl ltac:(lia)) as (ids & d1 & st1 & E1 & R1 & _).
      exists (log ++ [(s, ids)]), d1, st1. split; [now rewrite map_app, E|]. split; [|exact R1].
      eapply run_parse; eauto.
  Qed.

  (** Adjacent in the log. *)
  Lemma adj_pos p q ids : (1 <= times_adjacent p q ids)%Z -> exists l r, ids = l ++ p :: q :: r.
  Proof.
    induction ids as [|a ids IH]; [cbn; lia|]. destruct ids as [|b ids]; [cbn; lia|].
    change (times_adjacent p q (a :: b :: ids)) with
      ((if Nat.eqb a p && Nat.eqb b q then 1 else 0) + times_adjacent p q (b :: ids))%Z.
    destruct (Nat.eqb a p && Nat.eqb b q) eqn:E.
    - intros _. apply andb_prop in E as [E1 E2]. apply Nat.eqb_eq in E1, E2. subst. now exists [], ids.
    - intro H. destruct IH as (l & r & Hl); [lia|]. exists (a :: l), r. cbn [app]. now rewrite <- Hl.
  Qed.
  Lemma adj_nonneg p q ids : (0 <= times_adjacent p q ids)%Z.
  Proof.
    induction ids as [|a [|b ids] IH]; [cbn; lia|cbn; lia|].
    change (times_adjacent p q (a :: b :: ids)) with
      ((if Nat.eqb a p && Nat.eqb b q then 1 else 0) + times_adjacent p q (b :: ids))%Z.
    destruct (_ && _); lia.
  Qed.
  Lemma log_adj_pos log p q : (1 <= log_adjacent log p q)%Z -> exists s ids l r, In (s, ids) log /\ ids = l ++ p :: q :: r.
  Proof.
    induction log as [|[s ids] log IH]; [unfold log_adjacent; cbn; lia|].
    unfold log_adjacent. cbn [map zsum fold_right snd].
    change (fold_right Z.add 0%Z (map (fun e => times_adjacent p q (snd e)) log)) with (log_adjacent log p q).
    intro H. destruct (Z.leb_spec 1 (times_adjacent p q ids)) as [H1|H1].
    - destruct (adj_pos _ _ _ H1) as (l & r & E). exists s, ids, l, r. split; [now left|easy].
    - destruct IH as (s' & ids' & l & r & Hi & E); [lia|]. exists s', ids', l, r. split; [now right|easy].
  Qed.
  Lemma find0_in m f s c : NoDup (map fst m) -> In ((f, s), c) m -> find0 m (f, s) = c.
  Proof.
    unfold find0. induction m as [|[k v] m IH]; [easy|]. cbn [map fst]. intros Hn Hi. cbn [mfind].
    inversion_clear Hn as [|? ? Hk Hn']. destruct Hi as [E|Hi].
    - injection E as -> ->. now rewrite (proj2 (nat2_eqb_spec _ _) eq_refl).
    - destruct (nat2_eqb (f, s) k) eqn:E.
      + apply nat2_eqb_spec in E. subst k. exfalso. apply Hk. apply in_map_iff. now exists ((f, s), c).
      + now apply IH.
  Qed.
  Lemma pairs_seen d0 st0 log d st i j c : run_inv d0 st0 log d st -> In ((i, j), c) (pairs st) ->
    c = log_adjacent log i j /\ exists s ids l r, In (s, ids) log /\ ids = l ++ i :: j :: r.
  Proof.
    intros R Hi. pose proof (find0_in _ _ _ _ (ri_keys _ _ _ _ _ R) Hi) as E.
    rewrite (ri_pairs _ _ _ _ _ R) in E. split; [easy|]. apply log_adj_pos. rewrite E.
    pose proof (proj1 (Forall_forall _ _) (ri_pos _ _ _ _ _ R) _ Hi) as H. exact H.
  Qed.
  Lemma run_table d0 st0 log d st : run_inv d0 st0 log d st -> (symbols_consumed log <= 2 ^ 50)%Z ->
    table_ok (length (sfreqs st)) (pairs st).
  Proof.
    intros R Hs. split; [apply R|]. split; [apply R|]. split.
    - apply Forall_forall. intros [[i j] c] Hi. destruct (pairs_seen _ _ _ _ _ _ _ _ R Hi) as (_ & s & ids & l & r & Hin & E).
      pose proof (proj1 (Forall_forall _ _) (ri_used _ _ _ _ _ R) _ Hin) as Hu. cbn [snd] in Hu. rewrite E in Hu.
      apply Forall_app in Hu as [_ Hu]. pose proof (Forall_inv Hu) as H1. pose proof (Forall_inv (Forall_inv_tail Hu)) as H2.
      now split.
    - pose proof (ri_psum _ _ _ _ _ R). pose proof (ri_words _ _ _ _ _ R). unfold maxcount. lia.
  Qed.
End Run.
