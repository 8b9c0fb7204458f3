(** Lemmas in the exact form of PropsStat. *)
From Coq Require Import Reals.
From Flocq Require Import Core BinarySingleNaN.
From Verif Require Import Base Spec FloatOps FloatLaws FloatIEEE FloatExample FloatIdeal SpecEntropy OrderProofs DictProofs
  GreedyProofs WeightedProofs ModelDict Maps ModelStat ModelBuilder SpecStat StatProofs ExpandProofs ReduceProofs RunProofs
  IdealProofs ReachProofs LearnProofs FloatScore EnvExample.

Section Props.
  Context (fl : fops) (L : flaws fl).

  Lemma parses_total ws mp init ss : start_ok ws init -> inputs_ok ss ->
    exists d0 st0 log d st, mk_stat fl ws mp init = Ok (d0, st0) /\ map fst log = ss /\
      stat_run fl d0 st0 log d st.
  Proof.
    intros Hw Hi. destruct (mk_stat_ok fl ws mp init) as (d0 & st0 & H & _).
    destruct (run_total fl L d0 st0 (mk_stat_started fl L _ _ _ _ _ Hw H) ss Hi) as (log & d & st & E & Hr & _).
    now exists d0, st0, log, d, st.
  Qed.

  Lemma parses_mass ws mp init d0 st0 log d st : start_ok ws init -> mk_stat fl ws mp init = Ok (d0, st0) ->
    stat_run fl d0 st0 log d st -> inputs_ok (map fst log) ->
    total_freq fl d st = words_emitted log /\ total_length fl d st = symbols_consumed log /\
    (forall i, freq fl st i = log_occ log i) /\ power st = fofZ fl (words_emitted log) /\
    Forall (fun e => spells (seqs d) (snd e) (fst e)) log.
  Proof.
    intros Hw H Hr Hi. pose proof (run_spec fl L d0 st0 (mk_stat_started fl L _ _ _ _ _ Hw H) log d st Hr Hi) as R.
    split; [apply R|]. split; [apply R|]. split; [|split; apply R].
    intro i. rewrite freq_at0. apply R.
  Qed.

  Lemma parses_pairs ws mp init d0 st0 log d st p q : start_ok ws init -> mk_stat fl ws mp init = Ok (d0, st0) ->
    stat_run fl d0 st0 log d st -> inputs_ok (map fst log) ->
    pair_count fl st p q = log_adjacent log p q /\ NoDup (map fst (pairs st)).
  Proof.
    intros Hw H Hr Hi. pose proof (run_spec fl L d0 st0 (mk_stat_started fl L _ _ _ _ _ Hw H) log d st Hr Hi) as R.
    split; [apply (ri_pairs _ _ _ _ _ _ R)|apply R].
  Qed.

  (** The table as the source keeps it, with packed keys. *)
  Definition literal_table (log : list (seq * list nat)) : list (Z * Z) :=
    fold_left (fun m e => count_pairs_code (-1) (map Z.of_nat (snd e)) m) log [].

  Lemma parse_pairs d (st : sstat fl) s ids n d' st' : stat_parse fl d st s [] = Ok (ids, n, d', st') ->
    pairs st' = count_pairs None ids (pairs st).
  Proof.
    unfold stat_parse. intro H. apply bind_ok in H as ([[out m] d1] & _ & H).
    apply bind_ok in H as (st2 & _ & H). now injection H as <- _ _ <-.
  Qed.
  Lemma run_pairs d0 st0 log d st : stat_run fl d0 st0 log d st ->
    pairs st = fold_left (fun m e => count_pairs None (snd e) m) log (pairs st0).
  Proof.
    induction 1 as [|log d st s ids n d' st' _ IH E]; [easy|].
    rewrite fold_left_app. cbn [fold_left snd]. rewrite <- IH. now apply (parse_pairs d st s ids n d').
  Qed.
  Lemma count_pairs_small : forall ids prev m, small_keys m -> Forall small ids ->
    (forall a, prev = Some a -> small a) -> small_keys (count_pairs prev ids m).
  Proof.
    intros ids prev m Hm Hi Hp. apply Forall_forall. intros [[f s] c] Hin.
    apply count_pairs_in in Hin as [Hin|(l & r & E)].
    - apply in_map_iff in Hin as ([k v] & E & Hin). cbn [fst] in E. subst k.
      exact (proj1 (Forall_forall _ _) Hm _ Hin).
    - assert (H : Forall small (match prev with Some a => a :: ids | None => ids end)).
      { destruct prev as [a|]; [constructor; [now apply Hp|easy]|easy]. }
      rewrite E in H. apply Forall_app in H as [_ H]. cbn [fst snd].
      split; [exact (Forall_inv H)|exact (Forall_inv (Forall_inv_tail H))].
  Qed.
  Lemma literal_fold log : Forall (fun e : seq * list nat => Forall small (snd e)) log -> forall m, small_keys m ->
    fold_left (fun m e => count_pairs_code (-1) (map Z.of_nat (snd e)) m) log (map enc m) =
    map enc (fold_left (fun m e => count_pairs None (snd e) m) log m).
  Proof.
    induction 1 as [|e log He _ IH]; intros m Hm; [easy|]. cbn [fold_left].
    pose proof (count_pairs_enc (snd e) None m Hm He ltac:(easy)) as E. cbn beta iota in E. rewrite E.
    apply IH. now apply count_pairs_small.
  Qed.

  Lemma parses_literal ws mp init d0 st0 log d st p q : start_ok ws init -> mk_stat fl ws mp init = Ok (d0, st0) ->
    stat_run fl d0 st0 log d st -> inputs_ok (map fst log) ->
    (Z.of_nat (dsize d) <= 2 ^ 31)%Z -> (Z.of_nat p < 2 ^ 31)%Z -> (Z.of_nat q < 2 ^ 31)%Z ->
    literal_table log = map enc (pairs st) /\
    match mfind Z.eqb (literal_table log) (pack (Z.of_nat p) (Z.of_nat q)) with Some c => c | None => 0%Z end
    = log_adjacent log p q.
  Proof.
    intros Hw H Hr Hi Hd Hp Hq. pose proof (run_spec fl L d0 st0 (mk_stat_started fl L _ _ _ _ _ Hw H) log d st Hr Hi) as R.
    assert (Hs : Forall (fun e : seq * list nat => Forall small (snd e)) log).
    { eapply Forall_impl; [|exact (ri_used _ _ _ _ _ _ R)]. intros e He. eapply Forall_impl; [|exact He].
      intros i Hil. cbn beta in Hil. pose proof (ri_len _ _ _ _ _ _ R). unfold small. lia. }
    pose proof (mk_stat_started fl L _ _ _ _ _ Hw H) as (_ & _ & _ & _ & _ & _ & _ & _ & _ & _ & Hp0).
    assert (E : literal_table log = map enc (pairs st)).
    { rewrite (run_pairs _ _ _ _ _ Hr), Hp0. exact (literal_fold log Hs [] ltac:(constructor)). }
    split; [easy|]. rewrite E.
    assert (Hsm : small_keys (pairs st)).
    { apply Forall_forall. intros [[i j] c] Hin. destruct (pairs_seen _ _ _ _ _ _ _ _ _ R Hin) as (_ & s & ids & l & r & Hin' & E').
      pose proof (proj1 (Forall_forall _ _) Hs _ Hin') as Hu. cbn [snd] in Hu. rewrite E' in Hu.
      apply Forall_app in Hu as [_ Hu]. cbn [fst snd].
      split; [exact (Forall_inv Hu)|exact (Forall_inv (Forall_inv_tail Hu))]. }
    pose proof (mfind_enc (pairs st) (p, q) Hsm Hp Hq) as Hf. cbn [fst snd] in Hf. rewrite Hf.
    apply (ri_pairs _ _ _ _ _ _ R).
  Qed.

  (** C26 *)
  Definition exact_view (st : sstat fl) (P C : Z) : sstat ideal :=
    mkStat (fl := ideal) (sfreqs st) (pfreqs st) (IZR P) 0%R (pairs st) 0%R (IZR C).
  Lemma entropy_run ws mp init d0 st0 log d st : start_ok ws init -> mk_stat fl ws mp init = Ok (d0, st0) ->
    stat_run fl d0 st0 log d st -> inputs_ok (map fst log) ->
    let P := words_emitted log in let C := symbols_consumed log in
    power st = fofZ fl P /\ chars st = fofZ fl C /\
    code_length_per_char ideal d (exact_view st P C) =
      entropy_per_char (map (freq fl st) (List.seq 0 (dsize d))) P C /\
    ((1 <= C)%Z -> 0 <= entropy_per_char (map (freq fl st) (List.seq 0 (dsize d))) P C)%R.
  Proof.
    intros Hw H Hr Hi P C. pose proof (run_spec fl L d0 st0 (mk_stat_started fl L _ _ _ _ _ Hw H) log d st Hr Hi) as R.
    assert (Hf : forall i, (0 <= freq fl st i)%Z).
    { intro i. rewrite freq_at0, (ri_sf _ _ _ _ _ _ R). apply log_occ_nonneg. }
    split; [apply R|]. split; [apply R|]. split.
    - apply (code_length_exact d (exact_view st P C) P C); try easy. exact (ri_tot _ _ _ _ _ _ R).
    - intro HC. replace P with (zsum (map (freq fl st) (List.seq 0 (dsize d)))) by (exact (ri_tot _ _ _ _ _ _ R)).
      apply entropy_nonneg; [|easy]. apply Forall_forall. intros f Hin. apply in_map_iff in Hin as (i & <- & _). apply Hf.
  Qed.

  (** C27 *)
  Lemma prior_aligned ws mp fs d st : mk_stat fl ws mp (Some fs) = Ok (d, st) ->
    strictly_sorted ws -> length fs = length ws ->
    forall i w f, word_at ws i w -> nth_error fs i = Some f -> word_at (seqs d) i w /\ nth_error (pfreqs st) i = Some f.
  Proof.
    intros H Hs Hl i w f Hwi Hfi. destruct (mk_stat_ok fl ws mp (Some fs)) as (d' & st' & H' & _ & E & _ & _ & Ep & _).
    rewrite H in H'. injection H' as <- <-. rewrite E, isort_id by (now apply strict_sorted).
    split; [easy|]. rewrite Ep. unfold pad, prior. rewrite nth_error_app1; [easy|]. now apply nth_some_lt in Hfi.
  Qed.
  Lemma prior_total ws mp fs d st : mk_stat fl ws mp (Some fs) = Ok (d, st) ->
    Forall (fun f => 0 <= f)%Z fs -> (zsum fs <= maxcount)%Z -> ipower st = fofZ fl (zsum fs).
  Proof.
    intros H Hf Hz. destruct (mk_stat_ok fl ws mp (Some fs)) as (d' & st' & H' & _ & _ & _ & _ & _ & _ & Ei & _).
    rewrite H in H'. injection H' as <- <-. rewrite Ei. unfold fsumZ. rewrite (fsumZ_exact fl L); try easy; lia.
  Qed.

  (** C28: states reached by parses and update_symbol. *)
  Inductive stat_hist (d0 : dict) (st0 : sstat fl) : dict -> sstat fl -> Prop :=
  | sh_start : stat_hist d0 st0 d0 st0
  | sh_parse d st s out o n d' st' : stat_hist d0 st0 d st ->
      stat_parse fl d st s out = Ok (o, n, d', st') -> stat_hist d0 st0 d' st'
  | sh_update d st i f st' : stat_hist d0 st0 d st -> update_symbol fl st i f = Ok st' -> stat_hist d0 st0 d st'.

  Lemma hist_len ws mp init d0 st0 d st : mk_stat fl ws mp init = Ok (d0, st0) -> stat_hist d0 st0 d st ->
    length (sfreqs st) <= length (pfreqs st).
  Proof.
    intros H. induction 1 as [|d st s out o n d' st' _ IH E|d st i f st' _ IH E].
    - destruct (mk_stat_ok fl ws mp init) as (d' & st' & H' & _ & _ & _ & E1 & E2 & _).
      rewrite H in H'. injection H' as <- <-. rewrite E1, E2, repeat_length, pad_length. lia.
    - unfold stat_parse in E. apply bind_ok in E as ([[o1 n1] d1] & _ & E).
      apply bind_ok in E as (st2 & E2 & E). injection E as _ _ _ <-. cbn [sfreqs pfreqs].
      match type of E2 with foldM _ _ ?s0 = _ => destruct (update_fold fl o1 s0 IH) as (st3 & E3 & _ & _ & Hl & _) end.
      rewrite E2 in E3. now injection E3 as <-.
    - destruct (update_symbol_spec fl st i f IH) as (st2 & E2 & _ & _ & H1 & H2 & _).
      rewrite E in E2. injection E2 as <-. lia.
  Qed.
  Lemma update_one ws mp init d0 st0 d st i f : mk_stat fl ws mp init = Ok (d0, st0) -> stat_hist d0 st0 d st ->
    exists st', update_symbol fl st i f = Ok st' /\
      (forall j, freq fl st' j = (freq fl st j + if Nat.eqb j i then f else 0)%Z) /\
      power st' = fadd fl (power st) (fofZ fl f) /\
      i < length (sfreqs st') /\ length (sfreqs st) <= length (sfreqs st') /\
      pairs st' = pairs st /\ minp st' = minp st /\ chars st' = chars st.
  Proof.
    intros H Hh. destruct (update_symbol_spec fl st i f (hist_len _ _ _ _ _ _ _ H Hh)) as
      (st' & E & H1 & _ & H3 & _ & H5 & _ & H7 & H8 & H9).
    exists st'. split; [easy|]. split; [intro j; rewrite !freq_at0; apply H1|]. split; [easy|].
    split; [lia|]. split; [lia|]. easy.
  Qed.

  (** C32 *)
  Lemma expand_only_observed ws mp init d0 st0 log d st e slots ws' fs' mp' :
    start_ok ws init -> mk_stat fl ws mp init = Ok (d0, st0) -> stat_run fl d0 st0 log d st -> inputs_ok (map fst log) ->
    env_ok fl e -> expand fl e d st slots = Ok (ws', fs', mp') ->
    forall w, In w ws' -> In w (seqs d) \/
      exists s ids l i j r a b, In (s, ids) log /\ ids = l ++ i :: j :: r /\
        word_at (seqs d) i a /\ word_at (seqs d) j b /\ w = a ++ b.
  Proof.
    intros Hw H Hr Hi He Hx w Hin. pose proof (run_spec fl L d0 st0 (mk_stat_started fl L _ _ _ _ _ Hw H) log d st Hr Hi) as R.
    destruct (expand_sound fl e d st slots ws' fs' mp' He (ri_wf _ _ _ _ _ _ R) Hx) as (H1 & _).
    destruct (proj1 (Forall_forall _ _) H1 w Hin) as [Hk|(i & j & c & a & b & Hp & Ha & Hb & Ew)]; [now left|].
    right. destruct (pairs_seen _ _ _ _ _ _ _ _ _ R Hp) as (_ & s & ids & l & r & Hl & E).
    now exists s, ids, l, i, j, r, a, b.
  Qed.
  Lemma mk_full ws mp init d st : NoDup ws -> mk_stat fl ws mp init = Ok (d, st) ->
    full_dict d /\ seqs d = isort ws /\ length (sfreqs st) = dsize d.
  Proof.
    intros Hn H. destruct (mk_stat_ok fl ws mp init) as (d' & st' & H' & Hd & Hs & _ & E1 & _).
    rewrite H in H'. injection H' as <- <-. destruct (mk_dict_history_full ws d Hn Hd) as [Hf _].
    split; [easy|]. split; [easy|]. rewrite E1, repeat_length. unfold dsize. rewrite Hs. symmetry. apply isort_length.
  Qed.
  Lemma isort_in w ws : In w (isort ws) <-> In w ws.
  Proof. split; apply Permutation_in; [apply isort_perm|apply Permutation_sym, isort_perm]. Qed.
  Lemma closed_isort ws : symbol_closed ws -> symbol_closed (isort ws).
  Proof. intros H w Hw c Hc. apply isort_in. apply (H w); [now apply isort_in|easy]. Qed.
  Lemma fresh_isort ws xs : fresh_ascending ws xs -> fresh_ascending (isort ws) xs.
  Proof.
    intros H a c b E Hc Ha x Hx. apply (H a c b E); try easy.
    - intro Hi. apply Hc. now apply isort_in.
    - destruct Hx as [Hx|Hx]; [left; now apply isort_in|now right].
  Qed.
  Lemma ordered_run ws mp init d0 st0 log d st :
    start_ok ws init -> NoDup ws -> symbol_closed ws -> mk_stat fl ws mp init = Ok (d0, st0) ->
    stat_run fl d0 st0 log d st -> inputs_ok (map fst log) -> fresh_ascending ws (concat (map fst log)) ->
    started fl L d0 st0 /\ run_inv fl d0 st0 log d st /\ full_inv fl d0 log d st.
  Proof.
    intros Hw Hn Hc H Hr Hi Hf. destruct (mk_full ws mp init d0 st0 Hn H) as (Hfd & Hs & Hl).
    pose proof (mk_stat_started fl L _ _ _ _ _ Hw H) as Hst. split; [easy|].
    apply (full_run fl L d0 st0); try easy.
    - intros w Hwi. unfold closed in *. rewrite Hs in *. now apply closed_isort.
    - rewrite Hs. now apply fresh_isort.
  Qed.
  Lemma expand_keeps ws mp init d0 st0 log d st e slots :
    start_ok ws init -> NoDup ws -> symbol_closed ws -> mk_stat fl ws mp init = Ok (d0, st0) ->
    stat_run fl d0 st0 log d st -> inputs_ok (map fst log) -> fresh_ascending ws (concat (map fst log)) ->
    env_ok fl e -> draws_ok fl e ->
    exists ws' fs' mp', expand fl e d st slots = Ok (ws', fs', mp') /\ NoDup ws' /\ length fs' = length ws' /\
      ((0 <= slots)%Z -> incl (seqs d) ws').
  Proof.
    intros Hw Hn Hc H Hr Hi Hf He Hdr.
    destruct (ordered_run ws mp init d0 st0 log d st Hw Hn Hc H Hr Hi Hf) as (Hst & R & I).
    assert (Hsc : (symbols_consumed log <= 2 ^ 48)%Z) by (rewrite symbols_map; apply Hi).
    destruct (expand_full fl L e d st slots He Hdr (fi_full _ _ _ _ _ I) (ri_ne _ _ _ _ _ _ R) (ri_len _ _ _ _ _ _ R))
      as (ws' & fs' & mp' & E & Hk).
    { apply (run_table fl d0 st0 log d st R). lia. }
    exists ws', fs', mp'. split; [easy|]. split.
    { apply (expand_nodup fl e d st slots ws' fs' mp' He (fi_full _ _ _ _ _ I) (ri_ne _ _ _ _ _ _ R) E). }
    split; [apply (expand_sound fl e d st slots ws' fs' mp' He (ri_wf _ _ _ _ _ _ R) E)|].
    intros Hs w Hin. now apply Hk.
  Qed.
  Lemma reduce_only_removes e d (st : sstat fl) slots ws' fs' mp' :
    env_ok fl e -> reduce fl e d st slots = Ok (ws', fs', mp') ->
    exists ids, Forall2 (word_at (seqs d)) ids ws' /\ NoDup ids /\ fs' = map (freq fl st) ids.
  Proof.
    intros He H. destruct (reduce_sound fl L e d st slots ws' fs' mp' He H) as (ids & H1 & H2 & H3 & _). now exists ids.
  Qed.
  Lemma reduce_keeps_symbols ws mp init d0 st0 log d st e slots :
    start_ok ws init -> NoDup ws -> symbol_closed ws -> Forall (fun w : seq => Z.of_nat (length w) <= 2 ^ 40)%Z ws ->
    mk_stat fl ws mp init = Ok (d0, st0) ->
    stat_run fl d0 st0 log d st -> inputs_ok (map fst log) -> fresh_ascending ws (concat (map fst log)) ->
    (Z.of_nat (dsize d) <= 2 ^ 50)%Z -> env_ok fl e ->
    exists ws' fs' mp', reduce fl e d st slots = Ok (ws', fs', mp') /\
      ((0 <= slots)%Z -> forall c, In [c] (seqs d) -> In [c] ws').
  Proof.
    intros Hw Hn Hc Hl H Hr Hi Hf Hd He.
    destruct (ordered_run ws mp init d0 st0 log d st Hw Hn Hc H Hr Hi Hf) as (Hst & R & I).
    assert (Hsc : (symbols_consumed log <= 2 ^ 48)%Z) by (rewrite symbols_map; apply Hi).
    apply (reduce_full fl L e d st (words_emitted log) (symbols_consumed log) slots He).
    apply (run_good fl L d0 st0); try easy.
    intros w Hin. destruct (ri_ext _ _ _ _ _ _ R) as [cs Hcs]. rewrite Hcs in Hin.
    apply in_app_or in Hin as [Hin|Hin].
    - destruct (mk_full ws mp init d0 st0 Hn H) as (_ & Hs & _). rewrite Hs in Hin. apply (proj1 (isort_in w ws)) in Hin.
      exact (proj1 (Forall_forall _ _) Hl w Hin).
    - apply in_map_iff in Hin as (c & <- & _). cbn. unfold maxlen. lia.
  Qed.

  (** C60 *)
  Lemma score_by_counts ws mp init d0 st0 log d st e f s c :
    start_ok ws init -> mk_stat fl ws mp init = Ok (d0, st0) -> stat_run fl d0 st0 log d st -> inputs_ok (map fst log) ->
    env_ok fl e -> In ((f, s), c) (pairs st) ->
    exists se sw ew v, pair_margins fl st (e_pairs e (pairs st)) = Ok se /\
      nth_error (fst se) f = Some sw /\ nth_error (snd se) s = Some ew /\
      round_value fl (e_gamma e) c (starts (pairs st) f) (ends (pairs st) s) (all_pairs (pairs st)) = Some v /\
      pair_score fl e (fold_left (fadd fl) (fst se) (fofZ fl 0)) sw ew c = Ok (ten_times fl v).
  Proof.
    intros Hw H Hr Hi He Hin. pose proof (run_spec fl L d0 st0 (mk_stat_started fl L _ _ _ _ _ Hw H) log d st Hr Hi) as R.
    assert (Hsc : (symbols_consumed log <= 2 ^ 48)%Z) by (rewrite symbols_map; apply Hi).
    pose proof (run_table fl d0 st0 log d st R ltac:(lia)) as T.
    pose proof (ok_pairs fl e He (pairs st)) as Hp.
    pose proof (table_perm _ _ _ Hp T) as (T1 & T2 & T3 & T4).
    rewrite (margins_spec fl L st _ T1 T3 T4).
    pose proof (proj1 (Forall_forall _ _) (proj1 (proj2 (proj2 T))) _ Hin) as [Hf Hs]. cbn [fst snd] in Hf, Hs.
    assert (Hv : exists v, round_value fl (e_gamma e) c (starts (pairs st) f) (ends (pairs st) s) (all_pairs (pairs st)) = Some v).
    { unfold round_value.
      match goal with |- context [e_gamma e ?ps] => pose proof (ok_gamma fl e He ps) as Hg; destruct (e_gamma e ps) as [|g1 [|g2 [|g3 g]]] end;
        try discriminate Hg. eexists. reflexivity. }
    destruct Hv as [v Hv]. do 3 eexists. exists v. split; [reflexivity|]. cbn [fst snd].
    split; [now apply ofs_nth|]. split; [now apply ofs_nth|]. split; [easy|].
    rewrite (fold_fadd_ofs fl L); [| lia | | ].
    - rewrite (starts_sum (length (sfreqs st)) (e_pairs e (pairs st))).
      + rewrite <- (starts_perm _ _ f Hp), <- (ends_perm _ _ s Hp), <- (all_pairs_perm _ _ Hp).
        change (0 + all_pairs (pairs st))%Z with (all_pairs (pairs st)). now apply pair_score_spec.
      + eapply Forall_impl; [|exact T3]. now intros p [Hx _].
    - intros i _. apply (pos_bounds _ T1).
    - rewrite (starts_sum (length (sfreqs st)) (e_pairs e (pairs st))); [exact T4|].
      eapply Forall_impl; [|exact T3]. now intros p [Hx _].
  Qed.
End Props.

(** C26: before anything was parsed the code length is not a number, whatever std::log(0) is. *)
Lemma empty_code_length lg mp :
  fnan (ieee lg) (code_length_per_char (ieee lg) empty_dict (empty_stat (ieee lg) mp)) = true.
Proof.
  unfold code_length_per_char, empty_stat. cbn [power chars dsize empty_dict seqs length List.seq fold_left].
  unfold ieee. cbn [fadd fmul fdiv flog fofZ fnan F].
  assert (E : f64_ofZ 0 = B754_zero false) by (vm_compute; reflexivity). rewrite E.
  destruct (lg (B754_zero false)) as [sx|sx| |sx m e He]; try reflexivity; destruct sx; reflexivity.
Qed.

(** Running a few steps and looking only at integers, so that the machine evaluates no float proofs. *)
Definition ids_of {A B} (r : outcome (list nat * nat * A * B)) : option (list nat) :=
  match r with Ok (ids, _, _, _) => Some ids | _ => None end.
Lemma ids_of_ok {A B} (r : outcome (list nat * nat * A * B)) ids : ids_of r = Some ids ->
  exists n a b, r = Ok (ids, n, a, b).
Proof. destruct r as [[[[i n] a] b]| | |]; try easy. intros [= ->]. now exists n, a, b. Qed.
Lemma mk_stat_seqs fl ws mp init d st : mk_stat fl ws mp init = Ok (d, st) -> seqs d = isort ws.
Proof.
  intro H. destruct (mk_stat_ok fl ws mp init) as (d' & st' & H' & _ & E & _).
  rewrite H in H'. now injection H' as <- <-.
Qed.

(** C27: the words and their frequencies are the same, given in another order; the parse differs. *)
Definition parse_after ws fs s : option (list nat) :=
  match mk_stat exf ws (k_max_min_probability exf) (Some fs) with
  | Ok (d, st) => ids_of (stat_parse exf d st s [])
  | _ => None
  end.
Lemma parse_after_ok ws fs s ids : parse_after ws fs s = Some ids -> exists d st n d1 st1,
  mk_stat exf ws (k_max_min_probability exf) (Some fs) = Ok (d, st) /\ stat_parse exf d st s [] = Ok (ids, n, d1, st1).
Proof.
  unfold parse_after. destruct (mk_stat _ _ _ _) as [[d st]| | |]; try easy. intro H.
  apply ids_of_ok in H as (n & d1 & st1 & H). now exists d, st, n, d1, st1.
Qed.
Lemma order_matters : exists ws fs ws' fs' s,
  Permutation (combine ws fs) (combine ws' fs') /\ length ws = length fs /\ length ws' = length fs' /\
  exists d st d' st' ids ids' n n' d1 st1 d1' st1', mk_stat exf ws (k_max_min_probability exf) (Some fs) = Ok (d, st) /\
  mk_stat exf ws' (k_max_min_probability exf) (Some fs') = Ok (d', st') /\ seqs d = seqs d' /\
  stat_parse exf d st s [] = Ok (ids, n, d1, st1) /\ stat_parse exf d' st' s [] = Ok (ids', n', d1', st1') /\
  ids <> ids'.
Proof.
  exists [[1]; [1; 2]; [2]; [2; 3]; [3]]%Z, [50; 1; 1; 90; 1]%Z,
    [[1; 2]; [1]; [2]; [3]; [2; 3]]%Z, [1; 50; 1; 1; 90]%Z, [1; 2; 3]%Z. split.
  { cbn. etransitivity; [apply perm_swap|]. do 3 apply perm_skip. apply perm_swap. }
  split; [reflexivity|]. split; [reflexivity|].
  assert (H1 : parse_after [[1]; [1; 2]; [2]; [2; 3]; [3]]%Z [50; 1; 1; 90; 1]%Z [1; 2; 3]%Z = Some [0; 3])
    by (vm_compute; reflexivity).
  assert (H2 : parse_after [[1; 2]; [1]; [2]; [3]; [2; 3]]%Z [1; 50; 1; 1; 90]%Z [1; 2; 3]%Z = Some [1; 4])
    by (vm_compute; reflexivity).
  apply parse_after_ok in H1 as (d & st & n & d1 & st1 & E1 & E2).
  apply parse_after_ok in H2 as (d' & st' & n' & d1' & st1' & E1' & E2').
  exists d, st, d', st', [0; 3], [1; 4], n, n', d1, st1, d1', st1'. repeat split; try easy.
  apply mk_stat_seqs in E1. apply mk_stat_seqs in E1'. rewrite E1, E1'. reflexivity.
Qed.

(** C28 fails once result_freqs has padded symbol_freqs_ but not parse_freqs_. *)
Definition pad_then (then_ : builder exf -> bool) : bool :=
  match mk_dict [[1]; [1; 2]]%Z with
  | Ok d => match new_builder_dict exf d 10 with
    | Ok b => match accept exf exenv b [1; 2]%Z with
      | Ok b1 => match result_freqs exf b1 [] with Ok (fs, b2) => Nat.ltb 2 (length fs) && then_ b2 | _ => false end
      | _ => false end
    | _ => false end
  | _ => false end.
Definition is_oob {A} (r : outcome A) : bool := match r with UB OobRead => true | _ => false end.
Lemma is_oob_ok {A} (r : outcome A) : is_oob r = true -> r = UB OobRead.
Proof. now destruct r as [|[]| |]. Qed.
Lemma update_oob : exists d b b1 fs b2,
  mk_dict [[1]; [1; 2]]%Z = Ok d /\ new_builder_dict exf d 10 = Ok b /\
  accept exf exenv b [1; 2]%Z = Ok b1 /\ result_freqs exf b1 [] = Ok (fs, b2) /\
  2 < length fs /\ update_symbol exf (bcur b2) 2 1 = UB OobRead /\ accept exf exenv b2 [2]%Z = UB OobRead.
Proof.
  assert (H : pad_then (fun b => is_oob (update_symbol exf (bcur b) 2 1) && is_oob (accept exf exenv b [2]%Z)) = true)
    by (vm_compute; reflexivity).
  unfold pad_then in H. destruct (mk_dict _) as [d| | |]; try discriminate H.
  destruct (new_builder_dict _ _ _) as [b| | |] eqn:E1; try discriminate H.
  destruct (accept exf exenv b [1; 2]%Z) as [b1| | |] eqn:E2; try discriminate H.
  destruct (result_freqs _ _ _) as [[fs b2]| | |] eqn:E3; try discriminate H.
  apply andb_prop in H as [Hl H]. apply andb_prop in H as [H1 H2].
  exists d, b, b1, fs, b2. repeat split; try easy; [now apply Nat.ltb_lt|now apply is_oob_ok|now apply is_oob_ok].
Qed.

(** C32 fails when symbols are learned out of order: expand extends the vector it iterates over. *)
Definition learn_then_expand : bool :=
  match mk_stat exf [[5]]%Z (k_max_min_probability exf) None with
  | Ok (d, st) => match stat_parse exf d st [3]%Z [] with
    | Ok (_, _, d1, st1) => match expand exf exenv d1 st1 10 with UB IterInvalid => true | _ => false end
    | _ => false end
  | _ => false end.
Lemma expand_unsorted : exists d st ids n d1 st1,
  mk_stat exf [[5]]%Z (k_max_min_probability exf) None = Ok (d, st) /\
  stat_parse exf d st [3]%Z [] = Ok (ids, n, d1, st1) /\
  expand exf exenv d1 st1 10 = UB IterInvalid.
Proof.
  assert (H : learn_then_expand = true) by (vm_compute; reflexivity). unfold learn_then_expand in H.
  destruct (mk_stat _ _ _ _) as [[d st]| | |]; try discriminate H.
  destruct (stat_parse exf d st [3]%Z []) as [[[[ids n] d1] st1]| | |] eqn:E; try discriminate H.
  destruct (expand exf exenv d1 st1 10) as [|[]| |] eqn:E2; try discriminate H.
  now exists d, st, ids, n, d1, st1.
Qed.

(** Executing a run, for the examples. *)
Fixpoint run_from (d : dict) (st : sstat exf) (ss : list seq) : option (list (seq * list nat) * dict * sstat exf) :=
  match ss with
  | [] => Some ([], d, st)
  | s :: ss' =>
    match stat_parse exf d st s [] with
    | Ok (ids, _, d1, st1) =>
      match run_from d1 st1 ss' with Some (log, d2, st2) => Some ((s, ids) :: log, d2, st2) | None => None end
    | _ => None
    end
  end.
Lemma run_from_ok : forall ss d0 st0 l0 d st log d2 st2, stat_run exf d0 st0 l0 d st ->
  run_from d st ss = Some (log, d2, st2) -> stat_run exf d0 st0 (l0 ++ log) d2 st2.
Proof.
  induction ss as [|s ss IH]; intros d0 st0 l0 d st log d2 st2 H; cbn [run_from].
  - intros [= <- <- <-]. now rewrite app_nil_r.
  - destruct (stat_parse exf d st s []) as [[[[ids n] d1] st1]| | |] eqn:E; try easy.
    destruct (run_from d1 st1 ss) as [[[l1 d3] st3]|] eqn:E2; [|easy]. intros [= <- <- <-].
    pose proof (IH _ _ _ _ _ _ _ _ (run_parse _ _ _ _ _ _ _ _ _ _ _ H E) E2) as G. now rewrite <- app_assoc in G.
Qed.
Definition observe {A} ws init ss (k : list (seq * list nat) -> dict -> sstat exf -> A) : option A :=
  match mk_stat exf ws (k_max_min_probability exf) init with
  | Ok (d, st) => match run_from d st ss with Some (log, d2, st2) => Some (k log d2 st2) | None => None end
  | _ => None
  end.
Lemma observe_ok {A} ws init ss k (a : A) : observe ws init ss k = Some a -> exists d0 st0 log d st,
  mk_stat exf ws (k_max_min_probability exf) init = Ok (d0, st0) /\ stat_run exf d0 st0 log d st /\ k log d st = a.
Proof.
  unfold observe. destruct (mk_stat _ _ _ _) as [[d0 st0]| | |]; try easy.
  destruct (run_from d0 st0 ss) as [[[log d] st]|] eqn:E; [|easy]. intros [= E2].
  exists d0, st0, log, d, st. split; [easy|]. split; [|easy].
  exact (run_from_ok ss d0 st0 [] d0 st0 log d st (run_nil _ _ _) E).
Qed.
Lemma pack_inj_small : forall p q p' q', (0 <= p < 2 ^ 31)%Z -> (0 <= q < 2 ^ 31)%Z ->
  (0 <= p' < 2 ^ 31)%Z -> (0 <= q' < 2 ^ 31)%Z -> pack p q = pack p' q' -> p = p' /\ q = q'.
Proof. intros p q p' q' H1 H2 H3 H4. apply pack_inj; lia. Qed.

(** Deciding [fresh_ascending]. *)
Fixpoint fresh_check (ws : list seq) (known : list Z) (xs : seq) : bool :=
  match xs with
  | [] => true
  | c :: t =>
      (existsb (seq_eqb [c]) ws || existsb (Z.eqb c) known ||
       forallb (fun w => match w with [x] => Z.ltb x c | _ => true end) ws && forallb (fun x => Z.ltb x c) known)
      && fresh_check ws (c :: known) t
  end.
Lemma fresh_check_ok ws : forall xs known, fresh_check ws known xs = true ->
  forall a c b, xs = a ++ c :: b -> ~ In [c] ws -> ~ In c known -> ~ In c a ->
  forall x, In [x] ws \/ In x known \/ In x a -> (x < c)%Z.
Proof.
  induction xs as [|y xs IH]; intros known H a c b E Hc Hk Ha x Hx; [now destruct a|].
  cbn [fresh_check] in H. apply andb_prop in H as [H H']. destruct a as [|y' a]; injection E as -> E.
  - apply orb_prop in H as [H|H]; [apply orb_prop in H as [H|H]|].
    + exfalso. apply existsb_exists in H as (w & Hw & E'). apply seq_eqb_spec in E'. now subst w.
    + exfalso. apply existsb_exists in H as (w & Hw & E'). apply Z.eqb_eq in E'. now subst w.
    + apply andb_prop in H as [H1 H2]. destruct Hx as [Hx|[Hx|[]]].
      * apply (proj1 (forallb_forall _ _) H1) in Hx. now apply Z.ltb_lt.
      * apply (proj1 (forallb_forall _ _) H2) in Hx. now apply Z.ltb_lt.
  - apply (IH (y' :: known) H' a c b E Hc).
    + intros [G|G]; [apply Ha; now left|easy].
    + intro G. apply Ha. now right.
    + destruct Hx as [Hx|[Hx|[Hx|Hx]]]; [now left|right; left; now right|right; left; now left|right; now right].
Qed.
Lemma fresh_b ws xs : fresh_check ws [] xs = true -> fresh_ascending ws xs.
Proof.
  intros H a c b E Hc Ha x Hx. apply (fresh_check_ok ws xs [] H a c b E Hc); try easy.
  destruct Hx; [now left|right; now right].
Qed.
