(** A builder whose requested size leaves room for all symbols never goes wrong. *)
From Verif Require Import Base Spec FloatOps FloatLaws OrderProofs DictProofs GreedyProofs DpProofs WeightedProofs
  ReachProofs ModelDict Maps ModelStat ModelBuilder SpecStat SpecBuilder StatProofs ExpandProofs ReduceProofs RunProofs
  LearnProofs PropsStatLemmas BuilderProofs.

(** ** Counting one-symbol words *)
Definition is_one (w : seq) : bool := Nat.eqb (length w) 1.
Definition ones (ws : list seq) : nat := length (filter is_one ws).
Definition is_root (p : option nat) : bool := match p with None => true | Some _ => false end.

Lemma filter_pointwise {A B} (f : A -> bool) (g : B -> bool) : forall l m, length l = length m ->
  (forall i w p, nth_error l i = Some w -> nth_error m i = Some p -> f w = g p) ->
  length (filter f l) = length (filter g m).
Proof.
  induction l as [|a l IH]; intros [|b m] Hl H; cbn in Hl; try easy. cbn [filter].
  rewrite (H 0 a b) by easy. specialize (IH m ltac:(lia) (fun i => H (S i))). destruct (g b); cbn [length]; lia.
Qed.
Lemma ones_roots d : full_dict d -> no_empty d -> closed d -> ones (seqs d) = length (filter is_root (parents d)).
Proof.
  intros Hf Hne Hc. pose proof (full_wf _ Hf) as [Hl _]. apply filter_pointwise; [now rewrite Hl|].
  intros i w p Hw Hp. pose proof (root_iff d i w Hf Hne Hc Hw) as R. unfold is_one, is_root. destruct p as [j|].
  - apply Nat.eqb_neq. intro E. apply R in E. rewrite Hp in E. discriminate.
  - apply Nat.eqb_eq. now apply R.
Qed.
Lemma roots_count d : roots d (List.seq 0 (length (parents d))) = Z.of_nat (length (filter is_root (parents d))).
Proof.
  unfold roots. set (l := parents d). clearbody l.
  assert (H : forall pre l, zsum (map (fun i => match nth_error (pre ++ l) i with Some None => 1 | _ => 0 end)%Z
    (List.seq (length pre) (length l))) = Z.of_nat (length (filter is_root l))).
  { clear. intros pre l. revert pre. induction l as [|p l IH]; intro pre; [reflexivity|]. cbn [length List.seq map zsum fold_right filter].
    fold (zsum (map (fun i => match nth_error (pre ++ p :: l) i with Some None => 1 | _ => 0 end)%Z (List.seq (S (length pre)) (length l)))).
    rewrite nth_error_app2, Nat.sub_diag by easy. cbn [nth_error].
    specialize (IH (pre ++ [p])). rewrite <- app_assoc, app_length, Nat.add_1_r in IH. cbn [app] in IH. rewrite IH.
    destruct p; cbn [is_root length]; lia. }
  exact (H [] l).
Qed.
Lemma new_symbols_length a : forall l k, length (new_symbols a k l) =
  k + length (filter is_root (map snd l)) - Nat.max k (S a).
Proof.
  induction l as [|[w p] l IH]; intro k; [cbn; lia|]. cbn [new_symbols map snd filter]. destruct p as [j|]; cbn [is_root].
  - apply IH.
  - cbn [length]. destruct (Nat.ltb_spec a k); cbn [length]; rewrite IH; lia.
Qed.
Lemma combine_snd {A B} (l : list A) (m : list B) : length l = length m -> map snd (combine l m) = m.
Proof. revert m. induction l as [|a l IH]; intros [|b m] H; cbn in *; try easy. rewrite IH by lia. reflexivity. Qed.

(** The one-symbol words of a duplicate-free list are as many as the symbols they show. *)
Lemma ones_distinct ws xs : NoDup ws -> (forall c, In [c] ws <-> In c (concat xs)) -> ones ws = distinct xs.
Proof.
  intros Hn H. unfold ones, distinct. rewrite <- (map_length (fun c : Z => [c]) (nodup Z.eq_dec (concat xs))).
  apply Permutation_length. apply NoDup_Permutation.
  - now apply NoDup_filter.
  - apply FinFun.Injective_map_NoDup; [intros x y [= E]; exact E|apply NoDup_nodup].
  - intro w. rewrite filter_In, in_map_iff. split.
    + intros [Hw E]. apply Nat.eqb_eq in E. destruct w as [|c [|? ?]]; try discriminate E. exists c. split; [easy|].
      apply nodup_In. now apply H.
    + intros (c & <- & Hc). apply nodup_In in Hc. split; [now apply H|reflexivity].
Qed.
Lemma distinct_mono xs ys : (forall c, In c (concat xs) -> In c (concat ys)) -> distinct xs <= distinct ys.
Proof.
  intro H. unfold distinct. apply NoDup_incl_length; [apply NoDup_nodup|]. intros c Hc. apply nodup_In in Hc. apply nodup_In. now apply H.
Qed.

(** A parse of known symbols changes nothing. *)
Lemma search_known d c q r d' : full_dict d -> In [c] (seqs d) -> search d (c :: q) None = Ok (r, d') -> d' = d.
Proof.
  intros Hf Hc H. pose proof (search_full d (c :: q) None Hf ltac:(easy)) as G. rewrite H in G.
  destruct r as [i|]; [|now destruct G as (_ & G & _)]. destruct G as [[G _]|(_ & G & _)]; [easy|].
  exfalso. apply In_nth_error in Hc as [j Hj]. apply (G j [c] Hj); [now exists q|easy].
Qed.
Lemma dp_known fl skip freqs total : forall s d pos st st' d', full_dict d -> covers (seqs d) s ->
  dp_loop fl skip d freqs total None pos s st = Ok (st', d') -> d' = d.
Proof.
  induction s as [|c s IH]; intros d pos st st' d' Hf Hc H; cbn [dp_loop] in H; [now injection H|].
  apply bind_ok in H as ([sym d1] & Hs & H). apply bind_ok in H as (st1 & _ & H).
  apply search_known in Hs; [|easy|apply Hc; now left]. subst d1.
  apply (IH _ _ _ _ _ Hf) in H; [easy|]. intros x Hx. apply Hc. now right.
Qed.
Lemma parse_known fl d s freqs total out o n d' : full_dict d -> covers (seqs d) s ->
  parse_weighted fl d s freqs total out = Ok (o, n, d') -> d' = d.
Proof.
  intros Hf Hc H. unfold parse_weighted in H. apply bind_ok in H as ([[ids x] d1] & H & E). injection E as _ _ <-.
  unfold weighted_parse in H. apply bind_ok in H as ([st d2] & Hd & H).
  apply bind_ok in H as (res & _ & H). apply bind_ok in H as (sc & _ & H). injection H as _ _ <-.
  now apply dp_known in Hd.
Qed.

Lemma fresh_split1 ws ws' xs s : fresh_ascending ws (xs ++ s) ->
  (forall c, In [c] ws -> In [c] ws') -> covers ws' xs ->
  (forall c, In [c] ws' -> In [c] ws \/ In c xs) -> fresh_ascending ws' s.
Proof.
  intros H Hin Hcov Hsym a c b E Hc Ha x Hx.
  apply (H (xs ++ a) c b).
  - now rewrite E, <- app_assoc.
  - intro Hw. apply Hc. now apply Hin.
  - intro Hi. apply in_app_or in Hi as [Hi|Hi]; [|easy]. apply Hc. now apply Hcov.
  - destruct Hx as [Hx|Hx].
    + destruct (Hsym x Hx) as [Hx'|Hx']; [now left|]. right. apply in_or_app. now left.
    + right. apply in_or_app. now right.
Qed.

Section Safe.
  Context (fl : fops) (L : flaws fl).

  (** [ws0]: initial words; [a0]: initial length of symb_alphabet_; [pre]: accepted up to the latest update. *)
  Record sinv (ws0 : list seq) (a0 : nat) (pre xs : list seq) (b : builder fl) (d d0 : dict) (st0 : sstat fl)
    (log : list (seq * list nat)) : Prop := {
    sv_get : hget fl b (bptr b) = Ok d;
    sv_started : started fl L d0 st0;
    sv_full0 : full_dict d0;
    sv_closed0 : closed d0;
    sv_run : run_inv fl d0 st0 log d (bcur b);
    sv_full : full_inv fl d0 log d (bcur b);
    sv_xs : xs = pre ++ map fst log;
    sv_sym0 : forall c, In [c] (seqs d0) <-> In c (concat (ws0 ++ pre));
    sv_le : length (bsymb b) <= Nat.max a0 (pred (distinct (ws0 ++ pre)));
    sv_ge : pred (distinct ws0) <= a0 -> pred (distinct (ws0 ++ pre)) <= length (bsymb b)
  }.

  Lemma sv_sym ws0 a0 pre xs b d d0 st0 log : sinv ws0 a0 pre xs b d d0 st0 log ->
    forall c, In [c] (seqs d) <-> In c (concat (ws0 ++ xs)).
  Proof.
    intros I c. rewrite (sv_xs _ _ _ _ _ _ _ _ _ I), app_assoc, concat_app, in_app_iff, <- (sv_sym0 _ _ _ _ _ _ _ _ _ I).
    split.
    - apply (fi_sym _ _ _ _ _ (sv_full _ _ _ _ _ _ _ _ _ I)).
    - intros [H|H].
      + destruct (ri_ext _ _ _ _ _ _ (sv_run _ _ _ _ _ _ _ _ _ I)) as [cs ->]. apply in_or_app. now left.
      + apply (fi_cov _ _ _ _ _ (sv_full _ _ _ _ _ _ _ _ _ I)). exact H.
  Qed.

  (** Lengths *)
  Definition total_len (xs : list seq) : Z := zsum (map (fun s : seq => Z.of_nat (length s)) xs).
  Lemma total_len_app xs ys : total_len (xs ++ ys) = (total_len xs + total_len ys)%Z.
  Proof. unfold total_len. rewrite map_app. apply zsum_app. Qed.
  Lemma total_len_nonneg xs : (0 <= total_len xs)%Z.
  Proof. unfold total_len. apply zsum_nonneg. apply Forall_forall. intros x Hx. apply in_map_iff in Hx as (s & <- & _). lia. Qed.
  Lemma factor_length (w x : seq) : factor w x -> length w <= length x.
  Proof. intros (a & b & ->). rewrite !app_length. lia. Qed.

  Lemma new_state ws0 a0 W0 B Size xs b' d1 ws fs mp d' st' heap asize :
    binv fl L W0 xs B Size b' -> (B <= 2 ^ 52)%Z -> (Size <= 2 ^ 50)%Z ->
    NoDup ws -> (forall c, In [c] ws <-> In [c] (seqs d1)) -> symbol_closed ws ->
    (forall c, In [c] (seqs d1) <-> In c (concat (ws0 ++ xs))) ->
    mk_stat fl ws mp (Some fs) = Ok (d', st') -> bheap b' = heap ++ [d'] -> bptr b' = length heap -> bcur b' = st' ->
    length (bsymb b') = asize + length (new_symbols asize 0 (combine (seqs d') (parents d'))) ->
    asize <= Nat.max a0 (pred (distinct (ws0 ++ xs))) ->
    sinv ws0 a0 xs xs b' d' d' st' [].
  Proof.
    intros I HB HS Hn Hsym Hcl Hsym1 Hm Hh Hp Hc Hb Ha.
    destruct (mk_full fl ws mp (Some fs) d' st' Hn Hm) as (Hf & Hs & Hl).
    assert (Hg : hget fl b' (bptr b') = Ok d').
    { unfold hget. apply vget_some. rewrite Hh, Hp, nth_error_app2, Nat.sub_diag by easy. reflexivity. }
    destruct (hget_in fl _ _ _ Hg) as [Hin _].
    pose proof (proj1 (Forall_forall _ _) (bi_heap _ _ _ _ _ _ _ I) d' Hin) as (Hwf & Hne & _).
    destruct (bi_cur _ _ _ _ _ _ _ I) as (d2 & P & Hd2 & HP & SI). rewrite Hg in Hd2. injection Hd2 as <-. rewrite Hc in SI.
    destruct (mk_stat_ok fl ws mp (Some fs)) as (d2 & st2 & H' & _ & _ & _ & E1 & E2 & E3 & E4 & E5 & E6 & E7).
    rewrite Hm in H'. injection H' as <- <-.
    assert (Hcd : closed d').
    { intros w Hw c Hcw. rewrite Hs in *. apply isort_in. apply (Hcl w); [now apply isort_in|easy]. }
    assert (HP0 : P = 0%Z).
    { pose proof (si_power _ _ _ _ _ _ _ _ _ SI) as E. pose proof (si_P _ _ _ _ _ _ _ _ _ SI) as H0. unfold kmax in HP.
      destruct (Z.eq_dec P 0) as [|Hnz]; [easy|]. exfalso. rewrite E3 in E.
      assert (G : fltb fl (fofZ fl 0) (fofZ fl P) = true) by (apply (ofZ_lt fl L); unfold maxcount; lia).
      rewrite <- E, (lt_irrefl fl L) in G. discriminate G. }
    assert (St : started fl L d' st').
    { pose proof (si_size _ _ _ _ _ _ _ _ _ SI) as Hsz.
      split; [easy|]. split; [easy|]. split; [lia|]. rewrite Hl. split; [lia|]. split.
      { rewrite E2, pad_length. unfold dsize. rewrite Hs, isort_length. lia. }
      split.
      { apply (forall_at0 (fun f => (0 <= f <= 2 ^ 52)%Z)); [lia|]. intro j.
        pose proof (si_pf _ _ _ _ _ _ _ _ _ SI j). lia. }
      split; [exact (si_ip _ _ _ _ _ _ _ _ _ SI)|]. split; [|easy].
      intro j. rewrite E1. apply at0_repeat. }
    assert (Hsd : forall c, In [c] (seqs d') <-> In c (concat (ws0 ++ xs))).
    { intro c. rewrite Hs, isort_in, Hsym. apply Hsym1. }
    assert (Hbs : length (bsymb b') = Nat.max asize (pred (distinct (ws0 ++ xs)))).
    { rewrite Hb, new_symbols_length, combine_snd by (destruct Hwf as [Hx _]; now rewrite Hx).
      rewrite <- (ones_roots d' Hf Hne Hcd), (ones_distinct _ (ws0 ++ xs)); [lia|apply strict_nodup, Hf|exact Hsd]. }
    split; try easy.
    - rewrite Hc. apply (inv_start fl L d' st' St).
    - rewrite Hc. now apply full_start.
    - cbn [map]. now rewrite app_nil_r.
    - lia.
    - lia.
  Qed.

  Lemma accept_safe ws0 a0 pre xs b d d0 st0 log W0 B Size N e s :
    binv fl L W0 xs B Size b -> sinv ws0 a0 pre xs b d d0 st0 log ->
    env_ok fl e -> draws_ok fl e -> symbol_closed ws0 -> (forall w, W0 w -> In w ws0) ->
    fresh_ascending ws0 (concat xs ++ s) ->
    Forall (fun w : seq => Z.of_nat (length w) <= 2 ^ 40)%Z (ws0 ++ xs ++ [s]) ->
    (kmax + N <= B <= 2 ^ 52)%Z -> (Z.of_nat (length s) <= N)%Z -> (N <= 2 ^ 40)%Z ->
    (Size + 2 * Z.of_nat (length s) <= 2 ^ 50)%Z -> (total_len (xs ++ [s]) <= 2 ^ 48)%Z ->
    (Z.of_nat a0 <= bsize b)%Z -> (Z.of_nat (pred (distinct (ws0 ++ pre))) <= bsize b)%Z ->
    exists b', accept fl e b s = Ok b' /\ bsize b' = bsize b /\
      ((length (bheap b') = length (bheap b) /\ exists d' ids, sinv ws0 a0 pre (xs ++ [s]) b' d' d0 st0 (log ++ [(s, ids)])) \/
       (length (bheap b) < length (bheap b') /\ exists d' st',
          sinv ws0 a0 (xs ++ [s]) (xs ++ [s]) b' d' d' st' [] /\
          (bpop b = false ->
           (Z.of_nat (dsize d') + Z.of_nat (length (bsymb b)) <= bsize b + Z.of_nat (distinct (ws0 ++ xs ++ [s])))%Z))).
  Proof.
    intros I S He Hdr Hcl0 HW0 Hfr Hlen HB Hs HN HSz Htl Hsz0 Hsz1.
    pose proof S as [Sg Sst Sf0 Sc0 Sr Sfi Sxs Ss0 Sle Sge].
    assert (Hsc : (symbols_consumed log + Z.of_nat (length s) <= 2 ^ 48)%Z).
    { assert (Hs0 : symbols_consumed log = total_len (map fst log)) by (apply symbols_map). rewrite Sxs, !total_len_app in Htl.
      pose proof (total_len_nonneg pre). assert (Hs1 : total_len [s] = Z.of_nat (length s)) by (unfold total_len; cbn; lia). unfold seq in *. lia. }
    assert (Hfr0 : fresh_ascending (seqs d0) (concat (map fst log) ++ s)).
    { apply (fresh_split1 ws0 _ (concat pre)).
      - rewrite app_assoc, <- concat_app. rewrite Sxs in Hfr. exact Hfr.
      - intros c Hc. apply Ss0. rewrite concat_app. apply in_or_app. left. apply in_concat. exists [c]. split; [easy|now left].
      - intros c Hc. apply Ss0. rewrite concat_app. apply in_or_app. now right.
      - intros c Hc. apply Ss0 in Hc. rewrite concat_app in Hc. apply in_app_or in Hc as [Hc|Hc]; [left|now right].
        apply in_concat in Hc as (w & Hw & Hcw). apply (Hcl0 w); easy. }
    destruct (full_step fl L d0 st0 log d (bcur b) s Sst Sr Sfi) as (ids & d1 & st1 & Hp & R1 & F1); try easy; try lia.
    (* the state after the parse *)
    assert (Hlt : bptr b < length (bheap b)) by (now apply (hget_in fl _ _ _) in Sg).
    assert (S1 : sinv ws0 a0 pre (xs ++ [s]) (parsed fl b d1 st1) d1 d0 st0 (log ++ [(s, ids)])).
    { split; try easy.
      - unfold hget, parsed. cbn [bheap bptr]. apply vget_some. now apply upd_same.
      - rewrite Sxs, map_app, <- app_assoc. reflexivity. }
    assert (Hsym1 := sv_sym _ _ _ _ _ _ _ _ _ S1).
    unfold accept, cur_dict. rewrite Sg. cbn [bind]. rewrite Hp. cbn [bind]. fold (parsed fl b d1 st1).
    destruct (ready fl (parsed fl b d1 st1)) eqn:Er.
    2:{ exists (parsed fl b d1 st1). split; [easy|]. split; [easy|]. left. split; [unfold parsed; cbn [bheap]; apply upd_length|].
        now exists d1, ids. }
    (* the new words *)
    assert (Hcur : cur_dict fl (parsed fl b d1 st1) = Ok d1) by (exact (sv_get _ _ _ _ _ _ _ _ _ S1)).
    destruct (bi_cur _ _ _ _ _ _ _ I) as (d2 & P & Hd2 & HP & SI). rewrite Sg in Hd2. injection Hd2 as <-.
    assert (DI : dict_inv W0 xs d) by (apply (proj1 (Forall_forall _ _) (bi_heap _ _ _ _ _ _ _ I)); now apply (hget_in fl _ _ _) in Sg).
    assert (HPk := HP). unfold kmax in HB, HP.
    destruct (stat_step fl L W0 xs B Size d (bcur b) P s ids (length ids) d1 st1 DI SI HPk) as (P1 & HP1 & DI1 & SI1 & _ & _); try easy; try lia.
    pose proof (si_size _ _ _ _ _ _ _ _ _ SI1) as Hsz'. pose proof (si_P _ _ _ _ _ _ _ _ _ SI1) as HP10.
    assert (Hwl : forall w, In w (seqs d1) -> (Z.of_nat (length w) <= maxlen)%Z).
    { intros w Hw. rewrite Forall_forall in Hlen. destruct DI1 as (_ & _ & Hw1). destruct (Hw1 w Hw) as [H|(x & Hx & Hf)].
      - apply HW0 in H. apply Hlen. apply in_or_app. now left.
      - apply factor_length in Hf. assert (Hxl : (Z.of_nat (length x) <= 2 ^ 40)%Z) by (apply Hlen; apply in_or_app; now right).
        unfold maxlen. lia. }
    assert (Hne1 : no_empty d1) by (apply DI1).
    set (asize := length (bsymb b)).
    assert (Hslots : (0 <= expand_slots fl (parsed fl b d1 st1) d1)%Z /\ (0 <= bsize b - Z.of_nat asize)%Z).
    { assert (H : (0 <= bsize b - Z.of_nat asize)%Z) by (unfold asize; lia). split; [|easy].
      unfold expand_slots, k_extension. destruct (fltb fl _ _) eqn:El; [exact H|]. apply (ext_trunc fl L); [unfold maxcount; lia|exact El]. }
    destruct Hslots as [Hsl1 Hsl2].
    assert (Hnew : exists ws fs mp, (if bpop b then expand fl e d1 st1 (expand_slots fl (parsed fl b d1 st1) d1)
         else reduce fl e d1 st1 (bsize b - Z.of_nat asize)%Z) = Ok (ws, fs, mp) /\ NoDup ws /\
         (forall c, In [c] ws <-> In [c] (seqs d1)) /\ symbol_closed ws /\
         (bpop b = false -> Z.of_nat (length ws) <= bsize b - Z.of_nat asize + Z.of_nat (distinct (ws0 ++ xs ++ [s])))%Z).
    { pose proof (fi_full _ _ _ _ _ F1) as Hf1. pose proof (fi_closed _ _ _ _ _ F1) as Hc1. destruct (bpop b).
      - destruct (expand_full fl L e d1 st1 (expand_slots fl (parsed fl b d1 st1) d1) He Hdr Hf1 Hne1 (ri_len _ _ _ _ _ _ R1)) as (ws & fs & mp & E & Hk).
        { apply (run_table fl d0 st0 (log ++ [(s, ids)]) d1 st1 R1). rewrite symbols_snoc. cbn [fst]. lia. }
        specialize (Hk Hsl1). exists ws, fs, mp. split; [easy|].
        destruct (expand_sound fl e d1 st1 _ ws fs mp He (full_wf _ Hf1) E) as (Hkw & _). rewrite Forall_forall in Hkw.
        split; [apply (expand_nodup fl e d1 st1 _ ws fs mp He Hf1 Hne1 E)|]. split; [|split; [|easy]].
        + intro c. split; [|apply Hk]. intro Hc. destruct (Hkw _ Hc) as [H|(i & j & c' & x & y & _ & Hx & Hy & E')]; [easy|].
          apply nth_error_In in Hx, Hy. apply Hne1 in Hx, Hy. destruct x as [|? [|? ?]], y; try easy.
        + intros w Hw c Hc. apply Hk. destruct (Hkw _ Hw) as [H|(i & j & c' & x & y & _ & Hx & Hy & ->)]; [now apply (Hc1 w)|].
          apply nth_error_In in Hx, Hy. apply in_app_or in Hc as [Hc|Hc]; [now apply (Hc1 x)|now apply (Hc1 y)].
      - destruct (reduce_full fl L e d1 st1 (words_emitted (log ++ [(s, ids)])) (symbols_consumed (log ++ [(s, ids)])) (bsize b - Z.of_nat asize) He)
          as (ws & fs & mp & E & Hk).
        { apply (run_good fl L d0 st0); try easy; [rewrite symbols_snoc; cbn [fst]; lia|lia]. }
        specialize (Hk Hsl2). exists ws, fs, mp. split; [easy|].
        destruct (reduce_sound fl L e d1 st1 _ ws fs mp He E) as (is & Hw2 & Hnd & _ & _ & Hsize).
        assert (Hin : forall w, In w ws -> In w (seqs d1)) by (intro w; now apply words_in in Hw2 || apply (words_in _ _ _ w Hw2)).
        split; [apply (word_at_nodup (seqs d1) is); [apply strict_nodup, Hf1|easy|easy]|]. split; [|split].
        + intro c. split; [apply Hin|apply Hk].
        + intros w Hw c Hc. apply Hk. apply (Hc1 w); [now apply Hin|easy].
        + intros _. rewrite (fi_len _ _ _ _ _ F1) in Hsize.
          assert (Hr : roots d1 (List.seq 0 (dsize d1)) = Z.of_nat (distinct (ws0 ++ xs ++ [s]))).
          { replace (dsize d1) with (length (parents d1)) by (destruct (full_wf _ Hf1) as [Hx _]; now rewrite Hx).
            rewrite roots_count, <- (ones_roots d1 Hf1 Hne1 Hc1), (ones_distinct _ (ws0 ++ xs ++ [s])); [easy|apply strict_nodup, Hf1|exact Hsym1]. }
          rewrite Hr in Hsize. apply Hsize. lia. }
    destruct Hnew as (ws & fs & mp & Hx & Hnd & Hsy & Hcw & Hsize).
    destruct (mk_stat_ok fl ws mp (Some fs)) as (d' & st' & Hm & _ & Hsd & _).
    unfold update. rewrite Er. cbn [negb]. rewrite Hcur. cbn [bind].
    destruct (update_rate fl d1 (parsed fl b d1 st1)) as [[prob best] turns] eqn:Eu.
    assert (Hacc : exists b', accept fl e b s = Ok b' /\ bheap b' = upd (bheap b) (bptr b) d1 ++ [d'] /\ bptr b' = length (upd (bheap b) (bptr b) d1) /\
      bcur b' = st' /\ length (bsymb b') = asize + length (new_symbols asize 0 (combine (seqs d') (parents d'))) /\ bsize b' = bsize b).
    { unfold accept, cur_dict. rewrite Sg. cbn [bind]. rewrite Hp. cbn [bind]. fold (parsed fl b d1 st1). rewrite Er.
      unfold update. rewrite Er. cbn [negb]. rewrite Hcur. cbn [bind]. rewrite Eu. cbn [parsed bpop bsymb bsize bcur]. fold asize.
      change (mkBuilder (upd (bheap b) (bptr b) d1) (bsize b) (bsymb b) (bptr b) st1 (bres b) (bpop b) (bprob b) (bbest b) (bturns b)) with (parsed fl b d1 st1).
      rewrite Hx. cbn [bind]. rewrite Hm. cbn [bind]. eexists. split; [reflexivity|]. cbn [bheap bptr bcur bsymb bsize]. now rewrite app_length. }
    destruct Hacc as (b' & Hacc & Hh & Hbp & Hbc & Hbs & Hbz).
    destruct (accept_inv fl L W0 xs B Size N e b s b' He I) as [I' _]; try easy; try lia.
    exists b'. split.
    { unfold accept, cur_dict in Hacc. rewrite Sg in Hacc. cbn [bind] in Hacc. rewrite Hp in Hacc. cbn [bind] in Hacc.
      fold (parsed fl b d1 st1) in Hacc. rewrite Er in Hacc. unfold update in Hacc. rewrite Er in Hacc. cbn [negb] in Hacc.
      rewrite Hcur in Hacc. cbn [bind] in Hacc. rewrite Eu in Hacc. exact Hacc. }
    split; [easy|]. right. split; [rewrite Hh, app_length, upd_length; cbn; lia|]. exists d', st'. split.
    - apply (new_state ws0 a0 W0 B (Size + 2 * Z.of_nat (length s)) (xs ++ [s]) b' d1 ws fs mp d' st' (upd (bheap b) (bptr b) d1) asize); try easy; try lia.
      assert (distinct (ws0 ++ pre) <= distinct (ws0 ++ xs ++ [s])); [|unfold asize; lia].
      apply distinct_mono. intro c. rewrite Sxs, !concat_app, !in_app_iff. tauto.
    - intros Hpop. specialize (Hsize Hpop). unfold dsize. rewrite Hsd, isort_length. fold asize. unfold seq in *. lia.
  Qed.

  Lemma grow_noop d (st : sstat fl) : length (sfreqs st) = dsize d -> grow_freqs fl d st = st.
  Proof.
    intro H. unfold grow_freqs, pad. rewrite H, Nat.sub_diag. cbn [repeat]. rewrite app_nil_r. now destruct st.
  Qed.
  Lemma sinv_same ws0 a0 pre xs (b b' : builder fl) d d0 st0 log : sinv ws0 a0 pre xs b d d0 st0 log ->
    hget fl b' (bptr b') = Ok d -> bcur b' = bcur b -> bsymb b' = bsymb b -> sinv ws0 a0 pre xs b' d d0 st0 log.
  Proof. intros [H1 H2 H3 H4 H5 H6 H7 H8 H9 H10] E1 E2 E3. split; rewrite ?E2, ?E3; easy. Qed.
  Lemma freqs_safe ws0 a0 pre xs (b b' : builder fl) fs d d0 st0 log : sinv ws0 a0 pre xs b d d0 st0 log ->
    result_freqs fl b [] = Ok (fs, b') -> sinv ws0 a0 pre xs b' d d0 st0 log /\ bsize b' = bsize b /\ length (bheap b') = length (bheap b).
  Proof.
    intros S H. unfold result_freqs in H. apply bind_ok in H as (d' & Hd & H).
    pose proof (sv_get _ _ _ _ _ _ _ _ _ S) as Hg. pose proof (fi_len _ _ _ _ _ (sv_full _ _ _ _ _ _ _ _ _ S)) as Hl.
    unfold result_ptr in Hd. destruct (bres b) as [| |p st]; injection H as _ <-.
    1, 2: rewrite Hg in Hd; injection Hd as <-; split; [|easy]; apply (sinv_same _ _ _ _ b); try easy; cbn [bcur]; now apply grow_noop.
    split; [|easy]. now apply (sinv_same _ _ _ _ b).
  Qed.
  Lemma shared_safe ws0 a0 pre xs (b : builder fl) p s freqs total d1 o n d1' d d0 st0 log :
    sinv ws0 a0 pre xs b d d0 st0 log -> (forall c, In c s -> In c (concat (ws0 ++ xs))) ->
    hget fl b p = Ok d1 -> parse_weighted fl d1 s freqs total [] = Ok (o, n, d1') ->
    sinv ws0 a0 pre xs (hput fl b p d1') d d0 st0 log.
  Proof.
    intros S Hs Hg Hp. apply (sinv_same _ _ _ _ b); try easy. unfold hput, hget. cbn [bheap bptr].
    pose proof (sv_get _ _ _ _ _ _ _ _ _ S) as Hd. destruct (Nat.eq_dec p (bptr b)) as [->|E].
    - rewrite Hd in Hg. injection Hg as <-.
      assert (d1' = d); [|subst d1'].
      { apply (parse_known fl d s freqs total [] o n); [apply (sv_full _ _ _ _ _ _ _ _ _ S)| |easy].
        intros c Hc. apply (sv_sym _ _ _ _ _ _ _ _ _ S). now apply Hs. }
      apply vget_some, upd_same. now apply (hget_in fl _ _ _) in Hd.
    - apply vget_some. rewrite upd_other by easy. now apply vget_ok in Hd.
  Qed.

  Lemma concat_closed ws0 c : symbol_closed ws0 -> In c (concat ws0) -> In [c] ws0.
  Proof. intros H Hc. apply in_concat in Hc as (w & Hw & Hcw). now apply (H w). Qed.
  Lemma accepted_len ops : (total_len (accepted fl ops) <= processed fl ops)%Z.
  Proof.
    unfold total_len, accepted, processed. induction ops as [|op ops IH]; [cbn; lia|]. cbn [flat_map map].
    rewrite map_app, zsum_app. cbn [zsum fold_right]. fold (zsum (map (op_length fl) ops)).
    destruct op; cbn [op_accepted op_length map zsum fold_right]; lia.
  Qed.

  Section Hist.
    Context (ws0 : list seq) (a0 : nat) (b0 : builder fl) (B Size N : Z) (d00 : dict) (st00 : sstat fl).
    Context (I0 : binv fl L (fun w => In w ws0) [] B Size b0) (S0 : sinv ws0 a0 [] [] b0 d00 d00 st00 []).
    Context (Hcl : symbol_closed ws0) (Hwl : Forall (fun w : seq => Z.of_nat (length w) <= 2 ^ 40)%Z ws0).
    Context (HB : (kmax + N <= B <= 2 ^ 52)%Z) (HSz : (Size <= 2 ^ 49)%Z) (Ha : (Z.of_nat a0 <= bsize b0)%Z).

    Definition safe_ops (ops : list (bop fl)) : Prop :=
      envs_ok fl ops /\ draws_fine fl ops /\ lengths_ok fl N ops /\ shared_known fl (fun w => In w ws0) ops /\
      fresh_ascending ws0 (concat (accepted fl ops)) /\ (Z.of_nat (pred (distinct (ws0 ++ accepted fl ops))) <= bsize b0)%Z.
    Lemma safe_snoc ops op : safe_ops (ops ++ [op]) -> safe_ops ops.
    Proof.
      intros (H1 & H2 & H3 & H4 & H5 & H6). split; [now apply (envs_snoc fl ops op)|]. split.
      { intros e s Hi. apply (H2 e s). apply in_or_app. now left. }
      split; [now apply (lengths_snoc fl N ops op)|]. split; [now apply (shared_snoc fl _ ops op)|].
      rewrite accepted_snoc in H5, H6. split.
      { rewrite concat_app in H5. now apply fresh_app_l in H5. }
      assert (distinct (ws0 ++ accepted fl ops) <= distinct (ws0 ++ accepted fl ops ++ op_accepted fl op)); [|lia].
      apply distinct_mono. intro c. rewrite !concat_app, !in_app_iff. tauto.
    Qed.

    (** One more accept from a state reached safely. *)
    Lemma safe_next pre ops b e s d d0 st0 log :
      binv fl L (fun w => In w ws0) (accepted fl ops) B (Size + 2 * processed fl ops) b ->
      sinv ws0 a0 (accepted fl pre) (accepted fl ops) b d d0 st0 log -> bsize b = bsize b0 ->
      safe_ops (ops ++ [BAccept e s]) ->
      exists b', accept fl e b s = Ok b' /\ bsize b' = bsize b0 /\
      ((length (bheap b') = length (bheap b) /\ exists d' ids, sinv ws0 a0 (accepted fl pre) (accepted fl ops ++ [s]) b' d' d0 st0 (log ++ [(s, ids)])) \/
       (length (bheap b) < length (bheap b') /\ exists d' st',
          sinv ws0 a0 (accepted fl ops ++ [s]) (accepted fl ops ++ [s]) b' d' d' st' [] /\
          (bpop b = false ->
           (Z.of_nat (dsize d') + Z.of_nat (length (bsymb b)) <= bsize b0 + Z.of_nat (distinct (ws0 ++ accepted fl ops ++ [s])))%Z))).
    Proof.
      intros I S Hb (H1 & H2 & H3 & H4 & H5 & H6). pose proof H3 as ((HN1 & HN2) & Hla & Hlp).
      rewrite accepted_snoc in Hla, H5, H6. cbn [op_accepted] in Hla, H5, H6. rewrite processed_snoc in Hlp. cbn [op_length] in Hlp.
      pose proof (processed_nonneg fl ops) as Hpn. pose proof (accepted_len ops) as Hal.
      apply Forall_app in Hla as [Hla1 Hla2]. pose proof (Forall_inv Hla2) as Hs. cbn beta in Hs.
      assert (Hin : In (BAccept e s) (ops ++ [BAccept e s])) by (apply in_or_app; right; now left).
      destruct (accept_safe ws0 a0 (accepted fl pre) (accepted fl ops) b d d0 st0 log (fun w => In w ws0) B _ N e s I S (H1 e s Hin) (H2 e s Hin) Hcl)
        as (b' & Ha1 & Ha2 & Ha3); try easy; try lia.
      - rewrite concat_app in H5. cbn [concat] in H5. rewrite app_nil_r in H5. exact H5.
      - apply Forall_app. split; [easy|]. apply Forall_app. split; [|constructor; [lia|constructor]].
        eapply Forall_impl; [|exact Hla1]. intros x Hx. cbn beta in Hx. lia.
      - rewrite total_len_app. unfold total_len at 2. cbn. lia.
      - assert (distinct (ws0 ++ accepted fl pre) <= distinct (ws0 ++ accepted fl ops ++ [s])); [|lia].
        apply distinct_mono. intro c. rewrite (sv_xs _ _ _ _ _ _ _ _ _ S), !concat_app, !in_app_iff. tauto.
      - exists b'. rewrite <- Hb. split; [easy|]. split; [easy|exact Ha3].
    Qed.

    Lemma safe_hist ops pre b : uhist fl b0 ops pre b -> safe_ops ops ->
      binv fl L (fun w => In w ws0) (accepted fl ops) B (Size + 2 * processed fl ops) b /\ bsize b = bsize b0 /\
      exists d d0 st0 log, sinv ws0 a0 (accepted fl pre) (accepted fl ops) b d d0 st0 log.
    Proof.
      assert (Hgen : forall ops pre b op b', uhist fl b0 ops pre b ->
        (safe_ops ops -> binv fl L (fun w => In w ws0) (accepted fl ops) B (Size + 2 * processed fl ops) b /\ bsize b = bsize b0 /\
          exists d d0 st0 log, sinv ws0 a0 (accepted fl pre) (accepted fl ops) b d d0 st0 log) ->
        bstep fl b op b' -> safe_ops (ops ++ [op]) ->
        binv fl L (fun w => In w ws0) (accepted fl (ops ++ [op])) B (Size + 2 * processed fl (ops ++ [op])) b' /\ bsize b' = bsize b0 /\
          exists d d0 st0 log, (length (bheap b) < length (bheap b') /\ sinv ws0 a0 (accepted fl (ops ++ [op])) (accepted fl (ops ++ [op])) b' d d0 st0 log) \/
            (length (bheap b') = length (bheap b) /\ sinv ws0 a0 (accepted fl pre) (accepted fl (ops ++ [op])) b' d d0 st0 log)).
      { clear ops pre b. intros ops pre b op b' _ IH Hstep Hok. destruct (IH (safe_snoc _ _ Hok)) as (I & Hb & d & d0 & st0 & log & S).
        assert (I' : binv fl L (fun w => In w ws0) (accepted fl (ops ++ [op])) B (Size + 2 * processed fl (ops ++ [op])) b').
        { destruct Hok as (H1 & _ & H3 & H4 & _). pose proof H3 as ((HN1 & HN2) & _).
          destruct (lengths_snoc _ _ _ _ H3) as (_ & Hp & Hn). pose proof (processed_nonneg fl ops) as Hpn.
          rewrite accepted_snoc, processed_snoc.
          destruct op as [e s| |p s freqs total]; cbn [bstep op_accepted op_length] in *.
          - inversion_clear Hn as [|? ? Hs _].
            destruct (accept_inv fl L (fun w => In w ws0) (accepted fl ops) B _ N e b s b' (H1 e s ltac:(apply in_or_app; right; now left)) I HB Hs HN2) as [G _];
              [lia|easy|].
            now replace (Size + 2 * (processed fl ops + Z.of_nat (length s)))%Z with
              (Size + 2 * processed fl ops + 2 * Z.of_nat (length s))%Z by lia.
          - destruct Hstep as (fs & Hf). rewrite app_nil_r, Z.add_0_r. now destruct (freqs_inv fl L _ _ _ _ _ _ _ I Hf) as [G _].
          - destruct Hstep as (dd & o & n & d' & Hd & Hw & ->). rewrite app_nil_r.
            replace (Size + 2 * (processed fl ops + Z.of_nat (length s)))%Z with
              (Size + 2 * processed fl ops + 2 * Z.of_nat (length s))%Z by lia.
            apply (shared_inv fl L _ _ B _ b p s freqs total dd o n d' I); try easy.
            intros c Hc. exact (H4 ops p s freqs total [] ltac:(reflexivity) c Hc). }
        split; [easy|]. destruct op as [e s| |p s freqs total]; cbn [bstep] in Hstep.
        - destruct (safe_next pre ops b e s d d0 st0 log I S Hb Hok) as (b1 & E & Hb1 & Hc). rewrite Hstep in E. injection E as <-.
          split; [easy|]. rewrite accepted_snoc. cbn [op_accepted].
          destruct Hc as [(Hh & d' & ids & S')|(Hh & d' & st' & S' & _)].
          + exists d', d0, st0, (log ++ [(s, ids)]). now right.
          + exists d', d', st', []. now left.
        - destruct Hstep as (fs & Hf). destruct (freqs_safe _ _ _ _ _ _ _ _ _ _ _ S Hf) as (S' & E1 & E2).
          split; [congruence|]. exists d, d0, st0, log. right. split; [easy|]. now rewrite accepted_snoc, app_nil_r.
        - destruct Hstep as (dd & o & n & d' & Hd & Hw & ->). split; [easy|]. exists d, d0, st0, log. right.
          split; [unfold hput; cbn [bheap]; apply upd_length|]. rewrite accepted_snoc, app_nil_r.
          apply (shared_safe ws0 a0 _ _ b p s freqs total dd o n d' d d0 st0 log S); try easy.
          intros c Hc. destruct Hok as (_ & _ & _ & H4 & _). rewrite concat_app. apply in_or_app.
          destruct (H4 ops p s freqs total [] ltac:(reflexivity) c Hc) as [H|H]; [|now right].
          left. apply in_concat. exists [c]. split; [easy|now left]. }
      induction 1 as [|ops pre b op b' H IH Hs Hu|ops pre b op b' H IH Hs Hu]; intro Hok.
      - unfold processed, accepted. cbn. rewrite Z.add_0_r. split; [easy|]. split; [easy|]. now exists d00, d00, st00, [].
      - destruct (Hgen _ _ _ _ _ H IH Hs Hok) as (I & Hb & d & d0 & st0 & log & [[_ S]|[E _]]).
        + split; [easy|]. split; [easy|]. now exists d, d0, st0, log.
        + unfold updated in Hu. lia.
      - destruct (Hgen _ _ _ _ _ H IH Hs Hok) as (I & Hb & d & d0 & st0 & log & [[E _]|[_ S]]).
        + unfold updated in Hu. lia.
        + split; [easy|]. split; [easy|]. now exists d, d0, st0, log.
    Qed.

    Lemma uhist_exists ops b : bhist fl b0 ops b -> exists pre, uhist fl b0 ops pre b.
    Proof.
      induction 1 as [|ops b op b' H [pre IH] Hs]; [exists []; constructor|].
      destruct (Nat.lt_ge_cases (length (bheap b)) (length (bheap b'))) as [Hu|Hu].
      - exists (ops ++ [op]). now apply (uh_update fl b0 ops pre b).
      - exists pre. apply (uh_other fl b0 ops pre b); try easy. unfold updated. lia.
    Qed.
  End Hist.

  (** Starting points *)
  Lemma fresh_sinv size : sinv [] 0 [] [] (new_builder fl size) empty_dict empty_dict (empty_stat fl (k_max_min_probability fl)) [].
  Proof.
    assert (Hf : full_dict empty_dict).
    { split; [constructor|]. split; [easy|]. intros i p H. destruct i; discriminate H. }
    assert (Hc : closed empty_dict) by (intros w []).
    assert (St : started fl L empty_dict (empty_stat fl (k_max_min_probability fl))).
    { split; [now apply full_wf|]. split; [intros w []|]. split; [cbn; lia|]. split; [cbn; lia|]. split; [cbn; lia|].
      split; [constructor|]. split; [apply (cnt_ofZ fl L); unfold maxcount; lia|]. split; [|easy].
      intro j. unfold at0. cbn. now destruct j. }
    split; try easy.
    - apply (inv_start fl L _ _ St).
  Qed.
  Lemma stat_sinv ws mp init d st b : start_ok ws init -> NoDup ws -> symbol_closed ws ->
    mk_stat fl ws mp init = Ok (d, st) -> hget fl b (bptr b) = Ok d -> bcur b = st ->
    sinv ws (length (bsymb b)) [] [] b d d st [].
  Proof.
    intros Hok Hn Hc Hm Hg Hb. destruct (mk_full fl ws mp init d st Hn Hm) as (Hf & Hs & Hl).
    pose proof (mk_stat_started fl L _ _ _ _ _ Hok Hm) as St.
    assert (Hcd : closed d) by (intros w Hw; unfold closed in *; rewrite Hs in *; now apply closed_isort).
    split; try easy.
    - rewrite Hb. apply (inv_start fl L _ _ St).
    - rewrite Hb. now apply full_start.
    - intro c. rewrite Hs, isort_in, app_nil_r. split.
      + intro H. apply in_concat. exists [c]. split; [easy|now left].
      + now apply concat_closed.
    - lia.
    - now rewrite app_nil_r.
  Qed.
End Safe.
