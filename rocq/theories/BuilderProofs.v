(** Facts about a builder that hold for every size and every environment, as long as the operations
    are defined. *)
From Verif Require Import Base Spec FloatOps FloatLaws OrderProofs DictProofs GreedyProofs WeightedProofs
  ModelDict Maps ModelStat ModelBuilder SpecStat SpecBuilder StatProofs ExpandProofs ReduceProofs RunProofs ReachProofs.

(** ** New words of a parse are symbols of the input *)
Lemma search_new d q ex r d' : search d q ex = Ok (r, d') -> wf_dict d ->
  d' = d \/ exists c q', q = c :: q' /\ d' = learn d c.
Proof.
  intros H Hwf. unfold search in H. apply bind_ok in H as (index & _ & H). apply bind_ok in H as (hit & _ & H).
  destruct hit; [injection H as _ <-; now left|]. apply bind_ok in H as (o & _ & H).
  destruct o as [i|]; [injection H as _ <-; now left|]. destruct ex as [l|]; [injection H as _ <-; now left|].
  destruct q as [|c q]; cbn in H; [discriminate H|]. injection H as _ <-. right. now exists c, q.
Qed.
Definition new_from (s : seq) (d d' : dict) : Prop :=
  forall w, In w (seqs d') -> In w (seqs d) \/ exists c, In c s /\ w = [c].
Lemma new_refl s d : new_from s d d.
Proof. intros w Hw. now left. Qed.
Lemma dp_new fl skip freqs total ex : forall s d pos st st' d', wf_dict d ->
  dp_loop fl skip d freqs total ex pos s st = Ok (st', d') -> new_from s d d' /\ dsize d' <= dsize d + length s.
Proof.
  induction s as [|c s IH]; intros d pos st st' d' Hwf H; cbn [dp_loop] in H.
  - injection H as _ <-. split; [apply new_refl|lia].
  - apply bind_ok in H as ([sym d1] & Hs & H). apply bind_ok in H as (st1 & _ & H).
    destruct (search_ok_wf _ _ _ _ _ Hwf Hs) as [Hwf1 _].
    destruct (IH _ _ _ _ _ Hwf1 H) as [H1 H2]. apply search_new in Hs; [|easy].
    assert (N : new_from (c :: s) d d1 /\ dsize d1 <= S (dsize d)).
    { destruct Hs as [->|(c' & q' & [= <- <-] & ->)]; [split; [apply new_refl|lia]|]. split.
      - intros w Hw. unfold learn in Hw. cbn [seqs] in Hw. apply in_app_or in Hw as [Hw|[<-|[]]]; [now left|].
        right. exists c. split; [now left|easy].
      - unfold dsize, learn. cbn [seqs]. rewrite app_length. cbn. lia. }
    destruct N as [N1 N2]. split; [|cbn [length]; lia].
    intros w Hw. destruct (H1 w Hw) as [Hw'|(c' & Hc & ->)]; [now apply N1|]. right. exists c'. split; [now right|easy].
Qed.
Lemma parse_new fl d s freqs total out o n d' : wf_dict d ->
  parse_weighted fl d s freqs total out = Ok (o, n, d') ->
  wf_dict d' /\ extends_by_symbols (seqs d) (seqs d') /\ new_from s d d' /\ dsize d' <= dsize d + length s.
Proof.
  intros Hwf H. unfold parse_weighted in H. apply bind_ok in H as ([[ids x] d1] & H & E). injection E as _ _ <-.
  destruct (weighted_ok_wf _ _ _ _ _ _ _ _ _ _ _ Hwf H) as [H1 H2]. split; [easy|]. split; [easy|].
  unfold weighted_parse in H. apply bind_ok in H as ([st d2] & Hd & H).
  apply bind_ok in H as (res & _ & H). apply bind_ok in H as (sc & _ & H). injection H as _ _ <-.
  now apply (dp_new _ _ _ _ _ _ _ _ _ _ _ Hwf Hd).
Qed.

Section Builder.
  Context (fl : fops) (L : flaws fl).

  (** ** A defined parse, without assumptions on table lengths *)
  Lemma vadd_inv l i f l' : vadd l i f = Ok l' -> forall j, at0 l' j = (at0 l j + if Nat.eqb j i then f else 0)%Z.
  Proof.
    intros H. destruct (Nat.lt_ge_cases i (length l)) as [Hi|Hi].
    - destruct (vadd_ok l i f Hi) as (l2 & E & _ & A). rewrite H in E. injection E as <-. exact A.
    - rewrite (vadd_oob l i f Hi) in H. discriminate H.
  Qed.
  Lemma zsum_zeros n : zsum (repeat 0%Z n) = 0%Z.
  Proof. induction n; [easy|]. cbn [repeat zsum fold_right]. change (fold_right Z.add 0%Z (repeat 0%Z n)) with (zsum (repeat 0%Z n)). lia. Qed.
  Lemma zsum_pad l n : zsum (pad l n) = zsum l.
  Proof. unfold pad. rewrite zsum_app, zsum_zeros. lia. Qed.
  Lemma zsum_upd : forall l i x y, nth_error l i = Some y -> zsum (upd l i x) = (zsum l - y + x)%Z.
  Proof.
    induction l as [|a l IH]; intros [|i] x y H; cbn [upd zsum fold_right nth_error] in *; try discriminate.
    - injection H as <-. lia.
    - change (fold_right Z.add 0%Z l) with (zsum l). change (fold_right Z.add 0%Z (upd l i x)) with (zsum (upd l i x)).
      rewrite (IH i x y H). lia.
  Qed.
  Lemma zsum_vadd l i f l' : vadd l i f = Ok l' -> zsum l' = (zsum l + f)%Z.
  Proof.
    unfold vadd. intro H. apply bind_ok in H as (y & Hg & H). apply vget_ok in Hg. unfold vset in H.
    destruct (Nat.ltb _ _); [|discriminate]. injection H as <-. rewrite (zsum_upd _ _ _ _ Hg). lia.
  Qed.
  Lemma update_sum (st : sstat fl) i f st' : update_symbol fl st i f = Ok st' -> zsum (sfreqs st') = (zsum (sfreqs st) + f)%Z.
  Proof.
    unfold update_symbol. intro H. apply bind_ok in H as (sf & H1 & H). apply bind_ok in H as (pf & H2 & H).
    injection H as <-. cbn [sfreqs]. rewrite (zsum_vadd _ _ _ _ H1). destruct (Nat.leb _ _); [now rewrite zsum_pad|easy].
  Qed.
  Lemma fold_sum : forall ids (st st' : sstat fl), foldM (fun st i => update_symbol fl st i 1) ids st = Ok st' ->
    zsum (sfreqs st') = (zsum (sfreqs st) + Z.of_nat (length ids))%Z.
  Proof.
    induction ids as [|i ids IH]; intros st st' H; cbn [foldM] in H.
    - injection H as <-. cbn. lia.
    - apply bind_ok in H as (st1 & E1 & H). apply update_sum in E1. apply IH in H. cbn [length]. lia.
  Qed.
  Lemma parse_sum d (st : sstat fl) s ids n d' st' : stat_parse fl d st s [] = Ok (ids, n, d', st') ->
    zsum (sfreqs st') = (zsum (sfreqs st) + Z.of_nat (length ids))%Z.
  Proof.
    intros H. unfold stat_parse in H.
    apply bind_ok in H as ([[o m] d1] & Hp & H). apply bind_ok in H as (st2 & Hf & H).
    injection H as <- _ <- <-. cbn [sfreqs]. apply fold_sum in Hf. exact Hf.
  Qed.
  Lemma update_inv (st : sstat fl) i f st' : update_symbol fl st i f = Ok st' ->
    (forall j, at0 (sfreqs st') j = (at0 (sfreqs st) j + if Nat.eqb j i then f else 0)%Z) /\
    (forall j, at0 (pfreqs st') j = (at0 (pfreqs st) j + if Nat.eqb j i then f else 0)%Z) /\
    power st' = fadd fl (power st) (fofZ fl f) /\
    ipower st' = ipower st /\ pairs st' = pairs st /\ minp st' = minp st /\ chars st' = chars st.
  Proof.
    unfold update_symbol. intro H. apply bind_ok in H as (sf & H1 & H). apply bind_ok in H as (pf & H2 & H).
    injection H as <-. cbn [sfreqs pfreqs power ipower pairs minp chars].
    split; [|split; [|easy]]; intro j.
    - rewrite (vadd_inv _ _ _ _ H1). destruct (Nat.leb _ _); [now rewrite at0_pad|easy].
    - rewrite (vadd_inv _ _ _ _ H2). destruct (Nat.leb _ _); [now rewrite at0_pad|easy].
  Qed.
  Lemma fold_inv : forall ids (st st' : sstat fl), foldM (fun st i => update_symbol fl st i 1) ids st = Ok st' ->
    (forall j, at0 (sfreqs st') j = at0 (sfreqs st) j + occ ids j)%Z /\
    (forall j, at0 (pfreqs st') j = at0 (pfreqs st) j + occ ids j)%Z /\
    power st' = padd fl (power st) (length ids) /\
    ipower st' = ipower st /\ pairs st' = pairs st /\ minp st' = minp st /\ chars st' = chars st.
  Proof.
    induction ids as [|i ids IH]; intros st st' H; cbn [foldM] in H.
    - injection H as <-. split; [intro; unfold occ; cbn; lia|]. split; [intro; unfold occ; cbn; lia|easy].
    - apply bind_ok in H as (st1 & E1 & H). apply update_inv in E1 as (A1 & B1 & P1 & I1 & Q1 & M1 & C1).
      apply IH in H as (A2 & B2 & P2 & I2 & Q2 & M2 & C2).
      split; [intro j; rewrite A2, A1, occ_cons; lia|]. split; [intro j; rewrite B2, B1, occ_cons; lia|].
      split; [rewrite P2, P1; cbn [length]; now rewrite padd_S|]. now rewrite I2, Q2, M2, C2.
  Qed.
  Lemma parse_inv d (st : sstat fl) s ids n d' st' : stat_parse fl d st s [] = Ok (ids, n, d', st') ->
    wf_dict d -> no_empty d -> Forall (fun f => (0 <= f < maxcount)%Z) (pfreqs st) ->
    fcnt fl L (power st) -> fcnt fl L (ipower st) ->
    (Z.of_nat (length s) <= maxlen)%Z -> (Z.of_nat (dsize d) + Z.of_nat (length s) <= maxcount)%Z ->
    spells (seqs d') ids s /\ wf_dict d' /\ no_empty d' /\ extends_by_symbols (seqs d) (seqs d') /\
    new_from s d d' /\ dsize d' <= dsize d + length s /\
    (forall j, at0 (sfreqs st') j = at0 (sfreqs st) j + occ ids j)%Z /\
    (forall j, at0 (pfreqs st') j = at0 (pfreqs st) j + occ ids j)%Z /\
    power st' = padd fl (power st) (length ids) /\
    pairs st' = count_pairs None ids (pairs st) /\ ipower st' = ipower st /\ minp st' = minp st.
  Proof.
    intros H Hwf Hne Hpf Hpw Hip Hlen Hb. unfold stat_parse in H.
    apply bind_ok in H as ([[o m] d1] & Hp & H). apply bind_ok in H as (st2 & Hf & H).
    injection H as <- _ <- <-. cbn [sfreqs pfreqs power ipower pairs minp chars].
    destruct (parse_new _ _ _ _ _ _ _ _ _ Hwf Hp) as (_ & _ & Hnew & _).
    destruct (weighted_lossless_tot fl L true false d s (pfreqs st) (fadd fl (power st) (ipower st)))
      as (ids' & x & d' & E & Hsp & Hwf' & Hne' & Hext & Hsz); try easy.
    { now apply (tot_add fl L). }
    unfold parse_weighted in Hp. rewrite E in Hp. cbn [bind app] in Hp. injection Hp as <- _ <-.
    apply fold_inv in Hf as (A & B & C & D & _ & M & _). cbn [sfreqs pfreqs power ipower pairs minp chars] in *. easy.
  Qed.

  (** ** The invariant *)
  Definition kmax : Z := 20000000.
  (** The words of a dictionary were given at the start or occur in accepted sequences. *)
  Definition words_from (W0 : seq -> Prop) (xs : list seq) (d : dict) : Prop :=
    forall w, In w (seqs d) -> W0 w \/ occurs xs w.
  Definition dict_inv W0 xs (d : dict) : Prop := wf_dict d /\ no_empty d /\ words_from W0 xs d.

  Record stat_inv (W0 : seq -> Prop) (xs : list seq) (B Size : Z) (d : dict) (st : sstat fl) (P : Z) : Prop := {
    si_P : (0 <= P)%Z;
    si_power : power st = fofZ fl P;
    si_sf : forall j, (0 <= at0 (sfreqs st) j <= P)%Z;
    si_pf : forall j, (0 <= at0 (pfreqs st) j <= B + P)%Z;
    si_ip : fcnt fl L (ipower st);
    si_pairs : forall i j c, In ((i, j), c) (pairs st) -> (1 <= c)%Z /\
      exists a b, word_at (seqs d) i a /\ word_at (seqs d) j b /\ occurs xs (a ++ b);
    si_psum : (all_pairs (pairs st) <= P)%Z;
    si_size : (Z.of_nat (dsize d) + P <= Size)%Z;
    si_minp : fnan fl (minp st) = false;
    si_sum : zsum (sfreqs st) = P
  }.

  Record binv (W0 : seq -> Prop) (xs : list seq) (B Size : Z) (b : builder fl) : Prop := {
    bi_heap : Forall (dict_inv W0 xs) (bheap b);
    bi_res : result_ptr fl b < length (bheap b);
    bi_cur : exists d P, hget fl b (bptr b) = Ok d /\ (P <= kmax)%Z /\ stat_inv W0 xs B Size d (bcur b) P;
    bi_own : forall p st, bres b = ROwn p st -> p < length (bheap b) /\ fnan fl (minp st) = false /\
      (forall j, (0 <= at0 (sfreqs st) j)%Z) /\ (zsum (sfreqs st) <= B)%Z;
    bi_sizes : Forall (fun d => Z.of_nat (dsize d) <= Size)%Z (bheap b)
  }.

  Lemma occurs_app xs ys w : occurs xs w -> occurs (xs ++ ys) w.
  Proof. intros (x & Hx & Hf). exists x. split; [apply in_or_app; now left|easy]. Qed.
  Lemma occurs_last xs x w : factor w x -> occurs (xs ++ [x]) w.
  Proof. intro H. exists x. split; [apply in_or_app; right; now left|easy]. Qed.
  Lemma occurs_symbol xs c : In c (concat xs) -> occurs xs [c].
  Proof.
    intro H. apply in_concat in H as (x & Hx & Hc). exists x. split; [easy|].
    apply in_split in Hc as (a & r & ->). now exists a, r.
  Qed.
  Lemma symbol_factor c (x : seq) : In c x -> factor [c] x.
  Proof. intro Hc. apply in_split in Hc as (a & r & ->). now exists a, r. Qed.
  Lemma dict_inv_mono W0 xs ys d : dict_inv W0 xs d -> dict_inv W0 (xs ++ ys) d.
  Proof.
    intros (H1 & H2 & H3). split; [easy|]. split; [easy|]. intros w Hw. destruct (H3 w Hw); [now left|].
    right. now apply occurs_app.
  Qed.
  Lemma spells_factor ws ids s l i j r : spells ws ids s -> ids = l ++ i :: j :: r ->
    exists a b, word_at ws i a /\ word_at ws j b /\ factor (a ++ b) s.
  Proof.
    intros (vs & Hvs & <-) ->. apply Forall2_app_inv_l in Hvs as (v1 & v2 & _ & H & ->).
    inversion H as [|? a ? v3 Ha H']; subst. inversion H' as [|? b ? v4 Hb _]; subst.
    exists a, b. split; [easy|]. split; [easy|]. exists (concat v1), (concat v4).
    rewrite concat_app. cbn [concat]. now rewrite <- !app_assoc.
  Qed.

  Lemma stat_bounds W0 xs B Size d st P : stat_inv W0 xs B Size d st P -> (P <= 2 ^ 52)%Z -> (0 <= B <= 2 ^ 52)%Z ->
    fcnt fl L (power st) /\ ((B + P < maxcount)%Z -> Forall (fun f => (0 <= f < maxcount)%Z) (pfreqs st)).
  Proof.
    intros I HP HB. split.
    - rewrite (si_power _ _ _ _ _ _ _ I). apply (cnt_ofZ fl L). pose proof (si_P _ _ _ _ _ _ _ I). unfold maxcount. lia.
    - intro Hs. apply (forall_at0 (fun f => (0 <= f < maxcount)%Z)); [unfold maxcount; lia|]. intro j.
      pose proof (si_pf _ _ _ _ _ _ _ I j). lia.
  Qed.

  (** A parse by the builder. *)
  Lemma stat_step W0 xs B Size d st P s ids n d' st' :
    dict_inv W0 xs d -> stat_inv W0 xs B Size d st P -> (P <= kmax)%Z -> (0 <= B <= 2 ^ 52)%Z ->
    (Size <= 2 ^ 51)%Z -> (Z.of_nat (length s) <= 2 ^ 40)%Z ->
    stat_parse fl d st s [] = Ok (ids, n, d', st') ->
    exists P', (P <= P' <= P + Z.of_nat (length s))%Z /\ dict_inv W0 (xs ++ [s]) d' /\
      stat_inv W0 (xs ++ [s]) B (Size + 2 * Z.of_nat (length s)) d' st' P' /\ extends_by_symbols (seqs d) (seqs d') /\
      minp st' = minp st.
  Proof.
    intros (Hwf & Hne & Hw) I HP HB HS Hl H. unfold kmax in HP.
    destruct (stat_bounds _ _ _ _ _ _ _ I ltac:(lia) HB) as [Hpw Hpf].
    pose proof (si_size _ _ _ _ _ _ _ I) as Hsz. pose proof (si_P _ _ _ _ _ _ _ I) as HP0.
    destruct (parse_inv _ _ _ _ _ _ _ H Hwf Hne) as (Hsp & Hwf' & Hne' & Hext & Hnew & Hds & Hsf & Hpf' & Hpw' & Hpr & Hip & Hmp);
      try easy.
    { apply Hpf. unfold maxcount. lia. } { apply I. } { unfold maxcount. lia. }
    assert (Hle : length ids <= length s) by (apply (spells_le (seqs d')); [exact Hne'|exact Hsp]).
    exists (P + Z.of_nat (length ids))%Z. split; [lia|]. split.
    { split; [easy|]. split; [easy|]. intros w Hin. destruct (Hnew w Hin) as [Hin'|(c & Hc & ->)].
      - destruct (Hw w Hin'); [now left|]. right. now apply occurs_app.
      - right. apply occurs_last. now apply symbol_factor. }
    split; [|easy]. split; try lia.
    - rewrite Hpw', (si_power _ _ _ _ _ _ _ I). apply (padd_ofZ fl L); [lia|unfold maxcount; lia].
    - intro j. rewrite Hsf. pose proof (si_sf _ _ _ _ _ _ _ I j). pose proof (occ_nonneg ids j). pose proof (occ_le ids j). lia.
    - intro j. rewrite Hpf'. pose proof (si_pf _ _ _ _ _ _ _ I j). pose proof (occ_nonneg ids j). pose proof (occ_le ids j). lia.
    - rewrite Hip. apply I.
    - intros i j c Hin. rewrite Hpr in Hin.
      assert (Hc : (1 <= c)%Z).
      { refine (proj1 (Forall_forall _ _) (count_pairs_pos ids None (pairs st) _) _ Hin).
        apply Forall_forall. intros [[i' j'] c'] Hin'. now apply (si_pairs _ _ _ _ _ _ _ I) in Hin'. }
      split; [easy|]. apply count_pairs_in in Hin as [Hin|(l & r & E)].
      + apply in_map_iff in Hin as ([[i' j'] c'] & E & Hin). cbn [fst] in E. injection E as -> ->.
        apply (si_pairs _ _ _ _ _ _ _ I) in Hin as (_ & a & b & Ha & Hb & Ho). exists a, b.
        split; [now apply (ext_word_at (seqs d))|]. split; [now apply (ext_word_at (seqs d))|]. now apply occurs_app.
      + cbn beta iota in E. destruct (spells_factor _ _ _ _ _ _ _ Hsp E) as (a & b & Ha & Hb & Hf). exists a, b.
        split; [easy|]. split; [easy|]. now apply occurs_last.
    - pose proof (count_pairs_total ids None (pairs st)) as Ht. pose proof (si_psum _ _ _ _ _ _ _ I) as Hp.
      rewrite Hpr. change (all_pairs (pairs st)) with (psumc (pairs st)) in Hp.
      change (all_pairs (count_pairs None ids (pairs st))) with (psumc (count_pairs None ids (pairs st))).
      destruct ids; cbn [length] in *; lia.
    - rewrite Hmp. apply I.
    - rewrite (parse_sum _ _ _ _ _ _ _ H), (si_sum _ _ _ _ _ _ _ I). easy.
  Qed.

  Lemma pairs_length (ps : list ((nat * nat) * Z)) : (forall i j c, In ((i, j), c) ps -> (1 <= c)%Z) ->
    (Z.of_nat (length ps) <= all_pairs ps)%Z.
  Proof.
    unfold all_pairs. induction ps as [|[[i j] c] ps IH]; intro H; [cbn; lia|]. cbn [length map zsum fold_right snd].
    specialize (IH ltac:(intros; eapply H; right; eauto)). pose proof (H i j c ltac:(now left)).
    change (fold_right Z.add 0%Z (map snd ps)) with (zsum (map snd ps)). lia.
  Qed.
  Lemma pair_le (ps : list ((nat * nat) * Z)) k c : (forall i j c, In ((i, j), c) ps -> (1 <= c)%Z) -> In (k, c) ps ->
    (c <= all_pairs ps)%Z.
  Proof.
    unfold all_pairs. induction ps as [|[[i j] x] ps IH]; intros H Hin; [easy|]. cbn [map zsum fold_right snd].
    change (fold_right Z.add 0%Z (map snd ps)) with (all_pairs ps).
    assert (H' : forall i j c, In (i, j, c) ps -> (1 <= c)%Z) by (intros; eapply H; right; eauto).
    pose proof (pairs_length ps H') as Hl. pose proof (H i j x ltac:(now left)).
    destruct Hin as [[= <- <-]|Hin]; [lia|]. specialize (IH H' Hin). unfold all_pairs in *. lia.
  Qed.

  (** The statistics object built by an update. *)
  Lemma mk_stat_inv W0 xs B Size d (st : sstat fl) P ws fs mp d' st' :
    (forall w, In w ws -> w <> [] /\ (W0 w \/ occurs xs w)) ->
    Forall (fun f => 0 <= f <= P)%Z fs -> (P <= B)%Z -> (B <= 2 ^ 52)%Z ->
    (Z.of_nat (length ws) <= Z.of_nat (dsize d) + P)%Z -> stat_inv W0 xs B Size d st P ->
    fnan fl mp = false -> mk_stat fl ws mp (Some fs) = Ok (d', st') ->
    dict_inv W0 xs d' /\ stat_inv W0 xs B Size d' st' 0.
  Proof.
    intros Hw Hf HPB HB Hl I Hmp H.
    destruct (mk_stat_ok fl ws mp (Some fs)) as (d1 & st1 & H' & _ & Hs & Hlk & E1 & E2 & E3 & E4 & E5 & E6 & E7).
    rewrite H in H'. injection H' as <- <-. pose proof (si_size _ _ _ _ _ _ _ I) as Hsz. pose proof (si_P _ _ _ _ _ _ _ I) as HP0.
    assert (Hin : forall w, In w (seqs d') -> In w ws).
    { intros w Hx. rewrite Hs in Hx. exact (Permutation_in _ (isort_perm ws) Hx). }
    split.
    - split; [now apply links_wf|]. split; [|intros w Hx; now apply Hw, Hin].
      intros w Hx. now apply Hw, Hin.
    - assert (Hdn : dsize d' = length ws) by (unfold dsize; rewrite Hs; apply isort_length).
      split; try easy; try lia.
      + intro j. rewrite E1, at0_repeat. lia.
      + intro j. rewrite E2, at0_pad. unfold prior.
        pose proof (proj1 (forall_at0 (fun f => (0 <= f <= P)%Z) fs ltac:(cbn beta; lia)) Hf j) as Hj. cbn beta in Hj. lia.
      + rewrite E4. unfold fsumZ. apply (fsumZ_cnt fl L).
        * apply (cnt_ofZ fl L). unfold maxcount. lia.
        * eapply Forall_impl; [|exact Hf]. intros a Ha. cbn beta in Ha. unfold maxcount. lia.
      + rewrite E5. easy.
      + rewrite E5. unfold all_pairs. cbn. lia.
      + now rewrite E6.
      + rewrite E1. apply zsum_zeros.
  Qed.

  Lemma expand_step W0 xs B Size d st P e slots ws fs mp d' st' : env_ok fl e ->
    dict_inv W0 xs d -> stat_inv W0 xs B Size d st P -> (P <= B)%Z -> (B <= 2 ^ 52)%Z ->
    expand fl e d st slots = Ok (ws, fs, mp) -> mk_stat fl ws mp (Some fs) = Ok (d', st') ->
    dict_inv W0 xs d' /\ stat_inv W0 xs B Size d' st' 0 /\ fltb fl (minp st) (minp st') = false.
  Proof.
    intros He (Hwf & Hne & Hw) I HPB HB Hx Hm.
    destruct (expand_mp fl L e d st slots ws fs mp (si_minp _ _ _ _ _ _ _ I) Hx) as [Hn Hle].
    destruct (expand_sound fl e d st slots ws fs mp He Hwf Hx) as (Hk & Hlf & Hfs & _ & Hlen).
    assert (Hpos : forall i j c, In ((i, j), c) (pairs st) -> (1 <= c)%Z) by (intros i j c Hi; now apply I in Hi).
    pose proof (pairs_length _ Hpos) as Hpl. pose proof (si_psum _ _ _ _ _ _ _ I) as Hps.
    destruct (mk_stat_inv W0 xs B Size d st P ws fs mp d' st') as [D S]; try easy.
    - intros w Hin. destruct (proj1 (Forall_forall _ _) Hk w Hin) as [Hd|(i & j & c & a & b & Hp & Ha & Hb & ->)].
      + split; [now apply Hne|now apply Hw].
      + apply I in Hp as (_ & a' & b' & Ha' & Hb' & Ho). unfold word_at in *. rewrite Ha in Ha'. rewrite Hb in Hb'.
        injection Ha' as <-. injection Hb' as <-. split; [|now right].
        apply nth_error_In in Ha. apply Hne in Ha. now destruct a.
    - eapply Forall_impl; [|exact Hfs]. intros f [(i & ->)|(k & Hk')]; cbn beta.
      + rewrite freq_at0. apply I.
      + pose proof (pair_le _ _ _ Hpos Hk'). destruct k as [i j]. apply Hpos in Hk'. lia.
    - unfold seq in *. lia.
    - split; [easy|]. split; [easy|].
      destruct (mk_stat_ok fl ws mp (Some fs)) as (d1 & st1 & H' & _ & _ & _ & _ & _ & _ & _ & _ & E6 & _).
      rewrite Hm in H'. injection H' as <- <-. now rewrite E6.
  Qed.

  Lemma ids_length ws ids (vs : list seq) : Forall2 (word_at ws) ids vs -> NoDup ids -> length vs <= length ws.
  Proof.
    intros H Hn. assert (Hl : length vs = length ids) by (clear - H; induction H; cbn; lia). rewrite Hl.
    rewrite <- (seq_length (length ws) 0). apply NoDup_incl_length; [easy|]. intros i Hi. apply in_seq.
    assert (i < length ws); [|lia]. clear - H Hi. induction H as [|x y l l' Hxy _ IH]; [easy|].
    destruct Hi as [<-|Hi]; [now apply nth_some_lt in Hxy|now apply IH].
  Qed.
  Lemma words_in ws ids (vs : list seq) v : Forall2 (word_at ws) ids vs -> In v vs -> In v ws.
  Proof.
    induction 1 as [|i w ids vs Hw _ IH]; [easy|]. intros [<-|H]; [now apply nth_error_In in Hw|now apply IH].
  Qed.

  Lemma reduce_step W0 xs B Size d st P e slots ws fs mp d' st' : env_ok fl e ->
    dict_inv W0 xs d -> stat_inv W0 xs B Size d st P -> (P <= B)%Z -> (B <= 2 ^ 52)%Z -> (Size <= 2 ^ 52)%Z ->
    reduce fl e d st slots = Ok (ws, fs, mp) -> mk_stat fl ws mp (Some fs) = Ok (d', st') ->
    dict_inv W0 xs d' /\ stat_inv W0 xs B Size d' st' 0 /\ fltb fl (minp st) (minp st') = false.
  Proof.
    intros He (Hwf & Hne & Hw) I HPB HB HS Hx Hm. pose proof (si_size _ _ _ _ _ _ _ I) as Hsz.
    pose proof (si_P _ _ _ _ _ _ _ I) as HP0.
    destruct (reduce_mp fl L e d st slots ws fs mp He (si_minp _ _ _ _ _ _ _ I)) as [Hn Hle].
    { unfold maxcount. lia. }
    { intro i. rewrite freq_at0. pose proof (si_sf _ _ _ _ _ _ _ I i). unfold maxcount. lia. } { exact Hx. }
    destruct (reduce_sound fl L e d st slots ws fs mp He Hx) as (ids & Hids & Hnd & -> & _ & _).
    pose proof (ids_length _ _ _ Hids Hnd) as Hlen.
    destruct (mk_stat_inv W0 xs B Size d st P ws (map (freq fl st) ids) mp d' st') as [D S]; try easy.
    - intros w Hin. apply (words_in _ _ _ _ Hids) in Hin. split; [now apply Hne|now apply Hw].
    - apply Forall_forall. intros f Hf. apply in_map_iff in Hf as (i & <- & _). rewrite freq_at0. apply I.
    - unfold dsize, seq in *. lia.
    - split; [easy|]. split; [easy|].
      destruct (mk_stat_ok fl ws mp (Some (map (freq fl st) ids))) as (d1 & st1 & H' & _ & _ & _ & _ & _ & _ & _ & _ & E6 & _).
      rewrite Hm in H'. injection H' as <- <-. now rewrite E6.
  Qed.

  (** ** One accept, taken apart *)
  Definition parsed (b : builder fl) (d1 : dict) (st1 : sstat fl) : builder fl :=
    mkBuilder (upd (bheap b) (bptr b) d1) (bsize b) (bsymb b) (bptr b) st1 (bres b) (bpop b) (bprob b) (bbest b) (bturns b).
  Definition next_res (b : builder fl) (st1 : sstat fl) : rptr fl :=
    if bpop b then match bres b with RNull => RNull | RSame => ROwn (bptr b) st1 | ROwn p st => ROwn p st end else RSame.

  Lemma accept_cases e b s b' : accept fl e b s = Ok b' ->
    exists d ids n d1 st1, hget fl b (bptr b) = Ok d /\ stat_parse fl d (bcur b) s [] = Ok (ids, n, d1, st1) /\
    ((ready fl (parsed b d1 st1) = false /\ b' = parsed b d1 st1) \/
     (ready fl (parsed b d1 st1) = true /\ exists ws fs mp d' st' prob best turns,
        (if bpop b then expand fl e d1 st1 (expand_slots fl (parsed b d1 st1) d1)
         else reduce fl e d1 st1 (bsize b - Z.of_nat (length (bsymb b)))%Z) = Ok (ws, fs, mp) /\
        mk_stat fl ws mp (Some fs) = Ok (d', st') /\
        b' = mkBuilder (upd (bheap b) (bptr b) d1 ++ [d']) (bsize b)
               (bsymb b ++ new_symbols (length (bsymb b)) 0 (combine (seqs d') (parents d')))
               (length (bheap b)) st' (next_res b st1) (negb (bpop b)) prob best turns)).
  Proof.
    intro H. unfold accept in H. apply bind_ok in H as (d & Hd & H).
    apply bind_ok in H as ([[[ids n] d1] st1] & Hp & H). fold (parsed b d1 st1) in H.
    exists d, ids, n, d1, st1. split; [easy|]. split; [easy|].
    destruct (ready fl (parsed b d1 st1)) eqn:Er; [|left; split; [easy|now injection H as <-]]. right. split; [easy|].
    unfold update in H. rewrite Er in H. cbn [negb] in H. apply bind_ok in H as (d2 & Hd2 & H).
    assert (d2 = d1).
    { unfold cur_dict, hget, parsed in Hd2. cbn [bheap bptr] in Hd2. apply vget_ok in Hd, Hd2.
      rewrite upd_same in Hd2 by (now apply nth_some_lt in Hd). now injection Hd2 as <-. }
    subst d2. destruct (update_rate fl d1 (parsed b d1 st1)) as [[prob best] turns].
    apply bind_ok in H as ([[ws fs] mp] & Hx & H). apply bind_ok in H as ([d' st'] & Hm & H). injection H as <-.
    exists ws, fs, mp, d', st', prob, best, turns. split; [exact Hx|]. split; [exact Hm|].
    unfold parsed, next_res. cbn [bheap bptr bsize bsymb bres bpop bcur]. now rewrite upd_length.
  Qed.

  Lemma not_ready (b : builder fl) P : ready fl b = false -> power (bcur b) = fofZ fl P -> (0 <= P <= maxcount)%Z -> (P <= kmax)%Z.
  Proof.
    unfold ready, k_max_power. intros H Hp HP. apply orb_false_iff in H as [_ H]. rewrite Hp in H.
    destruct (Z.le_gt_cases P kmax) as [Hle|Hgt]; [easy|]. exfalso.
    assert (G : fltb fl (fofZ fl 20000000) (fofZ fl P) = true).
    { apply (ofZ_lt fl L); unfold maxcount in *; unfold kmax in Hgt; lia. }
    rewrite H in G. discriminate G.
  Qed.

  Lemma forall_upd {A} (Q : A -> Prop) l i x : Forall Q l -> Q x -> Forall Q (upd l i x).
  Proof.
    intros H Hx. apply Forall_forall. intros y Hy. apply In_nth_error in Hy as (j & Hj).
    destruct (Nat.eq_dec i j) as [->|Hij].
    - destruct (Nat.lt_ge_cases j (length l)) as [Hl|Hl].
      + rewrite upd_same in Hj by easy. now injection Hj as <-.
      + apply nth_some_lt in Hj. rewrite upd_length in Hj. lia.
    - rewrite upd_other in Hj by easy. apply nth_error_In in Hj. rewrite Forall_forall in H. now apply H.
  Qed.
  Lemma hget_in (b : builder fl) p d : hget fl b p = Ok d -> In d (bheap b) /\ p < length (bheap b).
  Proof.
    intro H. apply vget_ok in H. split; [now apply nth_error_In in H|now apply nth_some_lt in H].
  Qed.

  Lemma accept_inv W0 xs B Size N e b s b' : env_ok fl e -> binv W0 xs B Size b ->
    (kmax + N <= B <= 2 ^ 52)%Z -> (Z.of_nat (length s) <= N)%Z -> (N <= 2 ^ 40)%Z ->
    (Size + 2 * Z.of_nat (length s) <= 2 ^ 51)%Z ->
    accept fl e b s = Ok b' ->
    binv W0 (xs ++ [s]) B (Size + 2 * Z.of_nat (length s)) b' /\ fltb fl (minp (bcur b)) (minp (bcur b')) = false.
  Proof.
    intros He I HB Hs HN HSz H. unfold kmax in HB.
    destruct (bi_cur _ _ _ _ _ I) as (d & P & Hd & HP & SI).
    apply accept_cases in H as (d0 & ids & n & d1 & st1 & Hd0 & Hp & H).
    rewrite Hd in Hd0. injection Hd0 as <-. destruct (hget_in _ _ _ Hd) as [Hin Hpl].
    assert (DI : dict_inv W0 xs d) by (exact (proj1 (Forall_forall _ _) (bi_heap _ _ _ _ _ I) d Hin)).
    destruct (stat_step W0 xs B Size d (bcur b) P s ids n d1 st1 DI SI HP) as (P1 & HP1 & DI1 & SI1 & Hext & Hmp);
      try easy; try lia.
    assert (Hheap : Forall (dict_inv W0 (xs ++ [s])) (upd (bheap b) (bptr b) d1)).
    { apply forall_upd; [|easy]. eapply Forall_impl; [|exact (bi_heap _ _ _ _ _ I)]. intros x. apply dict_inv_mono. }
    pose proof (si_P _ _ _ _ _ _ _ SI) as HP0. unfold kmax in HP.
    assert (Hsizes : Forall (fun d => Z.of_nat (dsize d) <= Size + 2 * Z.of_nat (length s))%Z (upd (bheap b) (bptr b) d1)).
    { apply forall_upd.
      - eapply Forall_impl; [|exact (bi_sizes _ _ _ _ _ I)]. intros x Hx. cbn beta in Hx. lia.
      - pose proof (si_size _ _ _ _ _ _ _ SI1). lia. }
    destruct H as [[Hr ->]|(Hr & ws & fs & mp & d' & st' & prob & best & turns & Hx & Hm & ->)].
    - split.
      + split.
        * exact Hheap.
        * unfold parsed. cbn [bheap]. rewrite upd_length. exact (bi_res _ _ _ _ _ I).
        * exists d1, P1. unfold hget, parsed. cbn [bheap bptr bcur]. split.
          { apply vget_some. now apply upd_same. }
          split; [|exact SI1]. apply (not_ready _ P1 Hr).
          { apply SI1. } { unfold maxcount. lia. }
        * unfold parsed. cbn [bres bheap]. rewrite upd_length. exact (bi_own _ _ _ _ _ I).
        * exact Hsizes.
      + unfold parsed. cbn [bcur]. rewrite Hmp. apply (lt_irrefl fl L).
    - assert (Hstep : dict_inv W0 (xs ++ [s]) d' /\ stat_inv W0 (xs ++ [s]) B (Size + 2 * Z.of_nat (length s)) d' st' 0 /\
        fltb fl (minp st1) (minp st') = false).
      { destruct (bpop b).
        - eapply (expand_step _ _ B _ d1 st1 P1 e _ ws fs mp d' st' He DI1 SI1); [lia|lia|exact Hx|exact Hm].
        - eapply (reduce_step _ _ B _ d1 st1 P1 e _ ws fs mp d' st' He DI1 SI1); [lia|lia|lia|exact Hx|exact Hm]. }
      destruct Hstep as (DI2 & SI2 & Hmono). split.
      + split; cbn [bheap bptr bcur bres].
        * apply Forall_app. split; [exact Hheap|]. constructor; [exact DI2|constructor].
        * rewrite app_length, upd_length. unfold result_ptr, next_res. cbn [bres bptr length].
          pose proof (bi_res _ _ _ _ _ I) as Hb. unfold result_ptr in Hb. destruct (bpop b), (bres b); cbn; lia.
        * exists d', 0%Z. split; [|split; [unfold kmax; lia|exact SI2]]. unfold hget. cbn [bheap]. apply vget_some.
          rewrite nth_error_app2, upd_length, Nat.sub_diag by (rewrite upd_length; lia). reflexivity.
        * intros p st. rewrite app_length, upd_length. cbn [length]. unfold next_res.
          destruct (bpop b); [|discriminate]. pose proof (bi_own _ _ _ _ _ I) as Ho. destruct (bres b) as [| |p0 st0]; try discriminate.
          { intros [= <- <-]. split; [lia|]. rewrite Hmp. split; [apply SI|]. split; [intro j; apply SI1|].
            rewrite (si_sum _ _ _ _ _ _ _ SI1). lia. }
          { intros [= <- <-]. destruct (Ho _ _ eq_refl) as [Ho1 Ho2]. split; [lia|easy]. }
        * apply Forall_app. split; [exact Hsizes|]. constructor; [|constructor]. pose proof (si_size _ _ _ _ _ _ _ SI2). lia.
      + cbn [bcur]. now rewrite <- Hmp.
  Qed.

  Lemma freqs_inv W0 xs B Size b fs b' : binv W0 xs B Size b -> result_freqs fl b [] = Ok (fs, b') ->
    binv W0 xs B Size b' /\ minp (bcur b') = minp (bcur b).
  Proof.
    intros I H. unfold result_freqs in H. apply bind_ok in H as (d & Hd & H).
    destruct (bi_cur _ _ _ _ _ I) as (dc & P & Hdc & HP & SI). pose proof (bi_own _ _ _ _ _ I) as Ho.
    pose proof (bi_res _ _ _ _ _ I) as Hrp. unfold result_ptr in Hrp.
    assert (G : stat_inv W0 xs B Size dc (grow_freqs fl d (bcur b)) P).
    { split; try apply SI; unfold grow_freqs; cbn [sfreqs].
      - intro j. rewrite at0_pad. apply SI.
      - rewrite zsum_pad. apply SI. }
    destruct (bres b) as [| |p st] eqn:Er; injection H as _ <-; (split; [|easy]);
      (split; cbn [bheap bptr bcur bres]; [exact (bi_heap _ _ _ _ _ I)|unfold result_ptr; cbn [bres bptr]; rewrite ?Er; exact Hrp| |rewrite ?Er; try easy|exact (bi_sizes _ _ _ _ _ I)]).
    - exists dc, P. now split.
    - exists dc, P. now split.
    - exists dc, P. now split.
    - intros p' st' [= <- <-]. destruct (Ho p st eq_refl) as (O1 & O2 & O3 & O4). unfold grow_freqs. cbn [minp sfreqs].
      split; [easy|]. split; [easy|]. split; [intro j; rewrite at0_pad; apply O3|now rewrite zsum_pad].
  Qed.

  Lemma stat_inv_dict W0 xs B Size d d' st P k : stat_inv W0 xs B Size d st P -> extends_by_symbols (seqs d) (seqs d') ->
    dsize d' <= dsize d + k -> stat_inv W0 xs B (Size + 2 * Z.of_nat k) d' st P.
  Proof.
    intros I Hext Hd. split; try apply I.
    - intros i j c Hin. apply I in Hin as (Hc & a & b & Ha & Hb & Ho). split; [easy|]. exists a, b.
      split; [now apply (ext_word_at (seqs d))|]. split; [now apply (ext_word_at (seqs d))|easy].
    - pose proof (si_size _ _ _ _ _ _ _ I). lia.
  Qed.

  Lemma shared_inv W0 xs B Size b p s freqs total d o n d' : binv W0 xs B Size b ->
    (forall c, In c s -> W0 [c] \/ In c (concat xs)) ->
    hget fl b p = Ok d -> parse_weighted fl d s freqs total [] = Ok (o, n, d') ->
    binv W0 xs B (Size + 2 * Z.of_nat (length s)) (hput fl b p d').
  Proof.
    intros I Hs Hd Hp. destruct (hget_in _ _ _ Hd) as [Hin Hpl].
    pose proof (proj1 (Forall_forall _ _) (bi_heap _ _ _ _ _ I) d Hin) as (Hwf & Hne & Hw).
    destruct (parse_new _ _ _ _ _ _ _ _ _ Hwf Hp) as (Hwf' & Hext & Hnew & Hsz).
    split; unfold hput; cbn [bheap bptr bcur bres].
    - apply forall_upd; [exact (bi_heap _ _ _ _ _ I)|]. split; [easy|]. split; [now apply (no_empty_ext d)|].
      intros w Hwi. destruct (Hnew w Hwi) as [Hwi'|(c & Hc & ->)]; [now apply Hw|].
      destruct (Hs c Hc) as [H|H]; [now left|right; now apply occurs_symbol].
    - rewrite upd_length. exact (bi_res _ _ _ _ _ I).
    - destruct (bi_cur _ _ _ _ _ I) as (dc & P & Hdc & HP & SI).
      destruct (Nat.eq_dec p (bptr b)) as [->|Hne'].
      + exists d', P. unfold hget. cbn [bheap]. split; [apply vget_some; now apply upd_same|]. split; [easy|].
        rewrite Hd in Hdc. injection Hdc as <-. now apply (stat_inv_dict _ _ _ _ d).
      + exists dc, P. unfold hget. cbn [bheap]. split.
        { apply vget_some. rewrite upd_other by easy. now apply vget_ok in Hdc. }
        split; [easy|]. apply (stat_inv_dict _ _ _ _ dc); [easy|apply ext_refl|lia].
    - rewrite upd_length. exact (bi_own _ _ _ _ _ I).
    - apply forall_upd.
      + eapply Forall_impl; [|exact (bi_sizes _ _ _ _ _ I)]. intros x Hx. cbn beta in Hx. lia.
      + pose proof (proj1 (Forall_forall _ _) (bi_sizes _ _ _ _ _ I) d Hin) as Hx. cbn beta in Hx. lia.
  Qed.

  (** ** Histories *)
  Lemma processed_snoc ops (op : bop fl) : processed fl (ops ++ [op]) = (processed fl ops + op_length fl op)%Z.
  Proof. unfold processed. rewrite map_app. cbn [map]. apply zsum_snoc. Qed.
  Lemma accepted_snoc ops (op : bop fl) : accepted fl (ops ++ [op]) = accepted fl ops ++ op_accepted fl op.
  Proof. unfold accepted. rewrite flat_map_app. cbn [flat_map]. now rewrite app_nil_r. Qed.
  Lemma op_length_nonneg (op : bop fl) : (0 <= op_length fl op)%Z.
  Proof. destruct op; cbn; lia. Qed.
  Lemma processed_nonneg ops : (0 <= processed fl ops)%Z.
  Proof.
    unfold processed. apply zsum_nonneg. apply Forall_forall. intros x Hx. apply in_map_iff in Hx as (op & <- & _).
    apply op_length_nonneg.
  Qed.
  Lemma lengths_snoc N ops (op : bop fl) : lengths_ok fl N (ops ++ [op]) -> lengths_ok fl N ops /\
    (processed fl ops + op_length fl op <= 2 ^ 48)%Z /\ Forall (fun s : seq => Z.of_nat (length s) <= N)%Z (op_accepted fl op).
  Proof.
    intros (HN & Ha & Hp). rewrite accepted_snoc in Ha. apply Forall_app in Ha as [Ha1 Ha2]. rewrite processed_snoc in Hp.
    pose proof (op_length_nonneg op). split; [split; [easy|split; [easy|lia]]|]. split; [lia|easy].
  Qed.
  Lemma shared_snoc W0 ops (op : bop fl) : shared_known fl W0 (ops ++ [op]) -> shared_known fl W0 ops.
  Proof.
    intros H a p s freqs total b -> c Hc. apply (H a p s freqs total (b ++ [op])); [now rewrite <- app_assoc|easy].
  Qed.
  Lemma envs_snoc ops (op : bop fl) : envs_ok fl (ops ++ [op]) -> envs_ok fl ops.
  Proof. intros H e s Hi. apply (H e s). apply in_or_app. now left. Qed.

  Lemma hist_inv W0 B Size N b0 : binv W0 [] B Size b0 -> (kmax + N <= B <= 2 ^ 52)%Z -> (Size <= 2 ^ 50)%Z ->
    forall ops b, bhist fl b0 ops b -> envs_ok fl ops -> lengths_ok fl N ops -> shared_known fl W0 ops ->
    binv W0 (accepted fl ops) B (Size + 2 * processed fl ops) b.
  Proof.
    intros I0 HB HS. induction 1 as [|ops b op b' H IH Hstep]; intros He Hl Hk.
    - unfold processed. cbn. now rewrite Z.add_0_r.
    - pose proof Hl as ((HN1 & HN2) & _). destruct (lengths_snoc _ _ _ Hl) as (Hl' & Hp & Hn).
      specialize (IH (envs_snoc _ _ He) Hl' (shared_snoc _ _ _ Hk)).
      rewrite accepted_snoc, processed_snoc. pose proof (processed_nonneg ops) as Hpn.
      destruct op as [e s| |p s freqs total]; cbn [bstep op_accepted op_length] in *.
      + inversion_clear Hn as [|? ? Hs _].
        destruct (accept_inv W0 (accepted fl ops) B _ N e b s b' (He e s ltac:(apply in_or_app; right; now left)) IH HB Hs HN2) as [G _];
          [lia|easy|].
        now replace (Size + 2 * (processed fl ops + Z.of_nat (length s)))%Z with
          (Size + 2 * processed fl ops + 2 * Z.of_nat (length s))%Z by lia.
      + destruct Hstep as (fs & Hf). rewrite app_nil_r, Z.add_0_r.
        now destruct (freqs_inv _ _ _ _ _ _ _ IH Hf) as [G _].
      + destruct Hstep as (d & o & n & d' & Hd & Hw & ->). rewrite app_nil_r.
        replace (Size + 2 * (processed fl ops + Z.of_nat (length s)))%Z with
          (Size + 2 * processed fl ops + 2 * Z.of_nat (length s))%Z by lia.
        apply (shared_inv W0 _ B _ b p s freqs total d o n d' IH); try easy.
        intros c Hc. exact (Hk ops p s freqs total [] ltac:(reflexivity) c Hc).
  Qed.

  (** ** Starting points *)
  Lemma new_builder_inv size B : (0 <= B)%Z -> binv (fun _ => False) [] B 0 (new_builder fl size).
  Proof.
    intro HB. split; cbn.
    - constructor; [|constructor]. split; [|split]; try (intros w []).
      split; [easy|]. intros i j Hij. destruct i; discriminate Hij.
    - lia.
    - exists empty_dict, 0%Z. split; [easy|]. split; [unfold kmax; lia|]. split; try easy; try lia.
      + intro j. unfold at0. cbn. destruct j; lia.
      + intro j. unfold at0. cbn. destruct j; lia.
      + apply (cnt_ofZ fl L). unfold maxcount. lia.
      + unfold empty_stat. cbn [minp]. apply (lit_num fl L).
    - easy.
    - constructor; [cbn; lia|constructor].
  Qed.
  Lemma stat_start_inv (W0 : seq -> Prop) B ws mp init d st : mk_stat fl ws mp init = Ok (d, st) -> ~ In [] ws ->
    (forall w, In w ws -> W0 w) -> (0 <= B <= 2 ^ 52)%Z -> Forall (fun f => 0 <= f <= B)%Z (prior init) ->
    fnan fl mp = false ->
    dict_inv W0 [] d /\ stat_inv W0 [] B (Z.of_nat (length ws)) d st 0.
  Proof.
    intros H Hne Hw HB Hf Hmp.
    destruct (mk_stat_ok fl ws mp init) as (d1 & st1 & H' & _ & Hs & Hlk & E1 & E2 & E3 & E4 & E5 & E6 & E7).
    rewrite H in H'. injection H' as <- <-.
    assert (Hin : forall w, In w (seqs d) -> In w ws).
    { intros w Hx. rewrite Hs in Hx. exact (Permutation_in _ (isort_perm ws) Hx). }
    assert (Hdn : dsize d = length ws) by (unfold dsize; rewrite Hs; apply isort_length).
    split.
    - split; [now apply links_wf|]. split.
      + intros w Hx ->. now apply Hin in Hx.
      + intros w Hx. left. now apply Hw, Hin.
    - split; try easy; try lia.
      + intro j. rewrite E1, at0_repeat. lia.
      + intro j. rewrite E2, at0_pad.
        pose proof (proj1 (forall_at0 (fun f => (0 <= f <= B)%Z) (prior init) ltac:(cbn beta; lia)) Hf j) as Hj. cbn beta in Hj. lia.
      + rewrite E4. destruct init as [l|]; [|apply (cnt_ofZ fl L); unfold maxcount; lia].
        unfold fsumZ. apply (fsumZ_cnt fl L).
        * apply (cnt_ofZ fl L). unfold maxcount. lia.
        * eapply Forall_impl; [|exact Hf]. intros a Ha. cbn beta in Ha. unfold maxcount. lia.
      + rewrite E5. easy.
      + rewrite E5. unfold all_pairs. cbn. lia.
      + now rewrite E6.
      + rewrite E1. apply zsum_zeros.
  Qed.
  Lemma builder_dict_inv d size b B : new_builder_dict fl d size = Ok b -> ~ In [] (seqs d) -> (0 <= B <= 2 ^ 52)%Z ->
    binv (fun w => In w (seqs d)) [] B (Z.of_nat (dsize d)) b.
  Proof.
    intros H Hne HB. unfold new_builder_dict in H. apply bind_ok in H as ([d' st] & Hm & H). injection H as <-.
    destruct (stat_start_inv (fun w => In w (seqs d)) B _ _ _ _ _ Hm Hne) as [D S]; try easy.
    { constructor. } { apply (lit_num fl L). }
    split; cbn [bheap bptr bcur bres result_ptr]; try easy.
    - constructor; [easy|constructor].
    - cbn. lia.
    - exists d', 0%Z. split; [easy|]. split; [unfold kmax; lia|exact S].
    - constructor; [|constructor]. pose proof (si_size _ _ _ _ _ _ _ S). unfold dsize in *. lia.
  Qed.
  Lemma builder_loaded_inv d fs alpha mp b B : new_builder_loaded fl d fs alpha mp = Ok b -> ~ In [] (seqs d) ->
    (0 <= B <= 2 ^ 52)%Z -> Forall (fun f => 0 <= f <= B)%Z fs -> fnan fl mp = false ->
    binv (fun w => In w (seqs d)) [] B (Z.of_nat (dsize d)) b.
  Proof.
    intros H Hne HB Hf Hmp. unfold new_builder_loaded in H. apply bind_ok in H as ([d' st] & Hm & H). injection H as <-.
    destruct (stat_start_inv (fun w => In w (seqs d)) B _ _ _ _ _ Hm Hne) as [D S]; try easy.
    split; cbn [bheap bptr bcur bres result_ptr]; try easy.
    - constructor; [easy|constructor].
    - cbn. lia.
    - exists d', 0%Z. split; [easy|]. split; [unfold kmax; lia|exact S].
    - constructor; [|constructor]. pose proof (si_size _ _ _ _ _ _ _ S). unfold dsize in *. lia.
  Qed.

  (** ** Which dictionary is the result *)
  Definition heap_wf (b : builder fl) : Prop := Forall wf_dict (bheap b) /\ bptr b < length (bheap b).
  Lemma mk_stat_wf ws mp init d st : mk_stat fl ws mp init = Ok (d, st) -> wf_dict d.
  Proof.
    intro H. destruct (mk_stat_ok fl ws mp init) as (d1 & st1 & H' & _ & Hs & Hlk & _). rewrite H in H'. injection H' as <- <-.
    now apply links_wf.
  Qed.
  Lemma stat_parse_ext d (st : sstat fl) s ids n d' st' : wf_dict d -> stat_parse fl d st s [] = Ok (ids, n, d', st') ->
    wf_dict d' /\ extends_by_symbols (seqs d) (seqs d').
  Proof.
    intros Hwf H. unfold stat_parse in H. apply bind_ok in H as ([[o m] d1] & Hp & H). apply bind_ok in H as (st2 & _ & H).
    injection H as _ _ <- _. now destruct (parse_new _ _ _ _ _ _ _ _ _ Hwf Hp) as (H1 & H2 & _).
  Qed.
  Lemma heap_wf_step b op b' : heap_wf b -> bstep fl b op b' -> heap_wf b'.
  Proof.
    intros [H Hp] Hs. destruct op as [e s| |p s freqs total]; cbn [bstep] in Hs.
    - apply accept_cases in Hs as (d & ids & n & d1 & st1 & Hd & Hps & Hs). destruct (hget_in _ _ _ Hd) as [Hin _].
      destruct (stat_parse_ext _ _ _ _ _ _ _ (proj1 (Forall_forall _ _) H d Hin) Hps) as [Hw _].
      destruct Hs as [[_ ->]|(_ & ws & fs & mp & d' & st' & prob & best & turns & _ & Hm & ->)]; split; unfold parsed; cbn [bheap bptr].
      + now apply forall_upd.
      + now rewrite upd_length.
      + apply Forall_app. split; [now apply forall_upd|]. constructor; [now apply mk_stat_wf in Hm|constructor].
      + rewrite app_length, upd_length. cbn. lia.
    - destruct Hs as (fs & Hs). unfold result_freqs in Hs. apply bind_ok in Hs as (d & _ & Hs).
      destruct (bres b); injection Hs as _ <-; now split.
    - destruct Hs as (d & o & n & d' & Hd & Hw & ->). destruct (hget_in _ _ _ Hd) as [Hin _].
      destruct (parse_new _ _ _ _ _ _ _ _ _ (proj1 (Forall_forall _ _) H d Hin) Hw) as (Hw' & _).
      split; unfold hput; cbn [bheap bptr]; [now apply forall_upd|now rewrite upd_length].
  Qed.

  (** What a step does to the dictionaries already there: they only gain symbols. *)
  Lemma heap_step b op b' p d : heap_wf b -> bstep fl b op b' -> hget fl b p = Ok d ->
    exists d', hget fl b' p = Ok d' /\ extends_by_symbols (seqs d) (seqs d').
  Proof.
    intros [H _] Hs Hd. destruct (hget_in _ _ _ Hd) as [Hin Hlt].
    destruct op as [e s| |q s freqs total]; cbn [bstep] in Hs.
    - apply accept_cases in Hs as (d0 & ids & n & d1 & st1 & Hd0 & Hps & Hs). destruct (hget_in _ _ _ Hd0) as [Hin0 _].
      destruct (stat_parse_ext _ _ _ _ _ _ _ (proj1 (Forall_forall _ _) H d0 Hin0) Hps) as [_ Hx].
      assert (G : exists d', nth_error (upd (bheap b) (bptr b) d1) p = Some d' /\ extends_by_symbols (seqs d) (seqs d')).
      { destruct (Nat.eq_dec (bptr b) p) as [E|E].
        - exists d1. subst p. split; [now apply upd_same|]. rewrite Hd in Hd0. now injection Hd0 as <-.
        - exists d. split; [rewrite upd_other by easy; now apply vget_ok in Hd|apply ext_refl]. }
      destruct G as (d' & Hn & Hx'). exists d'. split; [|easy].
      destruct Hs as [[_ ->]|(_ & ws & fs & mp & d2 & st2 & prob & best & turns & _ & Hm & ->)]; unfold hget, parsed; cbn [bheap];
        apply vget_some; [easy|]. rewrite nth_error_app1; [easy|rewrite upd_length; lia].
    - destruct Hs as (fs & Hs). exists d. split; [|apply ext_refl]. unfold result_freqs in Hs. apply bind_ok in Hs as (dd & _ & Hs).
      destruct (bres b); injection Hs as _ <-; exact Hd.
    - destruct Hs as (d0 & o & n & d1 & Hd0 & Hw & ->). destruct (hget_in _ _ _ Hd0) as [Hin0 _].
      destruct (parse_new _ _ _ _ _ _ _ _ _ (proj1 (Forall_forall _ _) H d0 Hin0) Hw) as (_ & Hx & _).
      unfold hput, hget. cbn [bheap]. destruct (Nat.eq_dec q p) as [->|E].
      + exists d1. split; [apply vget_some; now apply upd_same|]. rewrite Hd in Hd0. now injection Hd0 as <-.
      + exists d. split; [apply vget_some; rewrite upd_other by easy; now apply vget_ok in Hd|apply ext_refl].
  Qed.

  (** The result pointer across one step. *)
  Lemma result_step b op b' : bstep fl b op b' ->
    (reduced fl b b' /\ bres b' = RSame) \/
    (~ reduced fl b b' /\ (bres b = RNull -> bres b' = RNull) /\
      (bres b <> RNull -> bres b' <> RNull /\ result_ptr fl b' = result_ptr fl b)).
  Proof.
    intro Hs. destruct op as [e s| |q s freqs total]; cbn [bstep] in Hs.
    - apply accept_cases in Hs as (d0 & ids & n & d1 & st1 & Hd0 & Hps & Hs). unfold reduced, updated.
      destruct Hs as [[_ ->]|(_ & ws & fs & mp & d2 & st2 & prob & best & turns & _ & Hm & ->)]; unfold parsed; cbn [bheap].
      + right. split; [rewrite upd_length; lia|]. split; [easy|]. now split.
      + rewrite app_length, upd_length. cbn [length]. unfold next_res, result_ptr. cbn [bres bptr].
        destruct (bpop b); [right|left; split; [split; [lia|easy]|easy]].
        split; [intros [_ [=]]|]. split; [now intros ->|]. intro Hn. destruct (bres b); easy.
    - destruct Hs as (fs & Hs). right. unfold result_freqs in Hs. apply bind_ok in Hs as (dd & _ & Hs). unfold reduced, updated, result_ptr.
      destruct (bres b) eqn:E; injection Hs as _ <-; cbn [bheap bres bptr]; rewrite ?E; (split; [lia|]); (split; [easy|]); easy.
    - destruct Hs as (d0 & o & n & d1 & Hd0 & Hw & ->). right. unfold reduced, updated, result_ptr, hput. cbn [bheap bres bptr].
      rewrite upd_length. split; [lia|]. now split.
  Qed.

  Definition result_is (b : builder fl) (r : option (nat * list seq)) : Prop :=
    match r with
    | None => bres b = RNull
    | Some (p, ws) => bres b <> RNull /\ result_ptr fl b = p /\ exists d, hget fl b p = Ok d /\ extends_by_symbols ws (seqs d)
    end.
  Lemma rhist_result b0 r0 : heap_wf b0 -> result_is b0 r0 -> forall ops r b, rhist fl b0 r0 ops r b -> heap_wf b /\ result_is b r.
  Proof.
    intros W0 R0. induction 1 as [|ops r b op b' d H [IW IR] Hs Hr Hd|ops r b op b' H [IW IR] Hs Hr]; [easy| |].
    - split; [now apply (heap_wf_step b op)|]. destruct (result_step _ _ _ Hs) as [[_ E]|[Hn _]]; [|easy].
      cbn. rewrite E. split; [easy|]. split; [unfold result_ptr; now rewrite E|]. exists d. split; [easy|apply ext_refl].
    - split; [now apply (heap_wf_step b op)|]. destruct (result_step _ _ _ Hs) as [[Hn _]|(_ & E1 & E2)]; [easy|].
      destruct r as [[p ws]|]; cbn in *; [|now apply E1].
      destruct IR as (Hn & Hp & d & Hd & Hx). destruct (E2 Hn) as [G1 G2]. split; [easy|]. split; [now rewrite G2|].
      destruct (heap_step _ _ _ _ _ IW Hs Hd) as (d' & Hd' & Hx'). exists d'. split; [easy|].
      destruct Hx as (c1 & E3), Hx' as (c2 & E4). exists (c1 ++ c2). now rewrite E4, E3, map_app, app_assoc.
  Qed.
  Lemma rhist_exists b0 r0 : heap_wf b0 -> forall ops b, bhist fl b0 ops b -> exists r, rhist fl b0 r0 ops r b.
  Proof.
    intros W0. induction 1 as [|ops b op b' H [r IH] Hs]; [exists r0; constructor|].
    assert (W : heap_wf b). { clear - H W0. induction H; [easy|]. eapply heap_wf_step; eauto. }
    assert (W' : heap_wf b') by (eapply heap_wf_step; eauto).
    destruct (result_step _ _ _ Hs) as [[Hr _]|[Hr _]].
    - destruct W' as [_ Hl]. destruct (nth_error (bheap b') (bptr b')) as [d|] eqn:E.
      + exists (Some (bptr b', seqs d)). apply (rh_reduction fl b0 r0 ops r b op b' d IH Hs Hr). now apply vget_some.
      + apply nth_error_None in E. lia.
    - exists r. now apply (rh_other fl b0 r0 ops r b op b').
  Qed.
End Builder.
