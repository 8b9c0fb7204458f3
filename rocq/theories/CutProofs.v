(** Dividing the beginning of a sequence: the table of the weighted parse for a prefix is the beginning of the table for the whole. *)
From Verif Require Import ExpandProofs Base Spec FloatOps FloatLaws OrderProofs DictProofs GreedyProofs DpProofs WeightedProofs ModelDict Maps
  ModelCoder SpecCoder CoderProofs ModelStat ModelBuilder ModelStream ModelVGram SpecStat SpecBuilder SpecStream StatProofs RunProofs
  ReduceProofs LearnProofs BuilderProofs BuilderSafe BuilderOwn StreamProofs VGramProofs PropsDictLemmas BestProofs SpecWeight SpecVGram SpecStream SpecBest.

Lemma firstn_upd_out {A} (l : list A) m i a : m <= i -> firstn m (upd l i a) = firstn m l.
Proof. revert m i. induction l as [|x l IH]; intros [|m] [|i] H; cbn; try easy; try lia. f_equal. apply IH. lia. Qed.
Lemma firstn_upd_in {A} (l : list A) m i a : i < m -> firstn m (upd l i a) = upd (firstn m l) i a.
Proof. revert m i. induction l as [|x l IH]; intros [|m] [|i] H; cbn; try easy; try lia. f_equal. apply IH. lia. Qed.
Lemma vget_firstn {A} (l : list A) m i : i < m -> vget (firstn m l) i = vget l i.
Proof. unfold vget. revert m i. induction l as [|x l IH]; intros [|m] [|i] H; cbn; try easy; try lia. apply (IH m i). lia. Qed.

Section C.
  Context (fl : fops) (d : dict) (freqs : list Z) (total : F fl).
  Context (Hfd : full_dict d) (Hne : forall w, In w (seqs d) -> w <> []).
  Let lp sym := sym_log_prob fl freqs total (dsize d) sym.
  Notation relax := (relax fl). Notation relax1 := (relax1 fl freqs total).

  (** The first [n] + 1 entries of the table. *)
  Definition cut (n : nat) (st : dp fl) : dp fl := (firstn (S n) (fst st), firstn (S n) (snd st)).

  Lemma relax1_out n pos sym w st st' : n < length w + pos -> relax1 d pos sym w st = Ok st' -> cut n st' = cut n st.
  Proof.
    intros H E. unfold DpProofs.relax1 in E. apply bind_ok in E as (old & _ & E). apply bind_ok in E as (here & _ & E).
    destruct (fltb fl old _); [|now injection E as <-]. apply bind_ok in E as (sc & E1 & E). apply bind_ok in E as (sy & E2 & E). injection E as <-.
    unfold vset in E1, E2. destruct (Nat.ltb _ _) in E1; [|discriminate E1]. destruct (Nat.ltb _ _) in E2; [|discriminate E2]. injection E1 as <-. injection E2 as <-.
    unfold cut. cbn [fst snd]. now rewrite !firstn_upd_out by lia.
  Qed.
  Lemma relax1_in n pos sym w st st' : length w + pos <= n -> relax1 d pos sym w st = Ok st' -> relax1 d pos sym w (cut n st) = Ok (cut n st').
  Proof.
    intros H E. unfold DpProofs.relax1 in *. cbn [cut fst snd]. rewrite !vget_firstn by lia. apply bind_ok in E as (old & -> & E). apply bind_ok in E as (here & -> & E). cbn [bind].
    destruct (fltb fl old _); [|now injection E as <-]. apply bind_ok in E as (sc & E1 & E). apply bind_ok in E as (sy & E2 & E). injection E as <-.
    unfold vset in *. destruct (Nat.ltb_spec (length w + pos) (length (fst st))) as [L1|]; [|discriminate E1]. destruct (Nat.ltb_spec (length w + pos) (length (snd st))) as [L2|]; [|discriminate E2].
    injection E1 as <-. injection E2 as <-. rewrite !firstn_length.
    destruct (Nat.ltb_spec (length w + pos) (Nat.min (S n) (length (fst st)))) as [_|]; [|lia]. cbn [bind].
    destruct (Nat.ltb_spec (length w + pos) (Nat.min (S n) (length (snd st)))) as [_|]; [|lia]. cbn [bind]. unfold cut. cbn [fst snd]. now rewrite !firstn_upd_in by lia.
  Qed.

  Lemma relax_more fuel : forall pos sym st st' k, relax fuel d freqs total pos sym st = Ok st' -> relax (fuel + k) d freqs total pos sym st = Ok st'.
  Proof.
    induction fuel as [|fuel IH]; intros pos sym st st' k E; [discriminate E|]. change (S fuel + k) with (S (fuel + k)). rewrite relax_unfold in *.
    apply bind_ok in E as (w & -> & E). cbn [bind]. apply bind_ok in E as (s1 & -> & E). cbn [bind]. apply bind_ok in E as (p & -> & E). cbn [bind].
    destruct p; [now apply IH|exact E].
  Qed.
  Lemma word_ne i w : word_at (seqs d) i w -> 0 < length w.
  Proof. intro H. apply nth_error_In in H. apply Hne in H. destruct w; [easy|cbn; lia]. Qed.
  Lemma relax_out fuel : forall n pos sym st st', n <= pos -> relax fuel d freqs total pos sym st = Ok st' -> cut n st' = cut n st.
  Proof.
    induction fuel as [|fuel IH]; intros n pos sym st st' Hn E; [discriminate E|]. rewrite relax_unfold in E.
    apply bind_ok in E as (w & Ew & E). apply bind_ok in E as (s1 & E1 & E). apply bind_ok in E as (p & _ & E).
    unfold get in Ew. apply vget_ok in Ew. pose proof (word_ne _ _ Ew). apply relax1_out with (n := n) in E1; [|lia].
    destruct p as [j|]; [rewrite (IH _ _ _ _ _ Hn E); exact E1|injection E as <-; exact E1].
  Qed.
  (** A word that ends within the first [n] symbols, and the words above it in the chain. *)
  Lemma relax_in fuel : forall n pos sym w st st', word_at (seqs d) sym w -> length w + pos <= n -> relax fuel d freqs total pos sym st = Ok st' ->
    relax fuel d freqs total pos sym (cut n st) = Ok (cut n st').
  Proof.
    induction fuel as [|fuel IH]; intros n pos sym w st st' Hw Hn E; [discriminate E|]. rewrite relax_unfold in *.
    apply bind_ok in E as (w1 & Ew & E). rewrite Ew. cbn [bind]. unfold get in Ew. apply vget_ok in Ew. unfold word_at in Hw. rewrite Hw in Ew. injection Ew as <-.
    apply bind_ok in E as (s1 & E1 & E). rewrite (relax1_in _ _ _ _ _ _ Hn E1). cbn [bind]. apply bind_ok in E as (p & Ep & E). rewrite Ep. cbn [bind].
    destruct p as [j|]; [|now injection E as <-]. unfold parent in Ep. apply vget_ok in Ep.
    destruct (links_wf d (proj2 Hfd)) as [_ Hp]. destruct (Hp sym j Ep) as (_ & v & w' & Hv & Hw' & Hvw). unfold word_at in Hw'. rewrite Hw in Hw'. injection Hw' as <-.
    apply prefix_length in Hvw. apply (IH n pos j v); [exact Hv|lia|exact E].
  Qed.
  Lemma full_index i j w : word_at (seqs d) i w -> word_at (seqs d) j w -> i = j.
  Proof.
    intros Hi Hj. destruct (lt_eq_lt_dec i j) as [[H|H]|H]; [|exact H|]; exfalso.
    - exact (lex_lt_irrefl w (strict_nth _ i j w w (proj1 Hfd) Hi Hj H)).
    - exact (lex_lt_irrefl w (strict_nth _ j i w w (proj1 Hfd) Hj Hi H)).
  Qed.
  Lemma prefix_short (v u r : seq) : prefix v (u ++ r) -> length v <= length u -> prefix v u.
  Proof.
    intros [t Ht] Hl. exists (firstn (length u - length v) t). apply (f_equal (firstn (length u))) in Ht. rewrite firstn_app, Nat.sub_diag, firstn_all in Ht. cbn [firstn] in Ht. rewrite app_nil_r in Ht.
    rewrite firstn_app in Ht. now rewrite (firstn_all2 v) in Ht by lia.
  Qed.
  Lemma relax_cut u r pos n sym' : n = pos + length u -> longest_prefix (seqs d) (fun k => allowed None k = true) u sym' ->
    forall fuel sym w st st', word_at (seqs d) sym w -> prefix w (u ++ r) -> anc d sym sym' -> relax fuel d freqs total pos sym st = Ok st' ->
    relax fuel d freqs total pos sym' (cut n st) = Ok (cut n st').
  Proof.
    intros Hn (w' & Hw' & Hpu & _ & Hmax). induction fuel as [|fuel IH]; intros sym w st st' Hw Hp Ha E; [discriminate E|].
    destruct (le_lt_dec (length w) (length u)) as [Hs|Hl].
    - assert (Hwu : prefix w u) by now apply prefix_short with r. specialize (Hmax sym w Hw Hwu eq_refl).
      destruct (anc_prefix d sym sym' w (links_wf d (proj2 Hfd)) Ha Hw) as (v & Hv & Hvw). unfold word_at in Hv, Hw'. rewrite Hw' in Hv. injection Hv as <-.
      assert (w' = w). { destruct Hvw as [t Ht]. subst w. rewrite app_length in Hmax. destruct t; [now rewrite app_nil_r|cbn in Hmax; lia]. }
      subst w'. rewrite (full_index _ _ _ Hw' Hw). apply (relax_in _ n pos sym w); [exact Hw|lia|exact E].
    - rewrite relax_unfold in E. apply bind_ok in E as (w1 & Ew & E). unfold get in Ew. apply vget_ok in Ew. unfold word_at in Hw. rewrite Hw in Ew. injection Ew as <-.
      apply bind_ok in E as (s1 & E1 & E). apply relax1_out with (n := n) in E1; [|lia]. apply bind_ok in E as (p & Ep & E). unfold parent in Ep. apply vget_ok in Ep.
      inversion Ha as [i|i j k Hpj Ha']; subst.
      + unfold word_at in Hw'. rewrite Hw in Hw'. injection Hw' as <-. apply prefix_length in Hpu. lia.
      + rewrite Hpj in Ep. injection Ep as <-. destruct (links_wf d (proj2 Hfd)) as [_ Hpp]. destruct (Hpp sym j Hpj) as (_ & v & w1 & Hv & Hw1 & Hvw).
        unfold word_at in Hw1. rewrite Hw in Hw1. injection Hw1 as <-. rewrite <- E1. replace (S fuel) with (fuel + 1) by lia. apply relax_more.
        apply (IH j v s1); [exact Hv|now apply prefix_trans with w|exact Ha'|exact E].
  Qed.

  Lemma find_hit c rest : In [c] (seqs d) -> exists i, search d (c :: rest) None = Ok (Some i, d) /\ longest_prefix (seqs d) (fun k => allowed None k = true) (c :: rest) i.
  Proof.
    intro Hi. pose proof (search_full d (c :: rest) None Hfd ltac:(easy)) as H. apply In_nth_error in Hi as [k Hk].
    destruct (search d (c :: rest) None) as [[[i|] d1]| | |]; try contradiction.
    - destruct H as [[-> Hl]|(_ & Hno & _)]; [now exists i|]. exfalso. apply (Hno k [c] Hk); [now exists rest|easy].
    - now destruct H as (_ & H & _).
  Qed.
  Lemma dp_out : forall r pos n st st', covers (seqs d) r -> n <= pos -> dp_loop fl true d freqs total None pos r st = Ok (st', d) -> cut n st' = cut n st.
  Proof.
    induction r as [|c r IH]; intros pos n st st' Hc Hn E; [now injection E as <-|]. cbn [dp_loop] in E.
    destruct (find_hit c r (Hc c (or_introl eq_refl))) as (i & Ei & _). rewrite Ei in E. cbn [bind] in E. apply bind_ok in E as (s1 & E1 & E).
    apply IH with (n := n) in E; [|intros x Hx; apply Hc; now right|lia]. rewrite E. exact (relax_out _ n _ _ _ _ Hn E1).
  Qed.
  Lemma dp_cut : forall u r pos n st st', covers (seqs d) (u ++ r) -> n = pos + length u -> dp_loop fl true d freqs total None pos (u ++ r) st = Ok (st', d) ->
    dp_loop fl true d freqs total None pos u (cut n st) = Ok (cut n st', d).
  Proof.
    induction u as [|c u IH]; intros r pos n st st' Hc Hn E.
    - cbn [app dp_loop] in *. rewrite (dp_out r pos n st st' Hc ltac:(cbn in Hn; lia) E). reflexivity.
    - change ((c :: u) ++ r) with (c :: (u ++ r)) in *. cbn [dp_loop] in *. pose proof (Hc c (or_introl eq_refl)) as H1.
      destruct (find_hit c (u ++ r) H1) as (i & Ei & Hi). destruct (find_hit c u H1) as (i' & Ei' & Hi'). rewrite Ei in E. rewrite Ei'. cbn [bind] in *.
      apply bind_ok in E as (s1 & E1 & E). destruct Hi as (w & Hw & Hpw & _ & Hm). pose proof Hi' as (w' & Hw' & Hpw' & _ & _).
      assert (Hpp : prefix w' (c :: u ++ r)) by (destruct Hpw' as [t Ht]; exists (t ++ r); rewrite app_assoc, <- Ht; reflexivity).
      assert (Ha : anc d i i').
      { apply (full_anc d Hfd i i' w' w Hw Hw'). specialize (Hm i' w' Hw' Hpp eq_refl). destruct Hpw as [t Ht]. rewrite Ht in Hpp. now apply prefix_short with t. }
      rewrite (relax_cut (c :: u) r pos n i' Hn Hi' _ i w st s1 Hw Hpw Ha E1). cbn [bind].
      apply (IH r); [intros x Hx; apply Hc; now right|cbn [length] in Hn; lia|exact E].
  Qed.

  (** Backtracking from a point that was passed. *)
  Lemma backtrack_pass symbols : forall slots pos acc ids, backtrack false d symbols slots pos acc = Ok ids ->
    exists l us, ids = l ++ acc /\ Forall2 (word_at (seqs d)) l us /\ length (concat us) = pos /\
      forall a b ua, l = a ++ b -> Forall2 (word_at (seqs d)) a ua -> forall slots' acc', length (concat ua) <= slots' ->
      backtrack false d symbols slots' (length (concat ua)) acc' = Ok (a ++ acc').
  Proof.
    induction slots as [|slots IH]; intros [|pos] acc ids E; cbn [backtrack] in E.
    1, 3: injection E as <-; exists [], []; repeat split; [constructor|]; intros [|x a] b ua Hl Hu slots' acc' _; [|discriminate Hl]; inversion Hu; subst; destruct slots'; reflexivity.
    { apply bind_ok in E as (sym & _ & E). discriminate E. }
    apply bind_ok in E as (sym & Es & E). apply bind_ok in E as (w & Ew & E). destruct (Nat.leb_spec (length w) (S pos)) as [Hw|]; [|discriminate E].
    destruct (IH _ _ _ E) as (l & us & -> & Hl & Hp & G). pose proof Ew as Hw'. unfold get in Hw'. apply vget_ok in Hw'. pose proof (word_ne _ _ Hw') as Hw0.
    exists (l ++ [sym]), (us ++ [w]). split; [now rewrite <- app_assoc|]. split; [apply Forall2_app; [exact Hl|repeat constructor; exact Hw']|].
    split; [rewrite concat_app, app_length; cbn; rewrite app_nil_r; lia|]. intros a b ua El Hu slots' acc' Hs'.
    destruct b as [|y b].
    - rewrite app_nil_r in El. subst a. apply Forall2_app_inv_l in Hu as (u1 & u2 & H1 & H2 & ->). inversion H2 as [|? v ? ? Hv H3]; subst. inversion H3; subst.
      unfold word_at in Hv. rewrite Hw' in Hv. injection Hv as <-. rewrite concat_app, app_length in *. cbn [concat] in *. rewrite app_nil_r in *.
      assert (length (concat u1) = length (concat us)).
      { clear -H1 Hl. revert us Hl. induction H1 as [|i v l u1 Hv H1 IH]; intros us Hl; inversion Hl as [|? v' ? us' Hv' Hl']; subst; [easy|].
        unfold word_at in *. rewrite Hv in Hv'. injection Hv' as <-. cbn [concat]. rewrite !app_length. f_equal. now apply IH. }
      replace (length (concat u1) + length w) with (S pos) by lia. destruct slots' as [|slots']; [lia|]. cbn [backtrack]. rewrite Es. cbn [bind]. rewrite Ew. cbn [bind].
      destruct (Nat.leb_spec (length w) (S pos)) as [_|]; [|lia]. rewrite <- app_assoc. cbn [app]. replace (S pos - length w) with (length (concat u1)) by lia.
      apply (G l [] u1); [now rewrite app_nil_r|exact H1|lia].
    - assert (Hb : exists b', y :: b = b' ++ [sym] /\ l = a ++ b').
      { destruct (exists_last (l := y :: b) ltac:(easy)) as (b' & x & Eb). exists b'. rewrite Eb, app_assoc in El. apply app_inj_tail in El as [El ->]. now rewrite Eb. }
      destruct Hb as (b' & _ & El'). exact (G a b' ua El' Hu slots' acc' Hs').
  Qed.
  Lemma backtrack_cut n symbols : forall slots pos acc, pos <= n -> backtrack false d (firstn (S n) symbols) slots pos acc = backtrack false d symbols slots pos acc.
  Proof.
    induction slots as [|slots IH]; intros [|pos] acc H; cbn [backtrack]; try reflexivity.
    - now rewrite vget_firstn by lia.
    - rewrite vget_firstn by lia. destruct (vget symbols (S pos)) as [sym| | |]; cbn [bind]; try reflexivity.
      destruct (get d sym) as [w| | |]; cbn [bind]; try reflexivity. destruct (Nat.leb _ _); [apply IH; lia|reflexivity].
  Qed.
  Lemma cut_repeat {A} (x : A) n k : firstn n (repeat x (n + k)) = repeat x n.
  Proof. induction n as [|n IH]; [reflexivity|]. cbn. now rewrite IH. Qed.

  Lemma parse_cut q ids n a b u : parse_weighted fl d q freqs total [] = Ok (ids, n, d) -> covers (seqs d) q -> ids = a ++ b -> spells (seqs d) a u -> spells (seqs d) ids q ->
    parse_weighted fl d u freqs total [] = Ok (a, length a, d).
  Proof.
    intros E Hc -> (ua & Ha & <-) (us & Hs & <-). apply Forall2_app_inv_l in Hs as (ua' & ub & Ha' & Hb & ->).
    assert (ua' = ua).
    { clear -Ha Ha'. revert ua' Ha'. induction Ha as [|i w a ua Hw Ha IH]; intros ua' H; inversion H as [|? w' ? ua2 Hw' H']; subst; [easy|]. unfold word_at in *. rewrite Hw in Hw'. injection Hw' as <-. f_equal. now apply IH. }
    subst ua'. rewrite concat_app in *. set (u := concat ua) in *. set (r := concat ub) in *.
    unfold parse_weighted, weighted_parse in *. apply bind_ok in E as ([[res sc] d'] & E & E0). cbn [app] in E0. injection E0 as -> _ ->.
    apply bind_ok in E as ([st d'] & E1 & E). apply bind_ok in E as (res' & E2 & E). apply bind_ok in E as (sc' & E3 & E). injection E as -> -> ->.
    assert (HI : cut (length u) (fofZ fl 0 :: repeat (flowest fl) (length (u ++ r)), repeat 0%nat (S (length (u ++ r)))) = (fofZ fl 0 :: repeat (flowest fl) (length u), repeat 0%nat (S (length u)))).
    { unfold cut. cbn [fst snd]. rewrite app_length. f_equal; [cbn [firstn]; f_equal; apply cut_repeat|exact (cut_repeat 0%nat (S (length u)) (length r))]. }
    pose proof (dp_cut u r 0 (length u) _ _ Hc eq_refl E1) as D. rewrite HI in D. rewrite D. cbn [bind cut fst snd].
    destruct (backtrack_pass _ _ _ _ _ E2) as (l & us & El & _ & _ & G). rewrite app_nil_r in El. subst l.
    rewrite backtrack_cut by lia. pose proof (G a b ua eq_refl Ha (length u) [] (le_n _)) as B. fold u in B. rewrite B. rewrite app_nil_r. cbn [bind]. rewrite vget_firstn by lia.
    apply vget_ok in E3.
    assert (exists x, vget (fst st) (length u) = Ok x) as [x ->].
    { apply nth_some_lt in E3. rewrite app_length in E3. destruct (nth_lt (fst st) (length u) ltac:(lia)) as [x Hx]. exists x. now apply vget_ok. }
    cbn [bind app]. reflexivity.
  Qed.
End C.
