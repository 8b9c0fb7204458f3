(** Proofs about expand. *)
From Verif Require Import Base Spec FloatOps FloatLaws ModelDict Maps ModelStat SpecStat OrderProofs
  DictProofs GreedyProofs DpProofs WeightedProofs ReachProofs StatProofs.

(** foldM as a relation on success. *)
Lemma foldM_app {A S} (f : S -> A -> outcome S) l1 l2 s :
  foldM f (l1 ++ l2) s = (s' <- foldM f l1 s ;; foldM f l2 s').
Proof.
  revert s. induction l1 as [|a l1 IH]; intro s; [easy|]. cbn [foldM app].
  destruct (f s a); cbn [bind]; auto.
Qed.

Section Expand.
  Context (fl : fops) (L : flaws fl).

  (** Words. *)
  Definition word_item (st : sstat fl) (i : nat) : item fl := mkItem None i (fmax fl) (freq fl st i).
  Lemma expand_words_full d (st : sstat fl) : full_dict d -> no_empty d ->
    expand_words fl d st (seqs d) = Ok (map (word_item st) (List.seq 0 (dsize d))).
  Proof.
    intros Hf Hne.
    assert (H : forall ws k, (forall i, nth_error ws i = nth_error (seqs d) (k + i)) ->
      expand_words fl d st ws = Ok (map (word_item st) (List.seq k (length ws)))).
    { induction ws as [|w ws IH]; intros k Hk; [easy|].
      pose proof (Hk 0) as H0. rewrite Nat.add_0_r in H0. cbn in H0. symmetry in H0.
      cbn [expand_words].
      rewrite (search_self d k w None Hf H0); [|left; apply Hne; now apply nth_error_In in H0|easy].
      cbn [bind]. rewrite Nat.eqb_refl.
      rewrite (IH (S k)). { easy. }
      intro i. specialize (Hk (S i)). cbn in Hk. rewrite Hk. f_equal. lia. }
    apply (H (seqs d) 0). easy.
  Qed.
  (** Whatever the dictionary, the items name words of it. *)
  Lemma expand_words_sound d (st : sstat fl) : wf_dict d -> forall ws its,
    expand_words fl d st ws = Ok its ->
    Forall (fun it => first it = None /\ score it = fmax fl /\ second it < dsize d /\
                      icount it = freq fl st (second it)) its /\ length its = length ws.
  Proof.
    intros Hwf. induction ws as [|w ws IH]; intros its H; cbn [expand_words] in H.
    - injection H as <-. now split.
    - apply bind_ok in H as ((r & d') & Hs & H). destruct r as [i|]; [|discriminate].
      destruct (Nat.eqb_spec (dsize d') (dsize d)) as [E|]; [|discriminate].
      apply bind_ok in H as (its' & H' & H). injection H as <-.
      destruct (IH _ H') as [H1 H2]. split; [|cbn [length]; lia].
      constructor; [|easy]. cbn. split; [easy|]. split; [easy|]. split; [|easy].
      destruct w as [|c w].
      + (* the empty word: found, or an out-of-range read *)
        unfold search in Hs. apply bind_ok in Hs as (ix & Hlb & Hs).
        destruct (lower_bound_spec (seqs d) []) as (r & Hr & Hle & Hr' & _). rewrite Hr in Hlb.
        injection Hlb as <-. destruct r as [|r].
        * apply bind_ok in Hs as (hit & Hh & Hs). destruct hit.
          { injection Hs as <- <-. destruct (Nat.ltb_spec 0 (dsize d)); [easy|]. discriminate. }
          cbn in Hs. discriminate.
        * destruct (Hr' r eq_refl) as (w & _ & Hw). apply lex_ltb_spec in Hw.
          destruct Hw as [(y & r0 & E2)|(c & x & y & r1 & r2 & _ & E2 & _)].
          { destruct w; discriminate. }
          { destruct c; discriminate. }
      + destruct (search_wf d (c :: w) None Hwf) as (r & d1 & Hs1 & _ & _ & _ & _ & _ & Hi); [easy|].
        rewrite Hs in Hs1. injection Hs1 as <- <-. destruct (Hi i eq_refl) as (v & Hv & _).
        rewrite <- E. now apply nth_some_lt in Hv.
  Qed.

  (** Sums of pair counts. *)
  Lemma starts_perm ps ps' i : Permutation ps ps' -> starts ps i = starts ps' i.
  Proof. unfold starts. induction 1; cbn [map zsum fold_right] in *; unfold zsum in *; lia. Qed.
  Lemma ends_perm ps ps' i : Permutation ps ps' -> ends ps i = ends ps' i.
  Proof. unfold ends. induction 1; cbn [map zsum fold_right] in *; unfold zsum in *; lia. Qed.
  Lemma all_pairs_perm ps ps' : Permutation ps ps' -> all_pairs ps = all_pairs ps'.
  Proof. unfold all_pairs. induction 1; cbn [map zsum fold_right] in *; unfold zsum in *; lia. Qed.
  Definition pos (ps : list ((nat * nat) * Z)) : Prop := Forall (fun p => (1 <= snd p)%Z) ps.
  Lemma starts_cons p ps i : starts (p :: ps) i = ((if Nat.eqb (fst (fst p)) i then snd p else 0) + starts ps i)%Z.
  Proof. easy. Qed.
  Lemma ends_cons p ps i : ends (p :: ps) i = ((if Nat.eqb (snd (fst p)) i then snd p else 0) + ends ps i)%Z.
  Proof. easy. Qed.
  Lemma all_cons p ps : all_pairs (p :: ps) = (snd p + all_pairs ps)%Z.
  Proof. easy. Qed.
  Lemma pos_bounds ps : pos ps -> (0 <= all_pairs ps)%Z /\
    (forall i, 0 <= starts ps i <= all_pairs ps)%Z /\ (forall i, 0 <= ends ps i <= all_pairs ps)%Z.
  Proof.
    induction 1 as [|p ps Hp _ (H1 & H2 & H3)].
    - repeat split; intros; easy.
    - rewrite all_cons. split; [lia|]. split; intro i; [rewrite starts_cons; specialize (H2 i)|
        rewrite ends_cons; specialize (H3 i)]; destruct (Nat.eqb _ _); lia.
  Qed.
  Lemma starts_sum n ps : Forall (fun p => fst (fst p) < n) ps -> sumf n (starts ps) = all_pairs ps.
  Proof.
    induction 1 as [|p ps Hp _ IH]; [now apply sumf_zero|].
    rewrite all_cons, <- IH. rewrite <- (sumf_single n (fst (fst p)) (fun _ => snd p) Hp), <- sumf_add.
    apply sumf_ext. intros i _. rewrite starts_cons, Nat.eqb_sym. easy.
  Qed.
  (** A pair counts in its row, its column, and the union of both is within the whole. *)
  Lemma pair_counts ps f s c : pos ps -> NoDup (map fst ps) -> In ((f, s), c) ps ->
    (1 <= c <= starts ps f)%Z /\ (c <= ends ps s)%Z /\ (starts ps f + ends ps s - c <= all_pairs ps)%Z.
  Proof.
    intros Hp Hnd. assert (Hother : forall l, pos l -> ~ In (f, s) (map fst l) ->
      (0 <= starts l f)%Z /\ (0 <= ends l s)%Z /\ (starts l f + ends l s <= all_pairs l)%Z).
    { induction 1 as [|[[a b] v] l Hv _ IH]; intro Hn; [easy|]. cbn [snd] in Hv.
      destruct IH as (I1 & I2 & I3); [intro H; apply Hn; now right|].
      rewrite starts_cons, ends_cons, all_cons. cbn [fst snd].
      destruct (Nat.eqb_spec a f) as [->|], (Nat.eqb_spec b s) as [->|]; try lia.
      exfalso. apply Hn. now left. }
    induction Hp as [|[[a b] v] l Hv Hl IH]; intro Hin; [easy|]. cbn [snd] in Hv.
    cbn [map fst] in Hnd. inversion_clear Hnd as [|? ? Hn Hnd'].
    rewrite starts_cons, ends_cons, all_cons. cbn [fst snd].
    destruct Hin as [[= -> -> ->]|Hin].
    - rewrite !Nat.eqb_refl. destruct (Hother l Hl Hn) as (H1 & H2 & H3). lia.
    - destruct (IH Hnd' Hin) as (H1 & H2 & H3).
      assert (Hne : (a, b) <> (f, s)).
      { intros E. apply Hn. rewrite E. apply (in_map fst) in Hin. exact Hin. }
      destruct (Nat.eqb_spec a f) as [->|], (Nat.eqb_spec b s) as [->|]; try lia. easy.
  Qed.

  (** start_with and ends_with hold the sums. *)
  Definition ofs (n : nat) (g : nat -> Z) : list (F fl) := map (fun i => fofZ fl (g i)) (List.seq 0 n).
  Lemma ofs_nth n g i : i < n -> nth_error (ofs n g) i = Some (fofZ fl (g i)).
  Proof.
    intro H. unfold ofs. rewrite nth_error_map.
    rewrite (nth_error_nth' _ 0) by (now rewrite seq_length). now rewrite seq_nth.
  Qed.
  Lemma ofs_length n g : length (ofs n g) = n.
  Proof. unfold ofs. now rewrite map_length, seq_length. Qed.
  Lemma ofs_eq n g g' : (forall i, i < n -> g i = g' i) -> ofs n g = ofs n g'.
  Proof.
    intro H. unfold ofs. apply map_ext_in. intros i Hi. apply in_seq in Hi. now rewrite H by lia.
  Qed.
  Lemma nth_error_ext' {A} (l l' : list A) : (forall i, nth_error l i = nth_error l' i) -> l = l'.
  Proof.
    revert l'. induction l as [|a l IH]; intros [|b l'] H; try easy.
    - now specialize (H 0).
    - now specialize (H 0).
    - pose proof (H 0) as H0. cbn in H0. injection H0 as ->. f_equal. apply IH. intro i. exact (H (S i)).
  Qed.
  Lemma vfadd_ofs n g i c : i < n -> (0 <= g i)%Z -> (0 <= c)%Z -> (g i + c <= maxcount)%Z ->
    vfadd fl (ofs n g) i (fofZ fl c) = Ok (ofs n (fun j => if Nat.eqb i j then g j + c else g j)%Z).
  Proof.
    intros Hi H1 H2 H3. unfold vfadd. rewrite (vget_some _ _ _ (ofs_nth n g i Hi)). cbn [bind].
    rewrite vset_ok by (now rewrite ofs_length). f_equal. rewrite (ofZ_add fl L) by easy.
    apply nth_error_ext'. intro j. destruct (Nat.eq_dec i j) as [<-|Hne].
    - rewrite upd_same by (now rewrite ofs_length). rewrite ofs_nth by easy. now rewrite Nat.eqb_refl.
    - rewrite upd_other by easy. destruct (Nat.lt_ge_cases j n) as [H|H].
      + rewrite !ofs_nth by easy. destruct (Nat.eqb_spec i j); [easy|]. easy.
      + rewrite !(proj2 (nth_error_None _ _)) by (now rewrite ofs_length). easy.
  Qed.
  Definition keys_in (n : nat) (ps : list ((nat * nat) * Z)) : Prop :=
    Forall (fun p => fst (fst p) < n /\ snd (fst p) < n) ps.
  Lemma margins_spec (st : sstat fl) ps : pos ps -> keys_in (length (sfreqs st)) ps ->
    (all_pairs ps <= maxcount)%Z ->
    pair_margins fl st ps = Ok (ofs (length (sfreqs st)) (starts ps), ofs (length (sfreqs st)) (ends ps)).
  Proof.
    intros Hpos Hk Hb. unfold pair_margins. set (n := length (sfreqs st)) in *.
    assert (Hz : repeat (fofZ fl 0) n = ofs n (fun _ => 0%Z)).
    { unfold ofs. clear. generalize 0. induction n as [|n IH]; intro k; [easy|].
      cbn [repeat List.seq map]. f_equal. apply IH. }
    rewrite Hz.
    assert (H : forall ps g h, pos ps -> keys_in n ps -> (forall i, 0 <= g i)%Z -> (forall i, 0 <= h i)%Z ->
      (forall i, g i + all_pairs ps <= maxcount)%Z -> (forall i, h i + all_pairs ps <= maxcount)%Z ->
      foldM (fun se p => s' <- vfadd fl (fst se) (fst (fst p)) (fofZ fl (snd p)) ;;
             e' <- vfadd fl (snd se) (snd (fst p)) (fofZ fl (snd p)) ;; Ok (s', e')) ps (ofs n g, ofs n h)
      = Ok (ofs n (fun i => g i + starts ps i)%Z, ofs n (fun i => h i + ends ps i)%Z)).
    { clear ps Hpos Hk Hb. induction ps as [|[[a b] c] ps IH]; intros g h Hp Hk Hg Hh Bg Bh.
      - cbn [foldM]. f_equal. f_equal; apply ofs_eq; intros; unfold starts, ends; cbn; lia.
      - inversion_clear Hp as [|? ? Hc Hp']. inversion_clear Hk as [|? ? [Ha Hb] Hk'].
        cbn [fst snd] in Hc, Ha, Hb. cbn [foldM fst snd].
        destruct (pos_bounds ps Hp') as (Hall & _).
        rewrite all_cons in Bg, Bh. cbn [snd] in Bg, Bh.
        rewrite vfadd_ofs; [|easy|easy|lia|specialize (Bg a); lia]. cbn [bind].
        rewrite vfadd_ofs; [|easy|easy|lia|specialize (Bh b); lia]. cbn [bind].
        rewrite IH; try easy.
        + f_equal. f_equal; apply ofs_eq; intros i Hi; [rewrite starts_cons|rewrite ends_cons]; cbn [fst snd];
            destruct (Nat.eqb _ _); lia.
        + intro i. specialize (Hg i). destruct (Nat.eqb a i); lia.
        + intro i. specialize (Hh i). destruct (Nat.eqb b i); lia.
        + intro i. specialize (Bg i). destruct (Nat.eqb a i); lia.
        + intro i. specialize (Bh i). destruct (Nat.eqb b i); lia. }
    rewrite H; try easy.
  Qed.
  Lemma fold_fadd_ofs n g a : (0 <= a)%Z -> (forall i, i < n -> (0 <= g i)%Z) -> (a + sumf n g <= maxcount)%Z ->
    fold_left (fadd fl) (ofs n g) (fofZ fl a) = fofZ fl (a + sumf n g).
  Proof.
    intros Ha Hg Hb. induction n as [|n IH].
    - cbn. unfold sumf. cbn. f_equal. lia.
    - rewrite sumf_S in *. unfold ofs. rewrite seq_S, map_app, fold_left_app. cbn [map fold_left Nat.add].
      assert (Hn : forall i, i < n -> (0 <= g i)%Z) by (intros; apply Hg; lia).
      pose proof (sumf_nonneg n g Hn). pose proof (Hg n ltac:(lia)).
      unfold ofs in IH. rewrite IH by (easy || lia).
      rewrite (ofZ_add fl L) by lia. f_equal. lia.
  Qed.
  Lemma fsumZ_exact l a : (0 <= a)%Z -> Forall (fun f => 0 <= f)%Z l -> (a + zsum l <= maxcount)%Z ->
    fold_left (fun a f => fadd fl a (fofZ fl f)) l (fofZ fl a) = fofZ fl (a + zsum l).
  Proof.
    intros Ha Hl. revert a Ha. induction Hl as [|f l Hf Hl IH]; intros a Ha Hb; cbn [fold_left].
    - cbn. now rewrite Z.add_0_r.
    - cbn [zsum fold_right] in Hb. fold (zsum l) in Hb.
      assert (H0 : (0 <= zsum l)%Z).
      { clear - Hl. induction Hl as [|x l Hx _ IH]; [easy|]. cbn. fold (zsum l). lia. }
      rewrite (ofZ_add fl L) by lia. rewrite IH by lia.
      f_equal. change (zsum (f :: l)) with (f + zsum l)%Z. lia.
  Qed.
  Lemma fsumZ_cnt l a : fcnt fl L a -> Forall (fun f => 0 <= f <= maxcount)%Z l ->
    fcnt fl L (fold_left (fun a f => fadd fl a (fofZ fl f)) l a).
  Proof.
    intros Ha Hl. revert a Ha. induction Hl as [|f l Hf _ IH]; intros a Ha; [easy|].
    cbn [fold_left]. apply IH. now apply (cnt_add fl L).
  Qed.

  (** The score is ten equal rounds of the stated value. *)
  Lemma pair_score_spec e c s n t v : round_value fl (e_gamma e) c s n t = Some v ->
    pair_score fl e (fofZ fl t) (fofZ fl s) (fofZ fl n) c = Ok (ten_times fl v).
  Proof.
    unfold round_value. intro H. unfold pair_score, next_dirichlet.
    destruct (e_gamma e _) as [|g1 [|g2 [|g3 rest]]] eqn:E; try discriminate.
    injection H as Hv.
    cbn [map vget nth_error List.seq foldM bind]. unfold round_term. subst v.
    cbn [ten_times Nat.iter nat_rect]. reflexivity.
  Qed.
  Lemma pair_score_round e c s n t sc :
    pair_score fl e (fofZ fl t) (fofZ fl s) (fofZ fl n) c = Ok sc ->
    exists v, round_value fl (e_gamma e) c s n t = Some v /\ sc = ten_times fl v.
  Proof.
    intro H. destruct (round_value fl (e_gamma e) c s n t) as [v|] eqn:E.
    - exists v. split; [easy|]. rewrite (pair_score_spec e c s n t v E) in H. now injection H as <-.
    - exfalso. revert E H. unfold round_value, pair_score, next_dirichlet.
      destruct (e_gamma e _) as [|g1 [|g2 [|g3 rest]]] eqn:E; intros; try discriminate.
  Qed.

  (** One candidate pair. *)
  Definition pair_item (d : dict) (it : item fl) (t : seq) : Prop :=
    exists f a b, first it = Some f /\ word_at (seqs d) f a /\ word_at (seqs d) (second it) b /\ t = a ++ b.
  Lemma item_text_pair d it t f : first it = Some f -> item_text fl d it = Ok t -> pair_item d it t.
  Proof.
    intros Hf H. unfold item_text in H. rewrite Hf in H.
    apply bind_ok in H as (a & Ha & H). apply bind_ok in H as (b & Hb & H). injection H as <-.
    exists f, a, b. split; [easy|]. split; [now apply vget_ok|]. split; [now apply vget_ok|easy].
  Qed.
  Lemma known_in_spec known t : known_in known t = true <-> In t known.
  Proof.
    unfold known_in. rewrite existsb_exists. split.
    - intros (x & Hx & E). apply seq_eqb_spec in E. now subst.
    - intro H. exists t. split; [easy|]. now apply seq_eqb_spec.
  Qed.

  (** What a candidate is, given the table of pairs. *)
  Definition from_pair (e : env fl) (tot : F fl) (se : list (F fl) * list (F fl)) (ps : list ((nat * nat) * Z))
      (it : item fl) : Prop :=
    exists f sw ew, first it = Some f /\ In ((f, second it), icount it) ps /\
      nth_error (fst se) f = Some sw /\ nth_error (snd se) (second it) = Some ew /\
      pair_score fl e tot sw ew (icount it) = Ok (score it).

  Lemma expand_pairs_sound e d tot se : forall ps its known its' known',
    expand_pairs fl e d tot se ps (its, known) = Ok (its', known') ->
    exists new txts, its' = its ++ new /\ known' = known ++ txts /\
      Forall2 (pair_item d) new txts /\ Forall2 (fun it t => item_text fl d it = Ok t) new txts /\
      Forall (from_pair e tot se ps) new /\
      (NoDup known -> NoDup known').
  Proof.
    induction ps as [|[[f s] c] ps IH]; intros its known its' known' H.
    - cbn in H. injection H as <- <-. exists [], []. rewrite !app_nil_r. do 2 (split; [easy|]). do 3 (split; [constructor|]). easy.
    - unfold expand_pairs in H. cbn [foldM] in H.
      apply bind_ok in H as ([its1 known1] & H1 & H).
      apply bind_ok in H1 as (ew & Hew & H1). apply bind_ok in H1 as (sw & Hsw & H1).
      apply bind_ok in H1 as (sc & Hsc & H1). apply bind_ok in H1 as (t & Ht & H1).
      apply IH in H as (new & txts & -> & -> & Hp & Htx & Hfrom & Hnd).
      assert (Hfrom' : Forall (from_pair e tot se (((f, s), c) :: ps)) new).
      { eapply Forall_impl; [|exact Hfrom]. intros it (f' & sw' & ew' & A & B & R). exists f', sw', ew'.
        split; [easy|]. split; [now right|easy]. }
      destruct (known_in known t) eqn:E.
      + injection H1 as <- <-. exists new, txts. easy.
      + injection H1 as <- <-. exists (mkItem (Some f) s sc c :: new), (t :: txts).
        rewrite <- !app_assoc. cbn [app].
        split; [easy|]. split; [easy|].
        split; [constructor; [now apply (item_text_pair d _ t f)|easy]|].
        split; [now constructor|].
        split.
        * constructor; [|easy]. exists f, sw, ew. cbn.
          split; [easy|]. split; [now left|]. apply vget_ok in Hew. apply vget_ok in Hsw. easy.
        * intro Hk. rewrite <- app_assoc in Hnd. apply Hnd.
          apply (Permutation_NoDup (l := t :: known)); [apply Permutation_cons_append|].
          constructor; [|easy]. intro Hin. apply known_in_spec in Hin. congruence.
  Qed.
  Lemma expand_pairs_total e d tot se : forall ps its known,
    Forall (fun p => (exists a, word_at (seqs d) (fst (fst p)) a) /\ (exists b, word_at (seqs d) (snd (fst p)) b) /\
              exists sw ew sc, nth_error (fst se) (fst (fst p)) = Some sw /\ nth_error (snd se) (snd (fst p)) = Some ew /\
              pair_score fl e tot sw ew (snd p) = Ok sc) ps ->
    exists its' known', expand_pairs fl e d tot se ps (its, known) = Ok (its', known').
  Proof.
    induction ps as [|[[f s] c] ps IH]; intros its known H; [now exists its, known|].
    pose proof (Forall_inv_tail H) as H'.
    destruct (Forall_inv H) as ((a & Ha) & (b & Hb) & sw & ew & sc & Hsw & Hew & Hsc). clear H.
    cbn [fst snd] in *. unfold expand_pairs. cbn [foldM].
    rewrite (vget_some _ _ _ Hew). cbn [bind]. rewrite (vget_some _ _ _ Hsw). cbn [bind].
    rewrite Hsc. cbn [bind]. unfold item_text. cbn [first second]. unfold get.
    rewrite (vget_some _ _ _ Ha). cbn [bind]. rewrite (vget_some _ _ _ Hb). cbn [bind].
    destruct (known_in known (a ++ b)); apply IH; easy.
  Qed.

  Lemma expand_pairs_length e d tot se : forall ps its known its' known',
    expand_pairs fl e d tot se ps (its, known) = Ok (its', known') -> length its' <= length its + length ps.
  Proof.
    induction ps as [|[[f s] c] ps IH]; intros its known its' known' H.
    - cbn in H. injection H as <- <-. cbn. lia.
    - unfold expand_pairs in H. cbn [foldM] in H.
      apply bind_ok in H as ([its1 known1] & H1 & H).
      apply bind_ok in H1 as (ew & Hew & H1). apply bind_ok in H1 as (sw & Hsw & H1).
      apply bind_ok in H1 as (sc & Hsc & H1). apply bind_ok in H1 as (t & Ht & H1).
      apply IH in H. destruct (known_in known t); injection H1 as <- <-; [cbn [length]; lia|].
      rewrite app_length in H. cbn [length] in *. lia.
  Qed.

  (** The output loop writes the texts of a prefix of the items. *)
  Lemma expand_out_sound d acc : forall items slots mp ws fs ws' fs' mp',
    expand_out fl d acc items slots mp ws fs = Ok (ws', fs', mp') ->
    exists k txts, ws' = ws ++ txts /\ fs' = fs ++ map icount (firstn k items) /\
      Forall2 (fun it t => item_text fl d it = Ok t) (firstn k items) txts /\
      (Z.of_nat (length txts) <= Z.max 0 slots)%Z.
  Proof.
    induction items as [|it items IH]; intros slots mp ws fs ws' fs' mp' H; cbn [expand_out] in H.
    - injection H as <- <- <-. exists 0, []. rewrite !app_nil_r. repeat split; try constructor. cbn. lia.
    - destruct (fltb fl (score it) (fofZ fl 0)).
      { injection H as <- <- <-. exists 0, []. rewrite !app_nil_r. repeat split; try constructor. cbn. lia. }
      destruct (Z.ltb_spec (slots - 1) 0).
      { injection H as <- <- <-. exists 0, []. rewrite !app_nil_r. repeat split; try constructor. cbn. lia. }
      apply bind_ok in H as (w & Hw & H).
      apply IH in H as (k & txts & -> & -> & Htx & Hlen).
      exists (S k), (w :: txts). rewrite <- !app_assoc. cbn [firstn map app].
      split; [easy|]. split; [easy|]. split; [now constructor|]. cbn [length]. lia.
  Qed.
  Lemma expand_out_total d acc : forall items slots mp ws fs,
    Forall (fun it => exists t, item_text fl d it = Ok t) items ->
    exists r, expand_out fl d acc items slots mp ws fs = Ok r.
  Proof.
    induction items as [|it items IH]; intros slots mp ws fs H; cbn [expand_out]; [now eexists|].
    destruct (fltb fl (score it) (fofZ fl 0)); [now eexists|].
    destruct (Z.ltb (slots - 1) 0); [now eexists|]. inversion_clear H as [|? ? [t Ht] H'].
    rewrite Ht. cbn [bind]. now apply IH.
  Qed.
  (** Items of maximal score at the front are all written while slots last. *)
  Lemma expand_out_front d acc : forall front items slots mp ws fs ws' fs' mp',
    Forall (fun it => fltb fl (score it) (fofZ fl 0) = false) front ->
    (Z.of_nat (length front) <= slots)%Z ->
    expand_out fl d acc (front ++ items) slots mp ws fs = Ok (ws', fs', mp') ->
    exists txts rest, ws' = ws ++ txts ++ rest /\ Forall2 (fun it t => item_text fl d it = Ok t) front txts.
  Proof.
    induction front as [|it front IH]; intros items slots mp ws fs ws' fs' mp' Hf Hs H.
    - apply expand_out_sound in H as (k & txts & -> & _). exists [], txts. split; [easy|constructor].
    - cbn [app expand_out] in H. inversion_clear Hf as [|? ? H1 H2]. rewrite H1 in H. cbn [length] in Hs.
      destruct (Z.ltb_spec (slots - 1) 0); [lia|].
      apply bind_ok in H as (w & Hw & H). apply IH in H as (txts & rest & -> & Htx); [|easy|lia].
      exists (w :: txts), rest. rewrite <- app_assoc. split; [easy|now constructor].
  Qed.

  (** Sorting puts the words, whose score is the largest double, before the candidates. *)
  Lemma sorted_split (W : item fl -> bool) l :
    StronglySorted (fun a b => fltb fl (fneg fl (score b)) (fneg fl (score a)) = false) l ->
    Forall (fun it => if W it then score it = fmax fl else fltb fl (score it) (fmax fl) = true) l ->
    l = filter W l ++ filter (fun it => negb (W it)) l.
  Proof.
    induction 1 as [|a l Hs IH Ha]; intro Hw; [easy|]. inversion_clear Hw as [|? ? Hwa Hwl].
    cbn [filter]. destruct (W a) eqn:E; cbn [negb app]; [f_equal; now apply IH|].
    assert (Hn : filter W l = []).
    { clear - Ha Hwa Hwl L E. induction Ha as [|b l Hb _ IH2]; [easy|]. inversion_clear Hwl as [|? ? Hwb Hwl'].
      cbn [filter]. destruct (W b) eqn:E2; [|now apply IH2].
      rewrite (neg_lt fl L), Hwb in Hb. congruence. }
    rewrite Hn. cbn [app]. f_equal. rewrite Hn in IH. now apply IH.
  Qed.

  Lemma sort_items_ok e l : env_ok fl e -> Forall (fun it => fnan fl (score it) = false) l ->
    sort_items fl e l = Ok (e_sort e l) /\ Permutation l (e_sort e l) /\
    StronglySorted (fun a b => fltb fl (fneg fl (score b)) (fneg fl (score a)) = false) (e_sort e l).
  Proof.
    intros He Hl. unfold sort_items. replace (existsb _ l) with false.
    - split; [easy|]. split; [apply (ok_sort_perm fl e He)|now apply (ok_sorted fl e He)].
    - symmetry. induction Hl as [|it l Hit _ IH]; [easy|]. cbn. now rewrite Hit, IH.
  Qed.
  Lemma sort_items_perm e l l' : env_ok fl e -> sort_items fl e l = Ok l' -> Permutation l l' /\
    Forall (fun it => fnan fl (score it) = false) l.
  Proof.
    intros He H. unfold sort_items in H. destruct (existsb _ l) eqn:E; [discriminate|].
    injection H as <-. split; [apply (ok_sort_perm fl e He)|].
    apply Forall_forall. intros it Hit. destruct (fnan fl (score it)) eqn:E2; [|easy].
    assert (existsb (fun it => fnan fl (score it)) l = true) by (apply existsb_exists; now exists it). congruence.
  Qed.

  (** Dictionary words and concatenations of two words recorded as neighbours. *)
  Definition known_word (d : dict) (ps : list ((nat * nat) * Z)) (w : seq) : Prop :=
    In w (seqs d) \/ exists i j c a b, In ((i, j), c) ps /\ word_at (seqs d) i a /\ word_at (seqs d) j b /\ w = a ++ b.

  Lemma forall2_incl {A B} (R : A -> B -> Prop) l t : Forall2 R l t -> forall y, In y t -> exists x, In x l /\ R x y.
  Proof.
    induction 1 as [|x y l t Hxy _ IH]; intros z Hz; [easy|]. destruct Hz as [<-|Hz].
    - exists x. split; [now left|easy].
    - destruct (IH z Hz) as (x' & Hx' & HR). exists x'. split; [now right|easy].
  Qed.
  Lemma firstn_in {A} k (l : list A) x : In x (firstn k l) -> In x l.
  Proof.
    revert l. induction k as [|k IH]; intros [|a l] H; cbn in H; try easy.
    destruct H as [->|H]; [now left|right; now apply IH].
  Qed.

  (** Any dictionary: nothing but words of it and observed concatenations. *)
  Lemma expand_sound e d (st : sstat fl) slots ws fs mp :
    env_ok fl e -> wf_dict d -> expand fl e d st slots = Ok (ws, fs, mp) ->
    Forall (known_word d (pairs st)) ws /\ length fs = length ws /\
    Forall (fun f => (exists i, f = freq fl st i) \/ exists k, In (k, f) (pairs st)) fs /\
    (Z.of_nat (length ws) <= Z.max 0 (slots + Z.of_nat (dsize d)))%Z /\
    length ws <= dsize d + length (pairs st).
  Proof.
    intros He Hwf H. unfold expand in H.
    apply bind_ok in H as (its0 & Hw & H). destruct (expand_words_sound d st Hwf _ _ Hw) as [Hits Hlen].
    apply bind_ok in H as (se & Hse & H). apply bind_ok in H as ([items kn] & Hp & H).
    apply bind_ok in H as (items' & Hs & H).
    pose proof Hp as Hp'. apply (expand_pairs_sound e d) in Hp as (new & txts & -> & -> & Hnew & _ & Hfrom & _).
    apply sort_items_perm in Hs as [Hperm _]; [|easy].
    apply expand_out_sound in H as (k & out & -> & -> & Hout & Hsz). cbn [app].
    pose proof (ok_pairs fl e He (pairs st)) as Hpp.
    assert (Hall : forall it, In it (firstn k items') -> In it its0 \/ In it new).
    { intros it Hit. apply firstn_in in Hit. apply (Permutation_in it (Permutation_sym Hperm)) in Hit.
      now apply in_app_iff in Hit. }
    rewrite Forall_forall in Hits. rewrite Forall_forall in Hfrom.
    assert (Hflen : forall (l : list (item fl)) (t : list seq), Forall2 (fun it t => item_text fl d it = Ok t) l t -> length t = length l).
    { induction 1; cbn; lia. }
    assert (Hnl : length new <= length (pairs st)).
    { rewrite (Permutation_length Hpp). apply expand_pairs_length in Hp'. rewrite app_length in Hp'. lia. }
    split; [|split; [|split; [|split]]].
    - apply Forall_forall. intros w Hw'. destruct (forall2_incl _ _ _ Hout w Hw') as (it & Hit & Ht).
      destruct (Hall it Hit) as [H0|H0].
      + left. destruct (Hits it H0) as (Hf & _). unfold item_text in Ht. rewrite Hf in Ht.
        apply vget_ok in Ht. now apply nth_error_In in Ht.
      + right. destruct (Hfrom it H0) as (f & sw & ew & Hf & Hin & _).
        destruct (item_text_pair d it w f Hf Ht) as (f' & a & b & Hf' & Ha & Hb & ->).
        assert (f' = f) by congruence. subst f'.
        exists f, (second it), (icount it), a, b. split; [|easy].
        now apply (Permutation_in _ (Permutation_sym Hpp)).
    - rewrite map_length. now rewrite (Hflen _ _ Hout).
    - apply Forall_forall. intros f Hf. apply in_map_iff in Hf as (it & <- & Hit).
      destruct (Hall it Hit) as [H0|H0].
      + left. destruct (Hits it H0) as (_ & _ & _ & ->). now eexists.
      + right. destruct (Hfrom it H0) as (f & sw & ew & Hf & Hin & _). exists (f, second it).
        now apply (Permutation_in _ (Permutation_sym Hpp)).
    - lia.
    - rewrite (Hflen _ _ Hout). rewrite firstn_length. rewrite <- (Permutation_length Hperm), app_length.
      unfold dsize. lia.
  Qed.

  Lemma seq_nodup n : NoDup (List.seq 0 n).
  Proof. apply seq_NoDup. Qed.
  Lemma NoDup_firstn {A} k (l : list A) : NoDup l -> NoDup (firstn k l).
  Proof.
    intro H. revert k. induction H as [|x l Hx _ IH]; intros [|k]; cbn; try constructor; [|apply IH].
    intro Hin. now apply firstn_in in Hin.
  Qed.
  Lemma text_word d (st : sstat fl) i w : word_at (seqs d) i w -> item_text fl d (word_item st i) = Ok w.
  Proof. intro H. unfold item_text. cbn. now apply vget_some. Qed.
  Definition is_word (it : item fl) : bool := match first it with None => true | Some _ => false end.
  (** Forall2 with a function-like relation carries permutations over. *)
  Lemma forall2_perm {A B} (R : A -> B -> Prop) l l' t : Permutation l l' -> Forall2 R l t ->
    exists t', Permutation t t' /\ Forall2 R l' t'.
  Proof.
    intros Hp. revert t. induction Hp as [|x l l' Hp IH|x y l|l l1 l2 H1 IH1 H2 IH2]; intros t Ht.
    - inversion Ht. exists []. now split.
    - inversion Ht as [|? b ? t' Hb Ht' E1 E2]; subst. destruct (IH _ Ht') as (t2 & Hp2 & Hf2).
      exists (b :: t2). split; now constructor.
    - inversion Ht as [|? b ? t1 Hb Ht1 E1 E2]; subst.
      inversion Ht1 as [|? c ? t2 Hc Ht2 E1 E2]; subst. exists (c :: b :: t2).
      split; [constructor|]. now repeat constructor.
    - destruct (IH1 _ Ht) as (t1 & P1 & F1). destruct (IH2 _ F1) as (t2 & P2 & F2).
      exists t2. split; [now apply (perm_trans P1)|easy].
  Qed.
  Lemma forall2_firstn {A B} (R : A -> B -> Prop) k l t : Forall2 R l t -> Forall2 R (firstn k l) (firstn k t).
  Proof.
    intro H. revert k. induction H as [|a b l t Hab _ IH]; intros [|k]; cbn; try constructor; auto.
  Qed.
  Lemma forall2_fun {A B} (R : A -> B -> Prop) l t t' : (forall a b b', R a b -> R a b' -> b = b') ->
    Forall2 R l t -> Forall2 R l t' -> t = t'.
  Proof.
    intros HR H. revert t'. induction H as [|a b l t Hab _ IH]; intros t' H'; inversion H'; subst; [easy|].
    f_equal; [now apply (HR a)|now apply IH].
  Qed.
  Lemma words_texts d (st : sstat fl) :
    Forall2 (fun it t => item_text fl d it = Ok t) (map (word_item st) (List.seq 0 (dsize d))) (seqs d).
  Proof.
    assert (H : forall ws k, (forall i, nth_error ws i = nth_error (seqs d) (k + i)) ->
      Forall2 (fun it t => item_text fl d it = Ok t) (map (word_item st) (List.seq k (length ws))) ws).
    { induction ws as [|w ws IH]; intros k Hk; [constructor|]. cbn [length List.seq map]. constructor.
      - apply text_word. specialize (Hk 0). rewrite Nat.add_0_r in Hk. now symmetry.
      - apply IH. intro i. specialize (Hk (S i)). cbn in Hk. rewrite Hk. f_equal. lia. }
    apply (H (seqs d) 0). easy.
  Qed.
  Lemma text_fun d it t t' : item_text fl d it = Ok t -> item_text fl d it = Ok t' -> t = t'.
  Proof. intros -> [= ->]. easy. Qed.

  (** A dictionary in good order: every output word once. *)
  Lemma expand_nodup e d (st : sstat fl) slots ws fs mp :
    env_ok fl e -> full_dict d -> no_empty d -> expand fl e d st slots = Ok (ws, fs, mp) -> NoDup ws.
  Proof.
    intros He Hf Hne H. unfold expand in H. rewrite (expand_words_full d st Hf Hne) in H. cbn [bind] in H.
    apply bind_ok in H as (se & Hse & H). apply bind_ok in H as ([items kn] & Hp & H).
    apply bind_ok in H as (items' & Hs & H).
    apply expand_pairs_sound in Hp as (new & txts & -> & -> & _ & Htx & _ & Hnd).
    specialize (Hnd (strict_nodup _ (proj1 Hf))).
    apply sort_items_perm in Hs as [Hperm _]; [|easy].
    apply expand_out_sound in H as (k & out & -> & _ & Hout & _). cbn [app].
    assert (Hall : Forall2 (fun it t => item_text fl d it = Ok t)
              (map (word_item st) (List.seq 0 (dsize d)) ++ new) (seqs d ++ txts)).
    { apply Forall2_app; [apply words_texts|easy]. }
    destruct (forall2_perm _ _ _ _ Hperm Hall) as (t' & Hpt & Hft).
    apply (forall2_firstn _ k) in Hft.
    rewrite (forall2_fun _ _ _ _ (text_fun d) Hout Hft). apply NoDup_firstn.
    now apply (Permutation_NoDup Hpt).
  Qed.

  (** The pair table of a state reached by parsing. *)
  Definition table_ok (n : nat) (ps : list ((nat * nat) * Z)) : Prop :=
    pos ps /\ NoDup (map fst ps) /\ keys_in n ps /\ (all_pairs ps <= maxcount)%Z.
  Lemma table_perm n ps ps' : Permutation ps ps' -> table_ok n ps -> table_ok n ps'.
  Proof.
    intros Hp (H1 & H2 & H3 & H4). unfold table_ok, pos, keys_in in *. split; [|split; [|split]].
    - now apply (Permutation_Forall Hp).
    - now apply (Permutation_NoDup (Permutation_map fst Hp)).
    - now apply (Permutation_Forall Hp).
    - now rewrite <- (all_pairs_perm _ _ Hp).
  Qed.

  (** Scores of the candidates, from the counts alone. *)
  Lemma scores_spec e (st : sstat fl) ps it : table_ok (length (sfreqs st)) ps ->
    from_pair e (fold_left (fadd fl) (ofs (length (sfreqs st)) (starts ps)) (fofZ fl 0))
      (ofs (length (sfreqs st)) (starts ps), ofs (length (sfreqs st)) (ends ps)) ps it ->
    exists f v, first it = Some f /\ In ((f, second it), icount it) ps /\
      round_value fl (e_gamma e) (icount it) (starts ps f) (ends ps (second it)) (all_pairs ps) = Some v /\
      score it = ten_times fl v.
  Proof.
    intros (Hpos & Hnd & Hk & Hb) (f & sw & ew & Hf & Hin & Hsw & Hew & Hsc). cbn [fst snd] in Hsw, Hew.
    assert (Hin' := Hin). unfold keys_in in Hk. rewrite Forall_forall in Hk. apply Hk in Hin' as [K1 K2]. cbn [fst snd] in K1, K2.
    rewrite ofs_nth in Hsw by easy. injection Hsw as <-. rewrite ofs_nth in Hew by easy. injection Hew as <-.
    destruct (pos_bounds ps Hpos) as (_ & Hst & _).
    rewrite (fold_fadd_ofs _ _ 0) in Hsc; [|easy|intros; apply Hst|].
    - rewrite starts_sum in Hsc.
      + apply pair_score_round in Hsc as (v & Hv & Hs). exists f, v. easy.
      + apply Forall_forall. intros p Hp. now apply Hk in Hp.
    - rewrite starts_sum; [lia|]. apply Forall_forall. intros p Hp. now apply Hk in Hp.
  Qed.

  Lemma expand_full e d (st : sstat fl) slots :
    env_ok fl e -> draws_ok fl e -> full_dict d -> no_empty d -> length (sfreqs st) <= dsize d ->
    table_ok (length (sfreqs st)) (pairs st) ->
    exists ws fs mp, expand fl e d st slots = Ok (ws, fs, mp) /\
      ((0 <= slots)%Z -> forall w, In w (seqs d) -> In w ws).
  Proof.
    intros He Hdr Hf Hne Hlen Htab.
    pose proof (ok_pairs fl e He (pairs st)) as Hpp.
    pose proof (table_perm _ _ _ Hpp Htab) as Htab'.
    pose proof Htab' as (Hpos & Hnd & Hk & Hb).
    unfold expand. rewrite (expand_words_full d st Hf Hne). cbn [bind].
    rewrite (margins_spec st _ Hpos Hk Hb). cbn [bind fst].
    set (ps := e_pairs e (pairs st)) in *. set (n := length (sfreqs st)) in *.
    set (tot := fold_left (fadd fl) (ofs n (starts ps)) (fofZ fl 0)).
    set (its0 := map (word_item st) (List.seq 0 (dsize d))).
    assert (Htot : tot = fofZ fl (all_pairs ps)).
    { unfold tot. destruct (pos_bounds ps Hpos) as (_ & Hst & _).
      rewrite (fold_fadd_ofs _ _ 0); [|easy|intros; apply Hst|]; rewrite starts_sum; try easy;
        try (apply Forall_forall; intros p Hp; unfold keys_in in Hk; rewrite Forall_forall in Hk; now apply Hk in Hp). }
    destruct (expand_pairs_total e d tot (ofs n (starts ps), ofs n (ends ps)) ps its0 (seqs d)) as (its & kn & Hp).
    { apply Forall_forall. intros [[f s] c] Hin. cbn [fst snd].
      assert (Hin' := Hin). unfold keys_in in Hk. rewrite Forall_forall in Hk. apply Hk in Hin' as [K1 K2]. cbn [fst snd] in K1, K2.
      destruct (pair_counts ps f s c Hpos Hnd Hin) as (C1 & C2 & C3).
      destruct (Hdr c (starts ps f) (ends ps s) (all_pairs ps) C1 C2 (conj C3 Hb)) as (v & Hv & _).
      split; [apply nth_lt; unfold dsize in Hlen; lia|]. split; [apply nth_lt; unfold dsize in Hlen; lia|].
      exists (fofZ fl (starts ps f)), (fofZ fl (ends ps s)), (ten_times fl v).
      split; [now apply ofs_nth|]. split; [now apply ofs_nth|]. rewrite Htot. now apply pair_score_spec. }
    rewrite Hp. cbn [bind].
    apply expand_pairs_sound in Hp as (new & txts & -> & -> & _ & Htx & Hfrom & _).
    assert (Hfine : Forall (fun it => score_fine fl (score it)) new).
    { apply Forall_forall. intros it Hit. rewrite Forall_forall in Hfrom. apply Hfrom in Hit.
      destruct (scores_spec e st ps it Htab' Hit) as (f & v & Hff & Hin & Hv & ->).
      destruct (pair_counts ps _ _ _ Hpos Hnd Hin) as (C1 & C2 & C3).
      destruct (Hdr _ _ _ _ C1 C2 (conj C3 Hb)) as (v' & Hv' & Hfi).
      rewrite Hv in Hv'. now injection Hv' as <-. }
    assert (Hw0 : Forall (fun it => score it = fmax fl /\ first it = None) its0).
    { unfold its0. apply Forall_forall. intros it Hit. apply in_map_iff in Hit as (i & <- & _). easy. }
    assert (Hn0 : Forall (fun it => exists f, first it = Some f) new).
    { eapply Forall_impl; [|exact Hfrom]. intros it (f & sw & ew & Hff & _). now exists f. }
    assert (Hnan : Forall (fun it => fnan fl (score it) = false) (its0 ++ new)).
    { apply Forall_app. split.
      - eapply Forall_impl; [|exact Hw0]. intros it [-> _]. apply (max_num fl L).
      - eapply Forall_impl; [|exact Hfine]. now intros it [H _]. }
    destruct (sort_items_ok e _ He Hnan) as (Hs & Hperm & Hsorted).
    rewrite Hs. cbn [bind]. set (sl := e_sort e (its0 ++ new)) in *.
    assert (Htext : Forall (fun it => exists t, item_text fl d it = Ok t) sl).
    { apply (Permutation_Forall Hperm). apply Forall_app. split.
      - pose proof (words_texts d st) as H. fold its0 in H. clear - H.
        induction H; constructor; eauto.
      - clear - Htx. induction Htx; constructor; eauto. }
    destruct (expand_out_total d (fsumZ fl (map snd ps)) sl (slots + Z.of_nat (dsize d)) (minp st) [] [] Htext)
      as ([[ws fs] mp] & Hout).
    exists ws, fs, mp. split; [easy|].
    intros Hslots w Hw.
    assert (Hcls : Forall (fun it => if is_word it then score it = fmax fl else fltb fl (score it) (fmax fl) = true) sl).
    { apply (Permutation_Forall Hperm). apply Forall_app. split.
      - eapply Forall_impl; [|exact Hw0]. intros it [H1 H2]. unfold is_word. now rewrite H2.
      - apply Forall_forall. intros it Hit. rewrite Forall_forall in Hfine, Hn0.
        destruct (Hn0 it Hit) as [f Hff]. unfold is_word. rewrite Hff. now apply Hfine. }
    rewrite (sorted_split is_word sl Hsorted Hcls) in Hout.
    assert (Hfil : Permutation its0 (filter is_word sl)).
    { assert (Hgen : forall l l' : list (item fl), Permutation l l' -> Permutation (filter is_word l) (filter is_word l')).
      { clear. induction 1; cbn.
        - constructor.
        - destruct (is_word x); [now constructor|easy].
        - destruct (is_word x), (is_word y); constructor || reflexivity; reflexivity.
        - now apply (perm_trans IHPermutation1). }
      apply Hgen in Hperm. rewrite filter_app in Hperm.
      assert (E1 : filter is_word its0 = its0).
      { clear - Hw0. induction Hw0 as [|it l [_ H] _ IH]; [easy|]. cbn. unfold is_word at 1. rewrite H. now f_equal. }
      assert (E2 : filter is_word new = []).
      { clear - Hn0. induction Hn0 as [|it l [f H] _ IH]; [easy|]. cbn. unfold is_word at 1. now rewrite H. }
      now rewrite E1, E2, app_nil_r in Hperm. }
    apply expand_out_front in Hout as (tx & rest & -> & Hft).
    - cbn [app]. apply in_app_iff. left.
      pose proof (words_texts d st) as Hwt. fold its0 in Hwt.
      destruct (forall2_perm _ _ _ _ Hfil Hwt) as (t' & Hpt & Hft').
      rewrite (forall2_fun _ _ _ _ (text_fun d) Hft Hft'). now apply (Permutation_in w Hpt).
    - apply Forall_forall. intros it Hit. apply (Permutation_in it (Permutation_sym Hfil)) in Hit.
      rewrite Forall_forall in Hw0. destruct (Hw0 it Hit) as [-> _]. apply (max_num fl L).
    - rewrite <- (Permutation_length Hfil). unfold its0. rewrite map_length, seq_length. lia.
  Qed.

  (** The returned probability never exceeds the previous one. *)
  Lemma fmin_le a b : fltb fl a (fmin fl a b) = false /\ fltb fl b (fmin fl a b) = false.
  Proof.
    unfold fmin. destruct (fltb fl b a) eqn:E; split; try easy; try apply (lt_irrefl fl L).
    now apply (lt_asym fl L).
  Qed.
  Lemma fmin_num a b : fnan fl a = false -> fnan fl (fmin fl a b) = false.
  Proof.
    intro H. unfold fmin. destruct (fltb fl b a) eqn:E; [|easy]. now apply (lt_num fl L) in E.
  Qed.
  Lemma expand_out_mp d acc : forall items slots mp ws fs ws' fs' mp', fnan fl mp = false ->
    expand_out fl d acc items slots mp ws fs = Ok (ws', fs', mp') ->
    fnan fl mp' = false /\ fltb fl mp mp' = false.
  Proof.
    induction items as [|it items IH]; intros slots mp ws fs ws' fs' mp' Hn H; cbn [expand_out] in H.
    - injection H as <- <- <-. split; [easy|apply (lt_irrefl fl L)].
    - destruct (fltb fl (score it) (fofZ fl 0)).
      { injection H as <- <- <-. split; [easy|apply (lt_irrefl fl L)]. }
      destruct (Z.ltb (slots - 1) 0).
      { injection H as <- <- <-. split; [easy|apply (lt_irrefl fl L)]. }
      apply bind_ok in H as (w & _ & H).
      set (m := match first it with Some _ => _ | None => _ end) in H.
      assert (Hm : fnan fl m = false /\ fltb fl mp m = false).
      { unfold m. destruct (first it); [|split; [easy|apply (lt_irrefl fl L)]].
        split; [now apply fmin_num|]. apply fmin_le. }
      apply IH in H as [H1 H2]; [|easy]. split; [easy|].
      apply (le_trans fl L mp' m mp); easy.
  Qed.
  Lemma expand_mp e d (st : sstat fl) slots ws fs mp : fnan fl (minp st) = false ->
    expand fl e d st slots = Ok (ws, fs, mp) -> fnan fl mp = false /\ fltb fl (minp st) mp = false.
  Proof.
    intros Hn H. unfold expand in H. apply bind_ok in H as (its0 & _ & H). apply bind_ok in H as (se & _ & H).
    apply bind_ok in H as ([items kn] & _ & H). apply bind_ok in H as (items' & _ & H).
    now apply expand_out_mp in H.
  Qed.
End Expand.
