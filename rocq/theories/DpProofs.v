(** The dynamic program of the weighted parse. *)
From Verif Require Import Base Spec FloatOps FloatLaws ModelDict OrderProofs DictProofs GreedyProofs.

(** ** Parent chains *)
Inductive anc (d : dict) : nat -> nat -> Prop :=
| anc_refl i : anc d i i
| anc_step i j k : nth_error (parents d) i = Some (Some j) -> anc d j k -> anc d i k.

Lemma anc_le d i k : wf_dict d -> anc d i k -> k <= i.
Proof.
  intros [_ H]. induction 1 as [|i j k Hp _ IH]; [lia|]. destruct (H i j Hp). lia.
Qed.

Lemma anc_prefix d i k w : wf_dict d -> anc d i k -> word_at (seqs d) i w ->
  exists v, word_at (seqs d) k v /\ prefix v w.
Proof.
  intros [Hl H] Ha. revert w. induction Ha as [i|i j k Hp _ IH]; intros w Hw.
  - exists w. split; [easy|apply prefix_refl].
  - destruct (H i j Hp) as (_ & v & w' & Hv & Hw' & Hpre).
    unfold word_at in Hw. rewrite Hw in Hw'. injection Hw' as <-.
    destruct (IH v Hv) as (u & Hu & Huv). exists u. split; [easy|]. now apply (prefix_trans u v w).
Qed.

Lemma full_anc d : full_dict d -> forall i k v w,
  word_at (seqs d) i w -> word_at (seqs d) k v -> prefix v w -> anc d i k.
Proof.
  intros Hf. pose proof Hf as [Hs [Hlen Hp]].
  induction i as [i IH] using lt_wf_ind. intros k v w Hw Hv Hpre.
  destruct (Nat.eq_dec k i) as [->|Hne]; [constructor|].
  destruct (lt_dec k i) as [Hlt|Hge].
  - destruct (nth_lt (parents d) i) as [p Hpi]. { rewrite Hlen. now apply nth_some_lt in Hw. }
    pose proof (Hp i p Hpi w Hw) as Hok. destruct p as [j|].
    + destruct Hok as (Hj & (u & Hu & Huw) & Hmax). apply (anc_step d i j); [easy|].
      assert (k <= j).
      { destruct (le_lt_dec k j) as [H|H]; [easy|]. exfalso. apply (Hmax k v); try easy. }
      apply (IH j Hj k v u); try easy.
      apply (prefix_comparable_le v u w); try easy.
      apply (sorted_nth (seqs d) k j v u); try easy. now apply strict_sorted.
    + exfalso. now apply (Hok k v).
  - exfalso. assert (Hik : i < k) by lia.
    pose proof (strict_nth _ i k w v Hs Hw Hv Hik) as Hlt.
    apply (lex_lt_irrefl w). apply (lex_lt_le_trans w v w); [easy|]. now apply prefix_le.
Qed.

Lemma skipn_cons_lt {A} (s : list A) p c r : skipn p s = c :: r -> p < length s /\ skipn (S p) s = r.
Proof.
  revert s; induction p as [|p IH]; intros [|a s] H; simpl in *; try discriminate.
  - injection H as -> ->. split; [lia|easy].
  - destruct (IH s H). split; [lia|easy].
Qed.
Lemma prefix_skipn w p (s : seq) : prefix w (skipn p s) -> p <= length s -> p + length w <= length s.
Proof. intros H Hp. apply prefix_length in H. rewrite skipn_length in H. lia. Qed.
Lemma firstn_extend w p (s : seq) : prefix w (skipn p s) -> p <= length s ->
  firstn (p + length w) s = firstn p s ++ w.
Proof.
  intros [r Hr] Hp. rewrite <- (firstn_skipn p s) at 1. rewrite Hr.
  rewrite firstn_app, firstn_length, (min_l _ _ Hp).
  replace (p + length w - p) with (length w) by lia.
  rewrite (firstn_all2 (firstn p s)) by (rewrite firstn_length; lia).
  f_equal. now rewrite firstn_app, Nat.sub_diag, firstn_all, app_nil_r.
Qed.
Lemma skipn_extend w p (s r : seq) : skipn p s = w ++ r -> skipn (p + length w) s = r.
Proof.
  revert s; induction p as [|p IH]; intros s H.
  - simpl in *. subst s. now rewrite skipn_app, skipn_all, Nat.sub_diag.
  - destruct s as [|a s]; simpl in *; [|now apply IH].
    destruct w; [easy|discriminate].
Qed.

Section DP.
  Context (fl : fops) (L : flaws fl).
  Variables (s : seq) (freqs : list Z) (total : F fl) (ex : excludes).
  (** [P pos d]: possible dictionaries when position [pos] is about to be processed;
      [Q]: the words that may be used (closed under prefixes). *)
  Variables (P : nat -> dict -> Prop) (Q : seq -> Prop).
  (** [A]: the words that compete for optimality. *)
  Variable A : nat -> Prop.
  Let len := length s.
  Let slp d sym := sym_log_prob fl freqs total (dsize d) sym.
  Let ok k x := fok fl L (Z.of_nat k) x.
  Hypothesis Hlen : (Z.of_nat len <= maxlen)%Z.
  Hypothesis Qclosed : forall v w, prefix v w -> Q w -> Q v.
  (** Edges are taken in dictionaries satisfying [R]. *)
  Definition R (d : dict) : Prop := (exists p, P p d) /\ forall sym, fwt fl L (slp d sym).
  Hypothesis Hstep : forall pos d c rest, P pos d -> skipn pos s = c :: rest ->
    exists i d', search d (c :: rest) ex = Ok (Some i, d') /\ P (S pos) d' /\
      wf_dict d' /\ no_empty d' /\ extends_by_symbols (seqs d) (seqs d') /\ R d' /\
      exists w, word_at (seqs d') i w /\ prefix w (c :: rest) /\ Q w.

  (** One filled-in entry of the table. *)
  Definition entry (d : dict) (p : nat) (st : dp fl) (k : nat) (x : F fl) : Prop :=
    x = flowest fl \/
    (ok k x /\
     (k = 0 \/
      exists j sym w d1 x', j < p /\ k = j + length w /\ nth_error (snd st) k = Some sym /\
        word_at (seqs d) sym w /\ w <> [] /\ prefix w (skipn j s) /\ Q w /\
        nth_error (fst st) j = Some x' /\ ok j x' /\ R d1 /\ x = fadd fl x' (slp d1 sym))).

  Definition dpinv (d : dict) (p : nat) (st : dp fl) : Prop :=
    length (fst st) = S len /\ length (snd st) = S len /\
    nth_error (fst st) 0 = Some (fofZ fl 0) /\
    forall k x, nth_error (fst st) k = Some x -> entry d p st k x.

  Definition grows (st st' : dp fl) : Prop :=
    forall k x, nth_error (fst st) k = Some x -> ok k x ->
      exists x', nth_error (fst st') k = Some x' /\ ok k x' /\ fltb fl x' x = false.

  Definition same_upto (p : nat) (st st' : dp fl) : Prop :=
    forall k, k <= p -> nth_error (fst st') k = nth_error (fst st) k.

  Lemma len_bound k : k <= len -> (0 <= Z.of_nat k <= maxlen)%Z.
  Proof. intro H. split; [lia|]. apply Z.le_trans with (Z.of_nat len); [lia|easy]. Qed.

  Lemma grows_refl st : length (fst st) = S len -> grows st st.
  Proof.
    intros Hl k x Hx Hok. exists x. split; [easy|]. split; [easy|].
    apply (ok_irrefl fl L (Z.of_nat k)); [|easy].
    apply nth_some_lt in Hx. apply len_bound. lia.
  Qed.
  Lemma grows_trans a b c : length (fst a) = S len -> grows a b -> grows b c -> grows a c.
  Proof.
    intros Hl H1 H2 k x Hx Hok. destruct (H1 k x Hx Hok) as (y & Hy & Hoky & Hxy).
    destruct (H2 k y Hy Hoky) as (z & Hz & Hokz & Hyz). exists z. split; [easy|]. split; [easy|].
    apply (ok_trans fl L (Z.of_nat k) x y z); try easy.
    apply nth_some_lt in Hx. apply len_bound. lia.
  Qed.
  Lemma same_trans p a b c : same_upto p a b -> same_upto p b c -> same_upto p a c.
  Proof. intros H1 H2 k Hk. now rewrite (H2 k Hk), (H1 k Hk). Qed.

  (** The body of the do-while loop at one symbol. *)
  Definition relax1 (d : dict) (pos sym : nat) (w : seq) (st : dp fl) : outcome (dp fl) :=
    old <- vget (fst st) (length w + pos) ;;
    here <- vget (fst st) pos ;;
    if fltb fl old (fadd fl here (slp d sym))
    then (sc <- vset (fst st) (length w + pos) (fadd fl here (slp d sym)) ;;
          sy <- vset (snd st) (length w + pos) sym ;;
          Ok (sc, sy))
    else Ok st.

  Lemma relax_unfold fuel d pos sym st :
    relax fl (S fuel) d freqs total pos sym st =
    (w <- get d sym ;; st' <- relax1 d pos sym w st ;; p <- parent d sym ;;
     match p with
     | Some s' => relax fl fuel d freqs total pos s' st'
     | None => Ok st'
     end).
  Proof.
    cbn [relax]. unfold relax1. destruct (get d sym) as [w| | |]; cbn [bind]; try easy.
    destruct (vget (fst st) (length w + pos)); cbn [bind]; try easy.
    destruct (vget (fst st) pos); cbn [bind]; easy.
  Qed.

  Lemma relax1_spec d pos sym w st :
    R d -> word_at (seqs d) sym w -> w <> [] -> prefix w (skipn pos s) -> Q w -> pos < len ->
    dpinv d (S pos) st ->
    exists st', relax1 d pos sym w st = Ok st' /\ dpinv d (S pos) st' /\ same_upto pos st st' /\
      grows st st' /\
      (forall x, nth_error (fst st) pos = Some x -> ok pos x ->
         exists y, nth_error (fst st') (pos + length w) = Some y /\ ok (pos + length w) y /\
                   fltb fl y (fadd fl x (slp d sym)) = false).
  Proof.
    intros HR Hw Hne Hpre HQ Hpos (Hl1 & Hl2 & H0 & Hent).
    pose proof HR as [_ Hwt]. specialize (Hwt sym).
    pose proof (prefix_skipn w pos s Hpre (Nat.lt_le_incl _ _ Hpos)) as Hfit. fold len in Hfit.
    assert (Hwpos : 0 < length w) by (destruct w; [easy|simpl; lia]).
    unfold relax1. rewrite (Nat.add_comm (length w) pos). set (t := pos + length w) in *.
    destruct (nth_lt (fst st) t) as [old Hold]; [lia|].
    destruct (nth_lt (fst st) pos) as [here Hhere]; [lia|].
    rewrite (vget_some _ _ _ Hold), (vget_some _ _ _ Hhere). cbn [bind].
    set (cand := fadd fl here (slp d sym)).
    pose proof (Hent pos here Hhere) as Eh. pose proof (Hent t old Hold) as Eo.
    destruct Eh as [->|[Hokh _]].
    - (* position not reached *)
      assert (E : fltb fl old cand = false).
      { destruct Eo as [->|[Hoko _]].
        - now apply (low_low fl L).
        - apply (ok_low fl L (Z.of_nat t)); try easy. apply len_bound. lia. }
      rewrite E. exists st. split; [easy|]. split; [easy|]. split; [now intros k|].
      split; [now apply grows_refl|].
      intros x Hx Hokx. rewrite Hhere in Hx. injection Hx as <-. exfalso.
      (* lowest is never ok *)
      assert (Hlow : fltb fl (flowest fl) (flowest fl) = true).
      { apply (low_ok fl L (Z.of_nat pos)); [apply len_bound; lia|easy]. }
      rewrite (ok_irrefl fl L (Z.of_nat pos)) in Hlow; [easy|apply len_bound; lia|easy].
    - assert (Hokc : ok t cand).
      { apply (ok_mono fl L (Z.of_nat pos + 1)).
        - lia.
        - apply len_bound. lia.
        - apply (ok_add fl L); try easy. pose proof (len_bound len (le_n _)). lia. }
      destruct (fltb fl old cand) eqn:E.
      + rewrite !vset_ok by lia. cbn [bind].
        exists (upd (fst st) t cand, upd (snd st) t sym). split; [easy|].
        assert (Hsame : same_upto pos st (upd (fst st) t cand, upd (snd st) t sym)).
        { intros k Hk. simpl. apply upd_other. lia. }
        assert (Hg : grows st (upd (fst st) t cand, upd (snd st) t sym)).
        { intros k x Hx Hok. simpl. destruct (Nat.eq_dec t k) as [<-|Hk].
          - exists cand. rewrite upd_same by lia. split; [easy|]. split; [easy|].
            rewrite Hold in Hx. injection Hx as <-.
            apply (ok_asym fl L (Z.of_nat t)); try easy. apply len_bound. lia.
          - exists x. rewrite upd_other by easy. split; [easy|]. split; [easy|].
            apply (ok_irrefl fl L (Z.of_nat k)); [|easy]. apply len_bound.
            apply nth_some_lt in Hx. lia. }
        split; [|split; [easy|split; [easy|]]].
        * split; [simpl; now rewrite upd_length|]. split; [simpl; now rewrite upd_length|].
          split; [cbn [fst snd]; rewrite upd_other by lia; easy|].
          intros k x Hx. simpl in Hx. destruct (Nat.eq_dec t k) as [<-|Hk].
          -- rewrite upd_same in Hx by lia. injection Hx as <-. right. split; [easy|]. right.
             exists pos, sym, w, d, here. split; [lia|]. split; [easy|].
             split; [cbn [fst snd]; apply upd_same; lia|].
             split; [easy|]. split; [easy|]. split; [easy|]. split; [easy|].
             split; [cbn [fst snd]; rewrite upd_other by lia; easy|]. split; [easy|]. split; [easy|]. easy.
          -- rewrite upd_other in Hx by easy. destruct (Hent k x Hx) as [->|[Hok Hd]]; [now left|].
             right. split; [easy|]. destruct Hd as [->|(j & y & w' & d1 & x' & A1 & A2 & A3 & A4 & A5 & A6 & A7 & A8 & A9 & A10 & A11)];
               [now left|]. right. exists j, y, w', d1, x'.
             split; [easy|]. split; [easy|]. split; [cbn [fst snd]; rewrite upd_other by easy; easy|].
             split; [easy|]. split; [easy|]. split; [easy|]. split; [easy|].
             split; [cbn [fst snd]; rewrite upd_other by lia; easy|]. easy.
        * intros x Hx Hokx. rewrite Hhere in Hx. injection Hx as <-.
          exists cand. simpl. rewrite upd_same by lia. split; [easy|]. split; [easy|].
          apply (ok_irrefl fl L (Z.of_nat t)); [apply len_bound; lia|easy].
      + exists st. split; [easy|]. split; [easy|]. split; [now intros k|].
        split; [now apply grows_refl|].
        intros x Hx Hokx. rewrite Hhere in Hx. injection Hx as <-.
        exists old. split; [easy|]. split; [|easy].
        destruct Eo as [->|[Hoko _]]; [|easy].
        rewrite (low_ok fl L (Z.of_nat t)) in E; [easy|apply len_bound; lia|easy].
  Qed.

  Lemma relax_spec d pos : R d -> wf_dict d -> no_empty d -> pos < len ->
    forall fuel sym w st, sym < fuel ->
    word_at (seqs d) sym w -> prefix w (skipn pos s) -> Q w ->
    dpinv d (S pos) st ->
    exists st', relax fl fuel d freqs total pos sym st = Ok st' /\ dpinv d (S pos) st' /\
      same_upto pos st st' /\ grows st st' /\
      (forall i v x, anc d sym i -> word_at (seqs d) i v ->
         nth_error (fst st) pos = Some x -> ok pos x ->
         exists y, nth_error (fst st') (pos + length v) = Some y /\ ok (pos + length v) y /\
                   fltb fl y (fadd fl x (slp d i)) = false).
  Proof.
    intros HR Hwf Hne Hpos. induction fuel as [|fuel IH]; intros sym w st Hf Hw Hpre HQ Hinv; [lia|].
    rewrite relax_unfold. unfold get. rewrite (vget_some _ _ _ Hw). cbn [bind].
    assert (Hwne : w <> []) by (apply Hne; now apply word_at_in in Hw).
    destruct (relax1_spec d pos sym w st HR Hw Hwne Hpre HQ Hpos Hinv)
      as (st1 & -> & Hinv1 & Hsame1 & Hg1 & Hopt1).
    cbn [bind].
    destruct (nth_lt (parents d) sym) as [p Hp].
    { destruct Hwf as [-> _]. now apply nth_some_lt in Hw. }
    unfold parent. rewrite (vget_some _ _ _ Hp). cbn [bind].
    assert (Hfin : forall st', grows st1 st' -> forall x, nth_error (fst st) pos = Some x -> ok pos x ->
      exists y, nth_error (fst st') (pos + length w) = Some y /\ ok (pos + length w) y /\
                fltb fl y (fadd fl x (slp d sym)) = false).
    { intros st' Hg x Hx Hokx. destruct (Hopt1 x Hx Hokx) as (y & Hy & Hoky & Hle).
      destruct (Hg _ y Hy Hoky) as (z & Hz & Hokz & Hyz). exists z. split; [easy|]. split; [easy|].
      assert (Hb : pos + length w <= len) by (apply (prefix_skipn w pos s); [easy|unfold len in Hpos; lia]).
      apply (ok_trans fl L (Z.of_nat (pos + length w)) _ y z); try easy; [now apply len_bound|].
      apply (ok_mono fl L (Z.of_nat pos + 1)).
      - destruct w; [easy|]. simpl in *. lia.
      - now apply len_bound.
      - apply (ok_add fl L); try easy. { pose proof (len_bound len (le_n _)). lia. }
        apply HR. }
    destruct p as [j|].
    - pose proof Hwf as [_ Hpar]. destruct (Hpar sym j Hp) as (Hj & v & w' & Hv & Hw' & Hvw).
      unfold word_at in Hw. rewrite Hw in Hw'. injection Hw' as <-.
      destruct (IH j v st1) as (st2 & -> & Hinv2 & Hsame2 & Hg2 & Hopt2); try easy; try lia.
      + now apply (prefix_trans v w).
      + now apply (Qclosed v w).
      + exists st2. split; [easy|]. split; [easy|].
        split; [now apply (same_trans pos st st1 st2)|].
        split; [apply (grows_trans st st1 st2); [apply Hinv|easy|easy]|].
        intros i u x Ha Hu Hx Hokx. inversion Ha as [i'|i' j' k' Hpj Ha']; subst.
        * unfold word_at in Hu. rewrite Hw in Hu. injection Hu as <-. now apply Hfin.
        * rewrite Hp in Hpj. injection Hpj as <-. apply (Hopt2 i u x); try easy.
          now rewrite (Hsame1 pos (le_n _)).
    - exists st1. split; [easy|]. split; [easy|]. split; [easy|]. split; [easy|].
      intros i u x Ha Hu Hx Hokx. inversion Ha as [i'|i' j' k' Hpj Ha']; subst.
      + unfold word_at in Hw, Hu. rewrite Hw in Hu. injection Hu as <-.
        apply (Hfin st1); try easy. apply grows_refl. apply Hinv1.
      + rewrite Hp in Hpj. discriminate.
  Qed.

  Lemma dpinv_weaken d d' p st : extends_by_symbols (seqs d) (seqs d') -> dpinv d p st ->
    dpinv d' (S p) st.
  Proof.
    intros Hext (H1 & H2 & H3 & H4). split; [easy|]. split; [easy|]. split; [easy|].
    intros k x Hx. destruct (H4 k x Hx) as [->|[Hok Hd]]; [now left|]. right. split; [easy|].
    destruct Hd as [->|(j & y & w' & d1 & x' & A1 & A2 & A3 & A4 & A5)]; [now left|].
    right. exists j, y, w', d1, x'. split; [lia|]. split; [easy|]. split; [easy|].
    split; [|easy]. now apply (ext_word_at (seqs d)).
  Qed.

  (** Some position at or after [p] has been reached. *)
  Definition frontier (p : nat) (st : dp fl) : Prop :=
    exists k x, p <= k <= len /\ nth_error (fst st) k = Some x /\ ok k x.

  (** Every dictionary word starting before [p] has been taken into account. *)
  Definition relaxed (d : dict) (p : nat) (st : dp fl) : Prop :=
    forall j i v x, j < p -> A i -> word_at (seqs d) i v -> prefix v (skipn j s) ->
      nth_error (fst st) j = Some x -> ok j x ->
      exists y, nth_error (fst st) (j + length v) = Some y /\ ok (j + length v) y /\
                fltb fl y (fadd fl x (slp d i)) = false.

  Lemma dp_loop_spec skip : forall suffix pos d st,
    P pos d -> skipn pos s = suffix -> pos <= len -> dpinv d pos st -> frontier pos st ->
    exists st' d', dp_loop fl skip d freqs total ex pos suffix st = Ok (st', d') /\
      dpinv d' len st' /\ frontier len st' /\ P len d' /\
      extends_by_symbols (seqs d) (seqs d') /\
      (* when the dictionary is fixed and every match is on the chain: all words relaxed *)
      (forall d0, (forall p d, P p d -> d = d0) -> wf_dict d0 -> no_empty d0 -> R d0 ->
        (forall p c rest i v, skipn p s = c :: rest -> A i -> word_at (seqs d0) i v -> prefix v (c :: rest) ->
           exists r, search d0 (c :: rest) ex = Ok (Some r, d0) /\ anc d0 r i) ->
        relaxed d0 pos st -> relaxed d0 len st').
  Proof.
    induction suffix as [|c rest IH]; intros pos d st HP Hsuf Hpos Hinv Hfr.
    - assert (pos = len).
      { assert (length (skipn pos s) = 0) by now rewrite Hsuf. rewrite skipn_length in H.
        unfold len in *. lia. }
      subst pos. exists st, d. cbn [dp_loop]. split; [easy|]. split; [easy|]. split; [easy|].
      split; [easy|]. split; [apply ext_refl|]. easy.
    - cbn [dp_loop].
      destruct (Hstep pos d c rest HP Hsuf)
        as (i & d1 & Hse & HP1 & Hwf1 & Hne1 & Hext1 & HR1 & w & Hw & Hpre & HQ).
      rewrite Hse. cbn [bind].
      destruct (skipn_cons_lt s pos c rest Hsuf) as [Hlt Hnext].
      rewrite <- Hsuf in Hpre.
      destruct (relax_spec d1 pos HR1 Hwf1 Hne1 Hlt (S (dsize d1)) i w st)
        as (st1 & -> & Hinv1 & Hsame1 & Hg1 & Hopt1); try easy.
      { unfold dsize. apply nth_some_lt in Hw. lia. }
      { now apply (dpinv_weaken d d1). }
      cbn [bind].
      assert (Hfr1 : frontier (S pos) st1).
      { destruct Hfr as (k & x & Hk & Hx & Hok). destruct (Nat.eq_dec k pos) as [->|Hne].
        - destruct (Hopt1 i w x) as (y & Hy & Hoky & _); try easy; [constructor|].
          exists (pos + length w), y.
          assert (Hb : pos + length w <= len) by (apply (prefix_skipn w pos s); [easy|lia]).
          assert (w <> []) by (apply Hne1; now apply word_at_in in Hw).
          split; [destruct w; [easy|simpl in *; lia]|easy].
        - destruct (Hg1 k x Hx Hok) as (y & Hy & Hoky & _). exists k, y. split; [lia|easy]. }
      destruct (IH (S pos) d1 st1) as (st2 & d2 & -> & Hinv2 & Hfr2 & HP2 & Hext2 & Hrel2); try easy.
      exists st2, d2. split; [easy|]. split; [easy|]. split; [easy|]. split; [easy|].
      split; [now apply (ext_trans _ (seqs d1))|].
      intros d0 Hfix Hwf0 Hne0 HR0 Hall Hrel. apply (Hrel2 d0); try easy.
      assert (Ed1 : d1 = d0) by (apply (Hfix (S pos)); easy). subst d1.
      assert (Ed : d = d0) by (apply (Hfix pos); easy). subst d.
      intros j i' v x Hj HA Hv Hpv Hx Hokx.
      destruct (Nat.eq_dec j pos) as [->|Hne].
      + rewrite (Hsame1 pos (le_n _)) in Hx.
        destruct (Hall pos c rest i' v Hsuf HA Hv) as (r & Hr & Ha); [now rewrite <- Hsuf|].
        rewrite Hse in Hr. injection Hr as <-. now apply (Hopt1 i' v x).
      + rewrite (Hsame1 j) in Hx by lia.
        destruct (Hrel j i' v x) as (y & Hy & Hoky & Hle); try easy; [lia|].
        destruct (Hg1 _ y Hy Hoky) as (z & Hz & Hokz & Hyz). exists z. split; [easy|]. split; [easy|].
        assert (Hb : j + length v <= len) by (apply (prefix_skipn v j s); [easy|unfold len in *; lia]).
        apply (ok_trans fl L (Z.of_nat (j + length v)) _ y z); try easy; [now apply len_bound|].
        apply (ok_mono fl L (Z.of_nat j + 1)).
        * assert (v <> []) by (apply Hne0; now apply word_at_in in Hv).
          destruct v; [easy|]. simpl in *. lia.
        * now apply len_bound.
        * apply (ok_add fl L); try easy. { pose proof (len_bound len (le_n _)). lia. }
          apply HR0.
  Qed.

  (** Sum of the weights of [ids], left to right. *)
  Definition psum (n : nat) (ids : list nat) (x : F fl) : F fl :=
    fold_left (fun a i => fadd fl a (sym_log_prob fl freqs total n i)) ids x.

  Lemma backtrack_spec signed d st : no_empty d -> dpinv d len st -> forall k,
    k <= len -> forall x, nth_error (fst st) k = Some x -> ok k x ->
    forall slots acc, k <= slots ->
    exists ids, backtrack signed d (snd st) slots k acc = Ok (ids ++ acc) /\
      spells (seqs d) ids (firstn k s) /\
      Forall (fun i => exists w, word_at (seqs d) i w /\ Q w) ids /\
      forall n, (forall d1, R d1 -> dsize d1 = n) -> x = psum n ids (fofZ fl 0).
  Proof.
    intros Hne Hinv. pose proof Hinv as (Hl1 & Hl2 & H0 & Hent).
    induction k as [k IH] using lt_wf_ind. intros Hk x Hx Hok slots acc Hsl.
    destruct k as [|k'].
    - exists []. destruct slots; cbn [backtrack]; (split; [easy|]); (split; [apply spells_nil|]);
        (split; [constructor|]); intros n Hn; rewrite H0 in Hx; injection Hx as <-; reflexivity.
    - destruct (Hent (S k') x Hx) as [->|[_ [H|Hd]]].
      + exfalso.
        assert (Hlow : fltb fl (flowest fl) (flowest fl) = true).
        { apply (low_ok fl L (Z.of_nat (S k'))); [now apply len_bound|easy]. }
        rewrite (ok_irrefl fl L (Z.of_nat (S k'))) in Hlow; [easy|now apply len_bound|easy].
      + discriminate.
      + destruct Hd as (j & sym & w & d1 & x' & A1 & A2 & A3 & A4 & A5 & A6 & A7 & A8 & A9 & A10 & A11).
        destruct slots as [|slots]; [lia|].
        cbn [backtrack]. rewrite (vget_some _ _ _ A3). cbn [bind].
        unfold get. rewrite (vget_some _ _ _ A4). cbn [bind].
        assert (Hw0 : 0 < length w) by (destruct w; [easy|simpl; lia]).
        assert (E : Nat.leb (length w) (S k') = true) by (apply Nat.leb_le; lia).
        rewrite E. replace (S k' - length w) with j by lia.
        destruct (IH j ltac:(lia) ltac:(lia) x' A8 A9 slots (sym :: acc)) as (ids & -> & Hsp & Hq & Hsum);
          [lia|].
        exists (ids ++ [sym]). split; [now rewrite <- app_assoc|]. split.
        * rewrite A2, (firstn_extend w j s A6 ltac:(unfold len in *; lia)).
          apply spells_app; [easy|]. rewrite <- (app_nil_r w). apply spells_cons; [easy|apply spells_nil].
        * split.
          -- apply Forall_app. split; [easy|]. constructor; [now exists w|constructor].
          -- intros n Hn. unfold psum. rewrite fold_left_app. cbn [fold_left].
             fold (psum n ids (fofZ fl 0)). rewrite <- (Hsum n Hn), A11. unfold slp.
             now rewrite (Hn d1 A10).
  Qed.

  Lemma init_inv d : P 0 d -> dpinv d 0 (fofZ fl 0 :: repeat (flowest fl) len, repeat 0 (S len)).
  Proof.
    intro HP. split; [cbn [fst length]; now rewrite repeat_length|].
    split; [cbn [snd]; now rewrite repeat_length|]. split; [easy|].
    intros [|k] x Hx; cbn [fst nth_error] in Hx.
    - injection Hx as <-. right. split; [apply (ok_zero fl L)|now left].
    - left. apply nth_error_In, repeat_spec in Hx. easy.
  Qed.

  Lemma weighted_parse_spec skip signed d : P 0 d ->
    (forall p d, P p d -> no_empty d) ->
    exists ids x d', weighted_parse fl skip signed d s freqs total ex = Ok (ids, x, d') /\
      spells (seqs d') ids s /\ P len d' /\ extends_by_symbols (seqs d) (seqs d') /\
      Forall (fun i => exists w, word_at (seqs d') i w /\ Q w) ids /\
      (forall n, (forall d1, R d1 -> dsize d1 = n) -> x = psum n ids (fofZ fl 0)) /\
      (forall d0, (forall p d, P p d -> d = d0) -> wf_dict d0 -> no_empty d0 -> R d0 ->
        (forall p c rest i v, skipn p s = c :: rest -> A i -> word_at (seqs d0) i v -> prefix v (c :: rest) ->
           exists r, search d0 (c :: rest) ex = Ok (Some r, d0) /\ anc d0 r i) ->
        forall ids', Forall A ids' -> spells (seqs d0) ids' s ->
          fltb fl x (psum (dsize d0) ids' (fofZ fl 0)) = false).
  Proof.
    intros HP HPne. unfold weighted_parse. fold len.
    destruct (dp_loop_spec skip s 0 d _ HP eq_refl (Nat.le_0_l _) (init_inv d HP))
      as (st & d' & -> & Hinv & Hfr & HP' & Hext & Hrel).
    { exists 0, (fofZ fl 0). split; [lia|]. split; [easy|apply (ok_zero fl L)]. }
    cbn [bind]. destruct Hfr as (k & x & Hk & Hx & Hok). assert (k = len) by lia. subst k.
    destruct (backtrack_spec signed d' st (HPne _ _ HP') Hinv len (le_n _) x Hx Hok len [] (le_n _))
      as (ids & -> & Hsp & Hq & Hsum).
    cbn [bind]. rewrite (vget_some _ _ _ Hx). cbn [bind]. rewrite app_nil_r.
    unfold len in Hsp at 1. rewrite firstn_all in Hsp.
    exists ids, x, d'. split; [easy|]. split; [easy|]. split; [easy|]. split; [easy|].
    split; [easy|]. split; [easy|].
    intros d0 Hfix Hwf0 Hne0 HR0 Hall.
    assert (Hr0 : relaxed d0 0 (fofZ fl 0 :: repeat (flowest fl) len, repeat 0 (S len))).
    { intros j i v y Hj. lia. }
    specialize (Hrel d0 Hfix Hwf0 Hne0 HR0 Hall Hr0).
    assert (Hgen : forall ids' t j acc y, Forall A ids' -> spells (seqs d0) ids' t -> skipn j s = t -> j <= len ->
      nth_error (fst st) j = Some y -> ok j y -> ok j acc -> fltb fl y acc = false ->
      fltb fl x (psum (dsize d0) ids' acc) = false).
    { induction ids' as [|i ids' IH]; intros t j acc y HA (vs & Hvs & Hc) Ht Hj Hy Hoky Hacc Hle.
      - inversion Hvs; subst vs. simpl in Hc. subst t.
        assert (j = len).
        { assert (length (skipn j s) = 0) by now rewrite Ht. rewrite skipn_length in H.
          unfold len in *. lia. }
        subst j. rewrite Hx in Hy. injection Hy as <-. easy.
      - inversion Hvs as [|i' v ids'' vs' Hv Hvs']; subst. simpl in Ht.
        assert (Hpv : prefix v (skipn j s)) by (rewrite Ht; now exists (concat vs')).
        assert (Hvne : v <> []) by (apply Hne0; now apply word_at_in in Hv).
        assert (Hb : j + length v <= len) by (now apply (prefix_skipn v j s)).
        assert (Hv0 : 0 < length v) by (destruct v; [easy|simpl; lia]).
        destruct (Hrel j i v y) as (z & Hz & Hokz & Hyz); try easy; [lia|now inversion HA|].
        cbn [psum fold_left]. fold (psum (dsize d0) ids' (fadd fl acc (sym_log_prob fl freqs total (dsize d0) i))).
        assert (Hwt : fwt fl L (slp d0 i)) by apply HR0.
        assert (Hjb : (0 <= Z.of_nat j < maxlen)%Z) by (pose proof (len_bound len (le_n _)); lia).
        assert (Hup : forall a, ok j a -> ok (j + length v) (fadd fl a (slp d0 i))).
        { intros a Ha. apply (ok_mono fl L (Z.of_nat j + 1)); [lia|now apply len_bound|].
          now apply (ok_add fl L). }
        apply (IH (concat vs') (j + length v) _ z); try easy.
        + now inversion HA.
        + exists vs'. now split.
        + now apply skipn_extend.
        + now apply Hup.
        + apply (ok_trans fl L (Z.of_nat (j + length v)) _ (fadd fl y (slp d0 i)) z); try easy.
          * now apply len_bound.
          * now apply Hup.
          * now apply Hup.
          * now apply (ok_add_mono fl L (Z.of_nat j)). }
    intros ids' HA' Hsp'. apply (Hgen ids' s 0 _ (fofZ fl 0)); try easy; try lia.
    - apply Hinv.
    - apply (ok_zero fl L).
    - apply (ok_zero fl L).
    - apply (ok_irrefl fl L 0); [unfold maxlen; lia|apply (ok_zero fl L)].
  Qed.
End DP.
