(** Proofs for C84: what the statistics behind code_length() have counted. *)
From Verif Require Import Base Spec FloatOps FloatLaws OrderProofs DictProofs GreedyProofs DpProofs ModelDict Maps ModelStat
  ModelBuilder SpecStat SpecBuilder StatProofs RunProofs ReduceProofs LearnProofs BuilderProofs BuilderSafe BuilderOwn TotalProofs SpecMeasure.

Section M.
  Context (fl : fops) (L : flaws fl).

  Record meas (d : dict) (st : sstat fl) (log : list (seq * list nat)) : Prop := {
    me_spells : Forall (fun e => spells (seqs d) (snd e) (fst e)) log;
    me_sf : forall j, at0 (sfreqs st) j = log_occ log j;
    me_power : power st = fofZ fl (words_emitted log);
    me_chars : chars st = fofZ fl (symbols_consumed log)
  }.
  Lemma parse_chars d (st : sstat fl) s ids n d' st' : stat_parse fl d st s [] = Ok (ids, n, d', st') ->
    chars st' = fadd fl (chars st) (fofZ fl (Z.of_nat (length s))).
  Proof.
    intros H. unfold stat_parse in H.
    apply bind_ok in H as ([[o m] d1] & Hp & H). apply bind_ok in H as (st2 & Hf & H).
    injection H as _ _ _ <-. cbn [chars]. apply fold_inv in Hf as (_ & _ & _ & _ & _ & _ & E). exact E.
  Qed.
  Lemma meas_step W0 xs B Size d st P log s ids n d' st' :
    dict_inv W0 xs d -> stat_inv fl L W0 xs B Size d st P -> (P <= kmax)%Z -> (0 <= B <= 2 ^ 52)%Z ->
    (Size <= 2 ^ 51)%Z -> (Z.of_nat (length s) <= 2 ^ 40)%Z -> (symbols_consumed log + Z.of_nat (length s) <= 2 ^ 50)%Z ->
    stat_parse fl d st s [] = Ok (ids, n, d', st') -> meas d st log -> meas d' st' (log ++ [(s, ids)]).
  Proof.
    intros (Hwf & Hne & Hw) I HP HB HS Hl Hsc H M. unfold kmax in HP.
    destruct (stat_bounds fl L _ _ _ _ _ _ _ I ltac:(lia) HB) as [Hpw Hpf].
    pose proof (si_size _ _ _ _ _ _ _ _ _ I) as Hsz. pose proof (si_P _ _ _ _ _ _ _ _ _ I) as HP0.
    destruct (parse_inv fl L _ _ _ _ _ _ _ H Hwf Hne) as (Hsp & Hwf' & Hne' & Hext & Hnew & Hds & Hsf & Hpf' & Hpw' & Hpr & Hip & Hmp);
      try easy.
    { apply Hpf. unfold maxcount. lia. } { apply I. } { unfold maxcount. lia. }
    assert (Hle : length ids <= length s) by (apply (spells_le (seqs d')); [exact Hne'|exact Hsp]).
    assert (Hn : ~ In [] (seqs d)) by (intro Hi; now apply (Hne [])).
    pose proof (words_symbols _ _ (me_spells _ _ _ M) Hn) as Hws.
    assert (Hw0 : (0 <= words_emitted log)%Z).
    { unfold words_emitted. apply zsum_nonneg. apply Forall_forall. intros x Hx. apply in_map_iff in Hx as (e & <- & _). lia. }
    split.
    - apply Forall_app. split; [|constructor; [exact Hsp|constructor]].
      eapply Forall_impl; [|exact (me_spells _ _ _ M)]. intros e He. now apply (spells_ext (seqs d)).
    - intro j. rewrite Hsf, (me_sf _ _ _ M), log_occ_snoc. easy.
    - rewrite Hpw', (me_power _ _ _ M), words_snoc. cbn [snd]. apply (padd_ofZ fl L); [lia|unfold maxcount; lia].
    - rewrite (parse_chars _ _ _ _ _ _ _ H), (me_chars _ _ _ M), symbols_snoc. cbn [fst]. apply (ofZ_add fl L); [unfold symbols_consumed; apply zsum_nonneg; apply Forall_forall; intros x Hx; apply in_map_iff in Hx as (e & <- & _); lia|lia|unfold maxcount; lia].
  Qed.
  Lemma meas_ext d d' st log : extends_by_symbols (seqs d) (seqs d') -> meas d st log -> meas d' st log.
  Proof.
    intros E M. split; try apply M. eapply Forall_impl; [|exact (me_spells _ _ _ M)]. intros e He. now apply (spells_ext (seqs d)).
  Qed.
  Lemma meas_grow d d' st log : meas d st log -> meas d (grow_freqs fl d' st) log.
  Proof. intro M. split; try apply M. intro j. unfold grow_freqs. cbn [sfreqs]. rewrite at0_pad. apply M. Qed.
  Lemma meas_new ws mp fs d st : mk_stat fl ws mp fs = Ok (d, st) -> meas d st [].
  Proof.
    intro H. destruct (mk_stat_ok fl ws mp fs) as (d1 & st1 & H' & _ & Hs & Hlk & E1 & E2 & E3 & E4 & E5 & E6 & E7).
    rewrite H in H'. injection H' as <- <-. split; [constructor| | |]; [intro j; rewrite E1, at0_repeat; reflexivity|exact E3|exact E7].
  Qed.

  (** The value of code_length_per_char. *)
  Lemma meas_value d st log : meas d st log ->
    code_length_per_char fl d st = per_symbol fl (uses (dsize d) log) (words_emitted log) (symbols_consumed log).
  Proof.
    intro M. unfold code_length_per_char, per_symbol, uses, xlogx. rewrite (me_power _ _ _ M), (me_chars _ _ _ M). do 2 f_equal.
    assert (G : forall l a, fold_left (fun a i => if Z.ltb 0 (freq fl st i) then fsub fl a (fmul fl (fofZ fl (freq fl st i)) (flog fl (fofZ fl (freq fl st i)))) else a) l a =
      fold_left (fun a f => if Z.ltb 0 f then fsub fl a (fmul fl (fofZ fl f) (flog fl (fofZ fl f))) else a) (map (log_occ log) l) a).
    { induction l as [|i l IH]; intro a; [reflexivity|]. cbn [fold_left map]. rewrite IH, freq_at0, (me_sf _ _ _ M). reflexivity. }
    apply G.
  Qed.

  Lemma window_all (xs : list seq) i j ph : in_window (i, j, ph) xs = firstn (j - i) (skipn i xs).
  Proof. reflexivity. Qed.
  Lemma window_app i j ph xs ys : j <= length xs -> in_window (i, j, ph) (xs ++ ys) = in_window (i, j, ph) xs.
  Proof.
    intro H. unfold in_window. rewrite skipn_app, firstn_app, skipn_length. destruct (Nat.le_gt_cases i j).
    - replace (j - i - (length xs - i)) with 0 by lia. now rewrite app_nil_r.
    - replace (j - i) with 0 by lia. reflexivity.
  Qed.
  Lemma window_snoc i ph ph' xs s : i <= length xs ->
    in_window (i, S (length xs), ph) (xs ++ [s]) = in_window (i, length xs, ph') xs ++ [s].
  Proof.
    intro H. unfold in_window. rewrite skipn_app. replace (i - length xs) with 0 by lia. cbn [skipn].
    rewrite !firstn_all2; try (rewrite ?app_length, skipn_length; cbn [length]; lia). easy.
  Qed.

  (** The invariant. *)
  Definition kinv (w : window) (xs : list seq) (b : builder fl) : Prop :=
    let '(i, j, ph) := w in ph = phase_of fl b /\ i <= j <= length xs /\
    (exists d log, hget fl b (bptr b) = Ok d /\ meas d (bcur b) log /\ (symbols_consumed log <= total_len xs)%Z /\
      (ph <> Frozen -> j = length xs /\ map fst log = in_window w xs)) /\
    (forall p st, bres b = ROwn p st -> p < bptr b /\
      exists d log, hget fl b p = Ok d /\ meas d st log /\ map fst log = in_window w xs).

  Section Hist.
    Context (W0 : seq -> Prop) (B Size N : Z) (b0 : builder fl).
    Context (I0 : binv fl L W0 [] B Size b0) (HB : (kmax + N <= B <= 2 ^ 52)%Z) (HS : (Size <= 2 ^ 50)%Z).
    Context (K0 : kinv (0, 0, phase_of fl b0) [] b0).

    Lemma kept_hist ops w b : whist fl b0 (phase_of fl b0) ops w b -> envs_ok fl ops -> lengths_ok fl N ops -> shared_known fl W0 ops ->
      kinv w (accepted fl ops) b.
    Proof.
      induction 1 as [|ops w b op b' Hw IH Hstep]; intros He Hl Hk; [exact K0|].
      pose proof Hl as ((HN1 & HN2) & Hla & Hpr0). destruct (lengths_snoc fl _ _ _ Hl) as (Hl' & Hp & Hn).
      specialize (IH (envs_snoc fl _ _ He) Hl' (shared_snoc fl _ _ _ Hk)).
      pose proof (window_bhist fl _ _ _ _ _ Hw) as H.
      pose proof (hist_inv fl L W0 B Size N b0 I0 HB HS ops b H (envs_snoc fl _ _ He) Hl' (shared_snoc fl _ _ _ Hk)) as I.
      rewrite accepted_snoc. pose proof (accepted_len fl ops) as Hal. pose proof (processed_nonneg fl ops) as Hpn.
      rewrite processed_snoc in Hpr0.
      destruct w as [[i j] ph]. destruct IH as (Eph & Hij & (d & log & Hd & M & Hsc & Hlog) & Hown).
      destruct op as [e s| |p s freqs total]; cbn [bstep op_accepted op_length] in *.
      - inversion_clear Hn as [|? ? Hs _].
        destruct (bi_cur _ _ _ _ _ _ _ I) as (d' & P & Hd' & HP & SI). rewrite Hd in Hd'. injection Hd' as <-.
        destruct (hget_in fl _ _ _ Hd) as [Hin Hpl].
        assert (DI : dict_inv W0 (accepted fl ops) d) by (exact (proj1 (Forall_forall _ _) (bi_heap _ _ _ _ _ _ _ I) d Hin)).
        apply (accept_cases fl) in Hstep as (d2 & ids & n & d1 & st1 & Hd2 & Hp2 & Hc). rewrite Hd in Hd2. injection Hd2 as <-.
        assert (M1 : meas d1 st1 (log ++ [(s, ids)])).
        { apply (meas_step W0 (accepted fl ops) B _ d (bcur b) P log s ids n d1 st1 DI SI HP); try easy; unfold kmax in HB; lia. }
        assert (Hsc1 : (symbols_consumed (log ++ [(s, ids)]) <= total_len (accepted fl ops ++ [s]))%Z).
        { rewrite symbols_snoc, total_len_app. cbn [fst]. unfold total_len at 2. cbn [map]. change (zsum [Z.of_nat (length s)]) with (Z.of_nat (length s) + 0)%Z. lia. }
        assert (Hlen : length (accepted fl ops ++ [s]) = S (length (accepted fl ops))) by (rewrite app_length; cbn [length]; lia).
        destruct Hc as [[_ ->]|(_ & ws & fs & mp & d4 & st4 & prob & best & turns & _ & Hm & ->)].
        + unfold window_step, is_updated, parsed. cbn [bheap]. rewrite upd_length, Nat.ltb_irrefl. unfold window_next.
          assert (G : exists j', (match ph return window with Frozen => (i, j, Frozen) | _ => (i, S (length (accepted fl ops)), ph) end) = (i, j', ph) /\
            i <= j' <= S (length (accepted fl ops)) /\ (ph = Frozen -> j' = j) /\ (ph <> Frozen -> j' = S (length (accepted fl ops)))).
          { destruct ph; eexists; (split; [reflexivity|]); split; try easy; lia. }
          destruct G as (j' & -> & Hj' & Hfz & Hnf).
          split; [exact Eph|]. split; [lia|]. cbn [bptr bcur bres]. split.
          * exists d1, (log ++ [(s, ids)]). split; [unfold hget; cbn [bheap]; apply vget_some; now apply upd_same|]. split; [exact M1|].
            split; [exact Hsc1|]. intro Hph. rewrite (Hnf Hph), Hlen. split; [easy|]. destruct (Hlog Hph) as [-> E].
            rewrite (window_snoc i ph ph); [|lia]. rewrite <- E, map_app. reflexivity.
          * intros p st Er. destruct (Hown p st Er) as (Hlt & dd & lg & Hg & Md & Em). split; [exact Hlt|]. exists dd, lg.
            split; [unfold hget; cbn [bheap]; apply vget_some; rewrite upd_other by lia; now apply vget_ok in Hg|]. split; [exact Md|].
            assert (ph = Frozen) by (rewrite Eph; unfold phase_of; now rewrite Er). rewrite (Hfz H0), window_app; [exact Em|lia].
        + unfold window_step, is_updated. cbn [bheap]. rewrite app_length, upd_length. cbn [length].
          assert (Ht : Nat.ltb (length (bheap b)) (length (bheap b) + 1) = true) by (apply Nat.ltb_lt; lia). rewrite Ht.
          assert (Hcur : forall w, hget fl (mkBuilder (upd (bheap b) (bptr b) d1 ++ [d4]) (bsize b)
               (bsymb b ++ new_symbols (length (bsymb b)) 0 (combine (seqs d4) (parents d4)))
               (length (bheap b)) st4 w (negb (bpop b)) prob best turns) (length (bheap b)) = Ok d4).
          { intro w. unfold hget. cbn [bheap]. apply vget_some. rewrite nth_error_app2; rewrite upd_length; [|lia]. now rewrite Nat.sub_diag. }
          assert (Hst : (symbols_consumed [] <= total_len (accepted fl ops ++ [s]))%Z) by apply total_len_nonneg.
          assert (Hfresh : forall ph', in_window (S (length (accepted fl ops)), S (length (accepted fl ops)), ph') (accepted fl ops ++ [s]) = []).
          { intro. unfold in_window. rewrite Nat.sub_diag. reflexivity. }
          unfold window_next, phase_of, next_res in *. cbn [bres].
          destruct (bpop b).
          * destruct (bres b) as [| |p0 s0] eqn:Er; subst ph; cbn [bres bptr bcur].
            -- split; [easy|]. split; [lia|]. split; [|discriminate].
               exists d4, []. split; [apply Hcur|]. split; [exact (meas_new _ _ _ _ _ Hm)|]. split; [exact Hst|]. intros _. rewrite Hlen, Hfresh. easy.
            -- split; [easy|]. split; [lia|]. split.
               ++ exists d4, []. split; [apply Hcur|]. split; [exact (meas_new _ _ _ _ _ Hm)|]. split; [exact Hst|]. easy.
               ++ intros p st [= <- <-]. split; [easy|]. exists d1, (log ++ [(s, ids)]). split.
                  { unfold hget. cbn [bheap]. apply vget_some. rewrite nth_error_app1 by (now rewrite upd_length). now apply upd_same. }
                  split; [exact M1|]. destruct (Hlog ltac:(discriminate)) as [-> E]. rewrite (window_snoc i Frozen Live); [|lia]. rewrite <- E, map_app. reflexivity.
            -- split; [easy|]. split; [lia|]. split.
               ++ exists d4, []. split; [apply Hcur|]. split; [exact (meas_new _ _ _ _ _ Hm)|]. split; [exact Hst|]. easy.
               ++ intros p st [= <- <-]. destruct (Hown p0 s0 eq_refl) as (Hlt & dd & lg & Hg & Md & Em). split; [cbn [bptr]; lia|]. exists dd, lg. split.
                  { unfold hget. cbn [bheap]. apply vget_some. rewrite nth_error_app1 by (rewrite upd_length; lia). rewrite upd_other by lia. now apply vget_ok in Hg. }
                  split; [exact Md|]. rewrite window_app; [exact Em|lia].
          * cbn [bres bptr bcur]. split; [easy|]. split; [lia|]. split; [|discriminate].
            exists d4, []. split; [apply Hcur|]. split; [exact (meas_new _ _ _ _ _ Hm)|]. split; [exact Hst|]. intros _. rewrite Hlen, Hfresh. easy.
      - destruct Hstep as (fs & Hf). rewrite app_nil_r. cbn [window_step]. unfold result_freqs in Hf. apply bind_ok in Hf as (dd & Hdd & Hf).
        unfold phase_of in *. destruct (bres b) as [| |p st] eqn:Er; injection Hf as _ <-; cbn [bres bptr bcur].
        1,2: (split; [exact Eph|]; split; [exact Hij|]; split; [|discriminate]; exists d, log; split; [exact Hd|];
          split; [now apply meas_grow|]; split; [exact Hsc|exact Hlog]).
        split; [exact Eph|]. split; [exact Hij|]. split; [exists d, log; easy|]. intros p' st' [= <- <-].
        destruct (Hown p st eq_refl) as (Hlt & d3 & lg & Hg & Md & Em). split; [exact Hlt|]. exists d3, lg. split; [exact Hg|]. split; [now apply meas_grow|exact Em].
      - destruct Hstep as (dd & o & n & dd' & Hg & Hpw & ->). rewrite app_nil_r. cbn [window_step].
        destruct (hget_in fl _ _ _ Hg) as [Hin Hpl].
        pose proof (proj1 (Forall_forall _ _) (bi_heap _ _ _ _ _ _ _ I) dd Hin) as (Hwf & _).
        destruct (parse_new _ _ _ _ _ _ _ _ _ Hwf Hpw) as (_ & Hext & _ & _).
        assert (G : forall q dq (st : sstat fl) lg, hget fl b q = Ok dq -> meas dq st lg -> exists dq', hget fl (hput fl b p dd') q = Ok dq' /\ meas dq' st lg).
        { intros q dq st lg Hq Mq. unfold hget, hput in *. cbn [bheap]. destruct (Nat.eq_dec p q) as [<-|Hpq].
          - exists dd'. split; [apply vget_some; now apply upd_same|]. rewrite Hg in Hq. injection Hq as <-. now apply (meas_ext dd).
          - exists dq. split; [|exact Mq]. apply vget_some. rewrite upd_other by easy. now apply vget_ok in Hq. }
        split; [exact Eph|]. split; [exact Hij|]. split.
        + destruct (G _ _ _ _ Hd M) as (dq & Hq & Mq). exists dq, log. easy.
        + intros q st Er. destruct (Hown q st Er) as (Hlt & dq & lg & Hq & Mq & Em). split; [exact Hlt|].
          destruct (G _ _ _ _ Hq Mq) as (dq' & Hq' & Mq'). now exists dq', lg.
    Qed.

    Lemma kept_value ops w b : whist fl b0 (phase_of fl b0) ops w b -> envs_ok fl ops -> lengths_ok fl N ops -> shared_known fl W0 ops ->
      match snd w with
      | First => code_length fl b = UB NullDeref
      | _ => exists d log, hget fl b (result_ptr fl b) = Ok d /\ readings w (accepted fl ops) (seqs d) log /\
          code_length fl b = Ok (per_symbol fl (uses (dsize d) log) (words_emitted log) (symbols_consumed log))
      end.
    Proof.
      intros Hw He Hl Hk. pose proof (kept_hist ops w b Hw He Hl Hk) as K. destruct w as [[i j] ph].
      destruct K as (Eph & Hij & (d & log & Hd & M & Hsc & Hlog) & Hown). cbn [snd]. unfold phase_of, code_length, result_ptr, cur_dict in *.
      destruct (bres b) as [| |p st] eqn:Er; subst ph; [reflexivity| |].
      - exists d, log. split; [exact Hd|]. split; [split; [now apply Hlog|exact (me_spells _ _ _ M)]|]. rewrite Hd. cbn [bind]. now rewrite (meas_value d _ log M).
      - destruct (Hown p st eq_refl) as (_ & dd & lg & Hg & Md & Em). exists dd, lg. split; [exact Hg|].
        split; [split; [exact Em|exact (me_spells _ _ _ Md)]|]. rewrite Hg. cbn [bind]. now rewrite (meas_value dd _ lg Md).
    Qed.
  End Hist.

  Lemma no_readings w xs ws log : readings w xs ws log -> Forall (fun s : seq => s = []) (in_window w xs) -> ~ In [] ws ->
    words_emitted log = 0%Z /\ symbols_consumed log = 0%Z /\ forall j, log_occ log j = 0%Z.
  Proof.
    intros [E Hs] Hf Hn. rewrite <- E in Hf. clear E. unfold words_emitted, symbols_consumed, log_occ. induction log as [|[s ids] log IH]; [easy|].
    inversion_clear Hs as [|? ? H1 H2]. cbn [map fst] in Hf. inversion_clear Hf as [|? ? E1 E2]. destruct (IH H2 E2) as (A & B & C).
    cbn [fst snd] in *. subst s. pose proof (spells_count _ _ _ H1 Hn) as Hle. cbn [length] in Hle. destruct ids; [|cbn [length] in Hle; lia].
    cbn [map fst snd length]. split; [exact A|]. split; [exact B|]. exact C.
  Qed.
End M.
