(** LogProofs: the lines printed (C93). *)
From Verif Require Import ExpandProofs Base Spec FloatOps FloatLaws FloatRebuild FloatSchedule OrderProofs DictProofs ModelDict Maps ModelCoder ModelTok ModelStat ModelBuilder ModelStream ModelVGram ModelString ModelLog
  SpecStat SpecBuilder StatProofs ReduceProofs RunProofs BuilderProofs RebuildProofs StreamProofs PropsStreamLemmas PropsRebuildLemmas ScheduleProofs PropsScheduleLemmas VGramProofs ModelBuilder ModelStream SpecPersist SpecStream SpecVGram SpecSchedule SpecLog.

Section S.
  Context (fl : fops).

  (** ** Printing has no effect *)
  Lemma silence_update k e b : silence fl (update_out fl k e b) = update fl e b.
  Proof.
    unfold update_out, update, silence. destruct (negb (ready fl b)); [reflexivity|]. destruct (cur_dict fl b) as [d| | |]; try reflexivity. cbn [bind].
    destruct (update_rate fl d b) as [[prob best] turns]. destruct (bpop b).
    - destruct (expand fl e d (bcur b) _) as [[[ws fs] mp]| | |]; try reflexivity. cbn [bind]. destruct (mk_stat fl ws mp (Some fs)) as [[d' st']| | |]; reflexivity.
    - destruct (reduce fl e d (bcur b) _) as [[[ws fs] mp]| | |]; try reflexivity. cbn [bind]. destruct (mk_stat fl ws mp (Some fs)) as [[d' st']| | |]; reflexivity.
  Qed.
  Lemma silence_accept k e b s : silence fl (accept_out fl k e b s) = accept fl e b s.
  Proof.
    unfold accept_out, accept. destruct (cur_dict fl b) as [d| | |]; try reflexivity. cbn [bind].
    destruct (stat_parse fl d (bcur b) s []) as [[[[i n] d'] st']| | |]; try reflexivity. cbn [bind].
    destruct (ready fl _); [apply silence_update|reflexivity].
  Qed.
  Lemma silence_stream k e z s : silence fl (s_accept_out fl k e z s) = s_accept fl e z s.
  Proof.
    unfold s_accept_out, s_accept. destruct (encode (zcoder z) s) as [codes c]. rewrite <- (silence_accept k). unfold silence.
    destruct (accept_out fl k e (zb z) codes) as [[o b]| | |]; reflexivity.
  Qed.
  Lemma silence_sample k w xs : forall n t z, silence fl (sample_out fl k w xs n t z) = sample fl w xs n t z.
  Proof.
    induction n as [|n IH]; intros t z; [reflexivity|]. cbn [sample_out sample]. destruct (vget xs _) as [x| | |]; try reflexivity. cbn [bind].
    rewrite <- (silence_stream k). unfold silence at 1 2. destruct (s_accept_out fl k (w_env w t) z x) as [[o z']| | |]; try reflexivity. cbn [bind snd].
    destruct (w_term w t); [reflexivity|]. rewrite <- IH. unfold silence. destruct (sample_out fl k w xs n (S t) z') as [[o' r]| | |]; reflexivity.
  Qed.
  Lemma silence_rounds k w xs : forall n i t z, silence fl (rounds_out fl k w xs n i t z) = rounds fl w xs n t z.
  Proof.
    induction n as [|n IH]; intros i t z; [reflexivity|]. cbn [rounds_out rounds]. rewrite <- (silence_sample k). unfold silence at 1 2.
    destruct (sample_out fl k w xs (length xs) t z) as [[o [[stop t'] z']]| | |]; try reflexivity. cbn [bind snd]. destruct stop; [reflexivity|].
    destruct (s_update fl z') as [z''| | |]; try reflexivity. cbn [bind]. rewrite <- (IH (S i)). unfold silence.
    destruct (rounds_out fl k w xs n (S i) t' z'') as [[o' r]| | |]; reflexivity.
  Qed.
  Lemma silence_fit k w v xs : silence fl (fit_out fl k w v xs) = fit fl w v xs.
  Proof.
    unfold fit_out, fit, recompute_out. destruct (vfitted v).
    - destruct (vcomputed v); [reflexivity|]. unfold silence. destruct (recompute_freqs fl w xs 0 (vs v)) as [[t z]| | |]; reflexivity.
    - rewrite <- (silence_rounds k _ _ _ 0). unfold silence. destruct (rounds_out fl k w xs (Z.to_nat (viter v)) 0 0 (vs v)) as [[o [[stop t] z]]| | |]; try reflexivity.
      cbn [bind snd]. destruct stop; [reflexivity|]. destruct (recompute_freqs fl w xs t z) as [[t' z']| | |]; reflexivity.
  Qed.
  Lemma silence_text b k e z s : silence fl (t_accept_out fl b k e z s) = t_accept fl b e z s.
  Proof.
    unfold t_accept_out, t_accept. destruct (tok_transform b (ttok z) s) as [[ids tk]| | |]; try reflexivity. cbn [bind].
    rewrite <- (silence_stream k). unfold silence. destruct (s_accept_out fl k e (tst z) ids) as [[o z']| | |]; reflexivity.
  Qed.
  Lemma silence_texts b k w v xs : silence fl (tv_fit_out fl b k w v xs) = tv_fit fl b w v xs.
  Proof.
    unfold tv_fit_out, tv_fit. destruct (tok_transform_all b (tvtok v) xs) as [[ids tk]| | |]; try reflexivity. cbn [bind].
    rewrite <- (silence_fit k). unfold silence. destruct (fit_out fl k w (tv v) ids) as [[o [b' v']]| | |]; reflexivity.
  Qed.

  (** ** Nothing is printed with verbosity 0 *)
  Lemma quiet_say k l : (k <= 0)%Z -> say fl k l = [].
  Proof. intro H. unfold say. destruct (Z.ltb_spec 0 k); [lia|easy]. Qed.
  Lemma loud_say k l : (0 < k)%Z -> say fl k l = [l].
  Proof. intro H. unfold say. destruct (Z.ltb_spec 0 k); [easy|lia]. Qed.
  Lemma quiet_accept k e z s o z' : (k <= 0)%Z -> s_accept_out fl k e z s = Ok (o, z') -> o = [].
  Proof.
    intros Hk H. unfold s_accept_out in H. destruct (encode (zcoder z) s) as [codes c]. apply bind_ok in H as ([o1 b] & H & E). injection E as <- _.
    unfold accept_out in H. apply bind_ok in H as (d & _ & H). apply bind_ok in H as ([[[i n] d'] st'] & _ & H). destruct (ready fl _); [|now injection H as <-].
    unfold update_out in H. destruct (negb _); [now injection H as <-|]. apply bind_ok in H as (d2 & _ & H). destruct (update_rate fl d2 _) as [[prob best] turns].
    apply bind_ok in H as ([[[o ws] fs] mp] & Hx & H). apply bind_ok in H as ([d3 st3] & _ & H). injection H as <- _.
    cbn [bpop bcur] in Hx. destruct (bpop (zb z)); apply bind_ok in Hx as ([[ws1 fs1] mp1] & _ & Hx); injection Hx as <- _ _ _; [now apply quiet_say|easy].
  Qed.
  Lemma quiet_sample k w xs : (k <= 0)%Z -> forall n t z o r, sample_out fl k w xs n t z = Ok (o, r) -> o = [].
  Proof.
    intro Hk. induction n as [|n IH]; intros t z o r H; cbn [sample_out] in H; [now injection H as <-|].
    apply bind_ok in H as (x & _ & H). apply bind_ok in H as ([o1 z1] & Ha & H). apply (quiet_accept _ _ _ _ _ _ Hk) in Ha as ->.
    destruct (w_term w t); [now injection H as <-|]. apply bind_ok in H as ([o2 r2] & H2 & H). apply IH in H2 as ->. now injection H as <-.
  Qed.
  Lemma quiet_rounds k w xs : (k <= 0)%Z -> forall n i t z o r, rounds_out fl k w xs n i t z = Ok (o, r) -> o = [].
  Proof.
    intro Hk. induction n as [|n IH]; intros i t z o r H; cbn [rounds_out] in H; [now injection H as <-|].
    apply bind_ok in H as ([o1 [[stop t1] z1]] & Hs & H). apply (quiet_sample _ _ _ Hk) in Hs as ->. rewrite quiet_say in H by exact Hk.
    destruct stop; [now injection H as <-|]. apply bind_ok in H as (z2 & _ & H). apply bind_ok in H as ([o2 r2] & H2 & H). apply IH in H2 as ->. now injection H as <-.
  Qed.
  Lemma quiet_fit k w v xs o r : (k <= 0)%Z -> fit_out fl k w v xs = Ok (o, r) -> o = [].
  Proof.
    intros Hk H. unfold fit_out, recompute_out in H. rewrite quiet_say in H by exact Hk. destruct (vfitted v).
    - destruct (vcomputed v); [now injection H as <-|]. apply bind_ok in H as ([o1 [t z]] & H1 & H). apply bind_ok in H1 as (r1 & _ & H1). injection H1 as <- _. now injection H as <-.
    - apply bind_ok in H as ([o1 [[stop t] z]] & H1 & H). apply (quiet_rounds _ _ _ Hk) in H1 as ->. destruct stop; [now injection H as <-|].
      apply bind_ok in H as ([o2 [t2 z2]] & H1 & H). apply bind_ok in H1 as (r1 & _ & H1). injection H1 as <- _. now injection H as <-.
  Qed.
  Lemma quiet_text b k e z s o z' : (k <= 0)%Z -> t_accept_out fl b k e z s = Ok (o, z') -> o = [].
  Proof.
    intros Hk H. unfold t_accept_out in H. apply bind_ok in H as ([ids tk] & _ & H). apply bind_ok in H as ([o1 z1] & Ha & H).
    apply (quiet_accept _ _ _ _ _ _ Hk) in Ha as ->. now injection H as <-.
  Qed.
  Lemma quiet_texts b k w v xs o r : (k <= 0)%Z -> tv_fit_out fl b k w v xs = Ok (o, r) -> o = [].
  Proof.
    intros Hk H. unfold tv_fit_out in H. apply bind_ok in H as ([ids tk] & _ & H). apply bind_ok in H as ([o1 [b1 v1]] & Ha & H).
    apply (quiet_fit _ _ _ _ _ _ Hk) in Ha as ->. now injection H as <-.
  Qed.
  Lemma silence_ok {A} (m : outcome (list (line fl) * A)) o a : m = Ok (o, a) -> silence fl m = Ok a.
  Proof. now intros ->. Qed.
  Lemma ok_silence {A} (m : outcome (list (line fl) * A)) a : silence fl m = Ok a -> exists o, m = Ok (o, a).
  Proof. unfold silence. destruct m as [[o x]| | |]; try discriminate. cbn [bind snd]. intros [= <-]. now exists o. Qed.

  (** ** What accept prints *)
  Lemma rate_shown d (st : sstat fl) : compression_rate fl d st = rate fl (seqs d) (map (freq fl st) (List.seq 0 (length (seqs d)))) (power st).
  Proof.
    unfold compression_rate.
    rewrite (fold_pair (fun a i => if Z.ltb 0 (freq fl st i) then fsub fl a (fdiv fl (xlogx fl (freq fl st i)) (flog fl (fofZ fl 2))) else a)
      (fun a i => fadd fl a (fofZ fl ((Z.of_nat (length (word_or (seqs d) i)) * freq fl st i) mod 2 ^ 64)%Z))).
    unfold rate, dsize. rewrite <- (combine_map (seqs d) (freq fl st)). rewrite <- !fold_map. reflexivity.
  Qed.
  Lemma accept_prints k e z s o z' : (0 < k)%Z -> s_accept_out fl k e z s = Ok (o, z') ->
    s_accept fl e z s = Ok z' /\
    ((rebuilds fl z z' = false /\ o = [] /\ bpop (zb z') = bpop (zb z)) \/
     (rebuilds fl z z' = true /\ bpop (zb z') = negb (bpop (zb z)) /\ exists ids d st, reads fl z s ids d st /\
        o = if bpop (zb z) then [Progress (length (seqs d)) (rate fl (seqs d) (map (freq fl st) (List.seq 0 (length (seqs d)))) (power st)) (minp st)] else [])).
  Proof.
    intros Hk H. split; [rewrite <- (silence_stream k); exact (silence_ok _ _ _ H)|].
    unfold s_accept_out in H. destruct (encode (zcoder z) s) as [codes c] eqn:Ec. apply bind_ok in H as ([o1 b] & H & E). injection E as <- <-. unfold rebuilds, is_updated. cbn [zb].
    unfold accept_out in H. apply bind_ok in H as (d & Hd & H). apply bind_ok in H as ([[[ids n] d'] st'] & Hp & H).
    destruct (ready fl _) eqn:Er.
    2:{ injection H as <- <-. left. cbn [bheap bpop]. rewrite upd_length. split; [apply Nat.ltb_irrefl|easy]. }
    right. unfold update_out in H. rewrite Er in H. cbn [negb] in H. apply bind_ok in H as (d2 & Hd2 & H).
    assert (d2 = d').
    { unfold cur_dict, hget in Hd, Hd2. cbn [bheap bptr] in Hd2. apply vget_ok in Hd, Hd2. rewrite upd_same in Hd2 by (now apply nth_some_lt in Hd). now injection Hd2 as <-. }
    subst d2. destruct (update_rate fl d' _) as [[prob best] turns]. apply bind_ok in H as ([[[o ws] fs] mp] & Hx & H). apply bind_ok in H as ([d3 st3] & _ & H).
    injection H as <- <-. cbn [bheap bpop bcur] in *. rewrite app_length, upd_length. cbn [length]. split; [apply Nat.ltb_lt; lia|]. split; [easy|].
    exists ids, d', st'. split; [exists d, n; rewrite Ec; now split|].
    destruct (bpop (zb z)); apply bind_ok in Hx as ([[ws1 fs1] mp1] & _ & Hx); injection Hx as <- _ _ _; [|easy]. rewrite loud_say, rate_shown by exact Hk. reflexivity.
  Qed.
  Lemma other_pop z op z' : sstep fl z op z' -> op_fed fl op = [] -> bpop (zb z') = bpop (zb z).
  Proof.
    intros Hs Ho. destruct op as [e s|s|]; cbn [op_fed] in Ho; [discriminate| |]; cbn [sstep] in Hs.
    - destruct Hs as [ids Hs]. unfold s_parse in Hs. apply bind_ok in Hs as (da & _ & Hs). apply bind_ok in Hs as ([p d] & _ & Hs).
      apply bind_ok in Hs as ([[i n] d'] & _ & Hs). injection Hs as _ <-. easy.
    - assert (K : forall fs b, result_freqs fl (zb z) (zfreqs z) = Ok (fs, b) -> bpop b = bpop (zb z)).
      { intros fs b Hf. unfold result_freqs in Hf. apply bind_ok in Hf as (d & _ & Hf). destruct (bres (zb z)); now injection Hf as _ <-. }
      unfold s_update in Hs. destruct (zdict z) as [q|]; [destruct (Nat.eqb q _); [injection Hs as <-; easy|]|];
        apply bind_ok in Hs as ([fs b] & Hf & Hs); injection Hs as <-; cbn [zb]; now apply K in Hf.
  Qed.
  Lemma talks_shown k z0 ops out z : (0 < k)%Z -> bpop (zb z0) = true -> talks fl k z0 ops out z -> exists r, shown fl z0 ops r out z.
  Proof.
    intros Hk H0 H. cut (exists r, shown fl z0 ops r out z /\ bpop (zb z) = Nat.even r); [intros (r & Hr & _); now exists r|].
    induction H as [|ops out z e s o z' H (r & IH & Ep) Ha|ops out z op z' H (r & IH & Ep) Hs Ho].
    - exists 0. split; [constructor|exact H0].
    - destruct (accept_prints _ _ _ _ _ _ Hk Ha) as [Ha' [(Hr & -> & Hp)|(Hr & Hp & ids & d & st & Hd & ->)]].
      + exists r. rewrite app_nil_r. split; [now apply sn_read with (z := z)|congruence].
      + exists (S r). rewrite Ep in *. split; [now apply sn_rebuild with (z := z) (ids := ids)|]. now rewrite Hp, Nat.even_succ, <- Nat.negb_even.
    - exists r. split; [now apply sn_other with (z := z)|]. now rewrite (other_pop _ _ _ Hs Ho).
  Qed.
  Lemma talks_hist k z0 ops out z : talks fl k z0 ops out z -> shist fl z0 ops z.
  Proof.
    induction 1 as [|ops out z e s o z' H IH Ha|ops out z op z' H IH Hs Ho]; [constructor|econstructor; [exact IH|]..]; [|exact Hs].
    cbn [sstep]. rewrite <- (silence_stream k). exact (silence_ok _ _ _ Ha).
  Qed.
  Lemma hist_talks k z0 ops z : shist fl z0 ops z -> exists out, talks fl k z0 ops out z.
  Proof.
    induction 1 as [|ops z op z' H (out & IH) Hs]; [exists []; constructor|]. destruct op as [e s|s|].
    - cbn [sstep] in Hs. rewrite <- (silence_stream k) in Hs. apply ok_silence in Hs as [o Hs]. exists (out ++ o). now apply tk_accept with (z := z).
    - exists out. now apply tk_other with (z := z).
    - exists out. now apply tk_other with (z := z).
  Qed.
  Lemma quiet_talks k z0 ops out z : (k <= 0)%Z -> talks fl k z0 ops out z -> out = [].
  Proof.
    intros Hk H. induction H as [|ops out z e s o z' H -> Ha|ops out z op z' H -> Hs Ho]; [easy| |easy]. now apply (quiet_accept _ _ _ _ _ _ Hk) in Ha as ->.
  Qed.
  Lemma talks_app k z0 a o z b o' z' : talks fl k z0 a o z -> talks fl k z b o' z' -> talks fl k z0 (a ++ b) (o ++ o') z'.
  Proof.
    intro H. induction 1 as [|b o' z1 e s o2 z2 Hb IH Ha|b o' z1 op z2 Hb IH Hs Ho]; [now rewrite !app_nil_r| |].
    - rewrite !app_assoc. now apply tk_accept with (z := z1).
    - rewrite app_assoc. now apply tk_other with (z := z1).
  Qed.

  (** ** What fit prints *)
  Lemma sample_talks k w xs : forall n t z o stop t' z', sample_out fl k w xs n t z = Ok (o, (stop, t', z')) ->
    if stop then exists m, m < n /\ w_term w (t + m) = true /\ talks fl k z (map (draw fl w xs) (List.seq t (S m))) o z'
    else t' = t + n /\ talks fl k z (map (draw fl w xs) (List.seq t n)) o z'.
  Proof.
    induction n as [|n IH]; intros t z o stop t' z' H; cbn [sample_out] in H.
    - injection H as <- <- <- <-. split; [lia|constructor].
    - apply bind_ok in H as (x & Hx & H). apply bind_ok in H as ([o1 z1] & Ha & H).
      assert (Hs : talks fl k z [draw fl w xs t] o1 z1).
      { unfold draw, drawn. apply vget_ok in Hx. pose proof (nth_error_nth _ _ ([] : seq) Hx) as En. unfold seq in *. rewrite En.
        apply (tk_accept fl k z [] [] z); [constructor|exact Ha]. }
      destruct (w_term w t) eqn:Et.
      + injection H as <- <- <- <-. exists 0. split; [lia|]. rewrite Nat.add_0_r. split; [exact Et|exact Hs].
      + apply bind_ok in H as ([o2 [[stop2 t2] z2]] & H2 & H). injection H as <- <- <- <-. apply IH in H2. destruct stop2.
        * destruct H2 as (m & Hm & H1 & H2). exists (S m). split; [lia|]. replace (t + S m) with (S t + m) by lia. split; [exact H1|]. exact (talks_app _ _ _ _ _ _ _ _ Hs H2).
        * destruct H2 as [-> H2]. split; [lia|]. exact (talks_app _ _ _ _ _ _ _ _ Hs H2).
  Qed.
  Lemma rounds_talk k w xs : (0 < k)%Z -> forall n i z o stop t' z', rounds_out fl k w xs n i (i * length xs) z = Ok (o, (stop, t', z')) ->
    exists parts, o = rounds_shown fl i parts /\
      (forall m, m <= length parts -> (stop = true -> m < length parts) -> exists zm, talks fl k z (flat_map (round fl w xs) (List.seq i m)) (concat (firstn m parts)) zm) /\
      if stop then exists m j, m < n /\ length parts = S m /\ j < length xs /\ w_term w ((i + m) * length xs + j) = true /\
        talks fl k z (flat_map (round fl w xs) (List.seq i m) ++ map (draw fl w xs) (List.seq ((i + m) * length xs) (S j))) (concat parts) z'
      else length parts = n /\ talks fl k z (flat_map (round fl w xs) (List.seq i n)) (concat parts) z'.
  Proof.
    intro Hk. induction n as [|n IH]; intros i z o stop t' z' H; cbn [rounds_out] in H.
    - injection H as <- <- <- <-. exists []. split; [easy|]. split; [|split; [easy|constructor]].
      intros m Hm _. cbn in Hm. assert (m = 0) as -> by lia. exists z. constructor.
    - apply bind_ok in H as ([o1 [[stop1 t1] z1]] & Hs & H). apply sample_talks in Hs. rewrite loud_say in H by exact Hk. destruct stop1.
      + injection H as <- <- <- <-. destruct Hs as (j & Hj & Ht & Hs). exists [o1]. cbn [rounds_shown app]. rewrite app_nil_r. split; [easy|]. split.
        * intros m _ Hm. specialize (Hm eq_refl). cbn in Hm. assert (m = 0) as -> by lia. exists z. constructor.
        * exists 0, j. cbn [List.seq flat_map app concat length]. rewrite Nat.add_0_r, app_nil_r. split; [lia|]. split; [easy|]. split; [exact Hj|]. split; [exact Ht|exact Hs].
      + destruct Hs as [-> Hs]. apply bind_ok in H as (z2 & Hu & H). apply bind_ok in H as ([o2 [[stop2 t2] z3]] & H2 & H). injection H as <- <- <- <-.
        assert (Hr : talks fl k z (round fl w xs i) o1 z2) by (now apply tk_other with (z := z1)).
        replace (i * length xs + length xs) with (S i * length xs) in H2 by lia. apply IH in H2 as (parts & -> & H3 & H4).
        exists (o1 :: parts). cbn [rounds_shown app]. split; [easy|]. split.
        * intros m Hm Hm'. cbn [length] in Hm, Hm'. destruct m as [|m]; [exists z; constructor|].
          destruct (H3 m ltac:(lia) ltac:(intro E; specialize (Hm' E); lia)) as [zm H5]. exists zm. cbn [firstn concat]. rewrite flat_map_seq_S. exact (talks_app _ _ _ _ _ _ _ _ Hr H5).
        * destruct stop2.
          -- destruct H4 as (m & j & Hm & Hl & Hj & Ht & H5). exists (S m), j. split; [lia|]. cbn [length]. split; [lia|]. split; [exact Hj|].
             replace (i + S m) with (S i + m) by lia. split; [exact Ht|]. rewrite flat_map_seq_S, <- app_assoc. cbn [concat]. exact (talks_app _ _ _ _ _ _ _ _ Hr H5).
          -- destruct H4 as [<- H5]. cbn [length concat]. split; [easy|]. rewrite flat_map_seq_S. exact (talks_app _ _ _ _ _ _ _ _ Hr H5).
  Qed.
  Lemma fit_prints k w v xs o ok v' : (0 < k)%Z -> fit_out fl k w v xs = Ok (o, (ok, v')) ->
    if vfitted v then ok = true /\ o = if vcomputed v then [] else [Recount]
    else exists parts, 
      (forall m, m <= length parts -> (ok = false -> m < length parts) -> exists z, talks fl k (vs v) (sampling fl w xs m) (concat (firstn m parts)) z) /\
      if ok then length parts = Z.to_nat (viter v) /\ o = rounds_shown fl 0 parts ++ [Recount]
      else o = rounds_shown fl 0 parts /\ exists m j, m < Z.to_nat (viter v) /\ length parts = S m /\ j < length xs /\ w_term w (m * length xs + j) = true /\
        talks fl k (vs v) (sampling fl w xs m ++ map (draw fl w xs) (List.seq (m * length xs) (S j))) (concat parts) (vs v').
  Proof.
    intros Hk H. unfold fit_out, recompute_out in H. rewrite loud_say in H by exact Hk. destruct (vfitted v).
    - destruct (vcomputed v); [now injection H as <- <- _|]. apply bind_ok in H as ([o1 [t z]] & H1 & H). apply bind_ok in H1 as (r1 & _ & H1). injection H1 as <- _. now injection H as <- <- _.
    - apply bind_ok in H as ([o1 [[stop t] z]] & H1 & H). apply (rounds_talk k w xs Hk _ 0) in H1 as (parts & -> & H2 & H3). exists parts. destruct stop.
      + injection H as <- <- <-. split; [intros m Hm Hm'; apply H2; [exact Hm|intros _; now apply Hm']|]. split; [easy|]. exact H3.
      + apply bind_ok in H as ([o2 [t2 z2]] & H1 & H). apply bind_ok in H1 as (r1 & _ & H1). injection H1 as <- _. injection H as <- <- <-.
        split; [intros m Hm _; apply H2; [exact Hm|discriminate]|]. now destruct H3 as [<- _].
  Qed.
End S.

(** ** The minimum probabilities shown *)
Section M.
  Context (fl : fops) (L : flaws fl).
  Lemma min_closed m0 : mclosed fl L (fun m => fnan fl m = false /\ fltb fl m0 m = false).
  Proof.
    assert (N1 : forall a b, fnan fl a = false -> fnan fl b = false -> fnan fl (fmin fl a b) = false) by (intros a b Ha Hb; unfold fmin; now destruct (fltb fl b a)).
    assert (K1 : forall q m, fnan fl m = false -> fltb fl m0 m = false -> fltb fl m0 (fmin fl q m) = false).
    { intros q m Hm H. unfold fmin. destruct (fltb fl m q) eqn:E; [easy|]. apply (le_trans fl L q m m0); [exact Hm|exact E|exact H]. }
    assert (K2 : forall q m, fnan fl m = false -> fltb fl m0 m = false -> fltb fl m0 (fmin fl m q) = false /\ fnan fl (fmin fl m q) = false).
    { intros q m Hm H. unfold fmin. destruct (fltb fl q m) eqn:E; [|easy].
      split; [apply (le_trans fl L q m m0); [exact Hm|now apply (lt_asym fl L)|exact H]|now apply (lt_num fl L) in E]. }
    split.
    - intros n m Hn [H1 H2]. split; [apply N1; [now apply (inv_num fl L)|exact H1]|now apply K1].
    - intros c t m Hc Ht [H1 H2]. now apply and_comm, K2.
    - intros c t n m Hc Ht Hn [H1 H2]. split; [apply N1; [now apply (div_num fl L)|exact H1]|now apply K1].
  Qed.
  Section Sim.
    Context (ws0 : list seq) (syms0 : list Z) (z0 : stream fl) (B Size N T0 : Z).
    Context (Z0 : start_stream fl L ws0 syms0 z0 B Size T0) (HB : (B = kmax + N)%Z) (HSz : (Size <= 2 ^ 49)%Z).
    Context (P0 : power (bcur (zb z0)) = fofZ fl 0) (M0 : fnan fl (minp (bcur (zb z0))) = false).

    Lemma shown_hist ops r out z : shown fl z0 ops r out z -> shist fl z0 ops z.
    Proof. induction 1; [constructor|econstructor; [eassumption|cbn [sstep]; assumption]..]. Qed.
    Lemma accept_reads e (z : stream fl) s z' : s_accept fl e z s = Ok z' -> exists ids d st, reads fl z s ids d st.
    Proof.
      intro H. unfold s_accept in H. destruct (encode (zcoder z) s) as [codes c] eqn:E. apply bind_ok in H as (b & H & _). unfold accept in H.
      apply bind_ok in H as (d & Hd & H). apply bind_ok in H as ([[[ids n] d'] st] & Hp & _). exists ids, d', st, d, n. rewrite E. now split.
    Qed.
    Lemma minps_snoc out (l : list (line fl)) : minps fl (out ++ l) = minps fl out ++ minps fl l.
    Proof. unfold minps. now rewrite flat_map_app. Qed.
    Lemma shown_minps ops r out z : shown fl z0 ops r out z -> normal fl N ops ->
      (exists n, power (bcur (zb z)) = fofZ fl n /\ (0 <= n <= kmax)%Z) /\ fnan fl (minp (bcur (zb z))) = false /\
      fltb fl (minp (bcur (zb z0))) (minp (bcur (zb z))) = false /\ (forall x, In x (minps fl out) -> fnan fl x = false /\ fltb fl x (minp (bcur (zb z))) = false) /\
      falling fl (minp (bcur (zb z0))) (minps fl out).
    Proof.
      induction 1 as [|ops r out z e s z' H IH Ha Hr|ops r out z e s z' ids d st H IH Ha Hd Hr|ops r out z op z' H IH Hs Ho]; intro Hn.
      - split; [exists 0%Z; split; [exact P0|unfold kmax; lia]|]. split; [exact M0|]. split; [apply (lt_irrefl fl L)|]. split; [easy|]. split; [easy|]. intros [|i] j x y _ Hx; discriminate Hx.
      - destruct (IH (normal_snoc fl _ _ _ Hn)) as ((n & E & R) & I). destruct (accept_reads _ _ _ _ Ha) as (ids & d & st & Hd).
        destruct (s_words fl L ws0 syms0 z0 B Size N T0 Z0 HB HSz ops z e s z' ids d st n (shown_hist _ _ _ _ H) Hn Ha Hd E R) as (E1 & _ & E2 & _ & E3). specialize (E3 Hr).
        destruct (s_reads fl _ _ _ _ _ _ _ Ha Hd) as [(_ & _ & ->)|(_ & Hx & _)]; [|congruence]. unfold parsed. cbn [bcur]. rewrite E2.
        split; [exists (n + Z.of_nat (length ids))%Z; split; [exact E1|lia]|exact I].
      - destruct (IH (normal_snoc fl _ _ _ Hn)) as ((n & E & R) & I1 & I2 & I3 & I4 & I5).
        destruct (s_words fl L ws0 syms0 z0 B Size N T0 Z0 HB HSz ops z e s z' ids d st n (shown_hist _ _ _ _ H) Hn Ha Hd E R) as (_ & _ & E2 & E3 & _).
        destruct (E3 Hr) as [E4 HQ]. destruct (HQ _ (min_closed (minp (bcur (zb z))))) as [Q1 Q2]; [split; [exact I1|apply (lt_irrefl fl L)]|].
        split; [exists 0%Z; split; [exact E4|unfold kmax; lia]|]. split; [exact Q1|].
        split; [exact (le_trans fl L _ _ _ I1 Q2 I2)|].
        assert (Old : forall x, In x (minps fl out) -> fnan fl x = false /\ fltb fl x (minp (bcur (zb z'))) = false).
        { intros x Hx. destruct (I3 x Hx) as [X1 X2]. split; [exact X1|]. exact (le_trans fl L _ _ _ I1 Q2 X2). }
        destruct (Nat.even r); [|rewrite app_nil_r; split; [exact Old|now split]]. rewrite minps_snoc. cbn [minps flat_map app]. rewrite E2. split.
        + intros x Hx. apply in_app_or in Hx as [Hx|[<-|[]]]; [now apply Old|now split].
        + split.
          * intros x Hx. apply in_app_or in Hx as [Hx|[<-|[]]]; [now apply I4|exact I2].
          * intros i j x y Hij Hx Hy. assert (Hj : j < length (minps fl out) + 1) by (apply nth_some_lt in Hy; rewrite app_length in Hy; exact Hy).
            rewrite nth_error_app1 in Hx by lia. destruct (Nat.eq_dec j (length (minps fl out))) as [-> | Hne].
            -- rewrite nth_error_app2, Nat.sub_diag in Hy by lia. injection Hy as <-. apply I3. now apply nth_error_In in Hx.
            -- rewrite nth_error_app1 in Hy by lia. exact (I5 i j x y Hij Hx Hy).
      - destruct (IH (normal_snoc fl _ _ _ Hn)) as (I0 & I). destruct (other_same fl _ _ _ Hs Ho) as (_ & _ & _ & -> & ->). now split.
    Qed.
  End Sim.
  Lemma fresh_minps size N ops r out z : shown fl (new_stream fl size) ops r out z -> normal fl N ops -> falling fl (flit fl 2 1000) (minps fl out).
  Proof.
    intros H Hn. exact (proj2 (proj2 (proj2 (proj2 (shown_minps [] [] _ _ 0 N 0 (fresh_start fl L size N (normal_N fl _ _ Hn)) eq_refl size0 eq_refl (lit_num fl L) ops r out z H Hn))))).
  Qed.
  Lemma loaded_minps N syms c freqs ws size mp z0 ops r out z : (0 <= N <= 2 ^ 40)%Z -> loadable fl N syms c freqs ws mp ->
    loaded_stream fl c freqs ws size mp = Ok z0 -> shown fl z0 ops r out z -> normal fl N ops -> falling fl mp (minps fl out).
  Proof.
    intros HN HL E0 H Hn. destruct (loaded_sched fl L N syms c freqs ws size mp z0 HN HL E0) as [_ P0].
    assert (E : minp (bcur (zb z0)) = mp).
    { destruct (loaded_parts fl L N syms c freqs ws size mp z0 HN HL E0) as (d & d' & st & _ & _ & _ & Em & -> & _). cbn [zb bcur].
      unfold mk_stat in Em. apply bind_ok in Em as (d3 & _ & Em). injection Em as _ <-. reflexivity. }
    rewrite <- E. refine (proj2 (proj2 (proj2 (proj2 (shown_minps _ _ _ _ _ N _ (loaded_start fl L N syms c freqs ws size mp z0 HN HL E0) eq_refl (loaded_size fl N syms c freqs ws mp HL) P0 _ ops r out z H Hn))))).
    rewrite E. now destruct HL as (_ & _ & _ & _ & _ & _ & _ & _ & _ & _ & HL).
  Qed.
End M.
Section E.
  Context (fl : fops).
  Lemma loaded_shown : flaws fl -> forall N syms c freqs ws size mp z0 ops out z, (0 <= N <= 2 ^ 40)%Z -> loadable fl N syms c freqs ws mp ->
    loaded_stream fl c freqs ws size mp = Ok z0 -> talks fl (verbosity Loaded) z0 ops out z -> exists r, shown fl z0 ops r out z.
  Proof.
    intros L N syms c freqs ws size mp z0 ops out z HN HL E0 H. apply (talks_shown fl (verbosity Loaded) z0); [reflexivity| |exact H].
    destruct (loaded_parts fl L N syms c freqs ws size mp z0 HN HL E0) as (d & d' & st & _ & _ & _ & Em & -> & _). reflexivity.
  Qed.
  (** A history with a rebuild has a line. *)
  Lemma rebuilt_line z0 ops r out z : shown fl z0 ops r out z -> (length (bheap (zb z)) = length (bheap (zb z0)) /\ r = 0) \/ minps fl out <> [].
  Proof.
    induction 1 as [|ops r out z e s z' H IH Ha Hr|ops r out z e s z' ids d st H IH Ha Hd Hr|ops r out z op z' H IH Hs Ho].
    - now left.
    - destruct IH as [[E ->]|IH]; [|now right]. left. split; [|easy]. rewrite <- E. destruct (accept_reads fl _ _ _ _ Ha) as (ids & d & st & Hd).
      destruct (s_reads fl _ _ _ _ _ _ _ Ha Hd) as [(_ & _ & ->)|(_ & Hx & _)]; [|congruence]. unfold parsed. cbn [bheap]. apply upd_length.
    - right. rewrite minps_snoc. destruct IH as [[E ->]|IH]; [|intro C; apply app_eq_nil in C; now apply IH].
      cbn [Nat.even minps flat_map app]. intro C. now apply app_eq_nil in C as [_ C].
    - destruct IH as [[E ->]|IH]; [|now right]. left. split; [|easy]. rewrite <- E. destruct op as [e s|s|]; cbn [op_fed] in Ho; [discriminate| |]; cbn [sstep] in Hs.
      + destruct Hs as [ids Hs]. unfold s_parse in Hs. apply bind_ok in Hs as (da & _ & Hs). apply bind_ok in Hs as ([p d] & _ & Hs).
        apply bind_ok in Hs as ([[i n] d'] & _ & Hs). injection Hs as _ <-. unfold put_dict, hput. cbn [zb bheap]. apply upd_length.
      + assert (K : forall fs b, result_freqs fl (zb z) (zfreqs z) = Ok (fs, b) -> length (bheap b) = length (bheap (zb z))).
        { intros fs b Hf. unfold result_freqs in Hf. apply bind_ok in Hf as (d & _ & Hf). destruct (bres (zb z)); now injection Hf as _ <-. }
        unfold s_update in Hs. destruct (zdict z) as [q|]; [destruct (Nat.eqb q _); [now injection Hs as <-|]|];
          apply bind_ok in Hs as ([fs b] & Hf & Hs); injection Hs as <-; cbn [zb]; now apply K in Hf.
  Qed.
End E.
