(** Lemmas for PropsSchedule.v. *)
From Verif Require Import ExpandProofs Base Spec FloatOps FloatLaws FloatIEEE FloatRebuild FloatSchedule OrderProofs DictProofs ModelDict Maps ModelCoder ModelStat ModelBuilder ModelStream
  SpecStat SpecBuilder StatProofs ReduceProofs RunProofs BuilderProofs RebuildProofs StreamProofs PropsStreamLemmas PropsRebuildLemmas ScheduleProofs SpecPersist SpecStream SpecSchedule.

Section L.
  Context (fl : fops) (L : flaws fl).
  (** A start: everything the histories need. *)
  Lemma fresh_sched size : fresh_schedule fl (zb (new_stream fl size)).
  Proof. easy. Qed.
  Lemma fresh_due size N ops ps n z e s z' ids d st : timed fl (new_stream fl size) ops ps n z -> normal fl N (ops ++ [SAccept e s]) ->
    s_accept fl e z s = Ok z' -> reads fl z s ids d st ->
    (rebuilds fl z z' = true <->
      fltb fl (wait fl (prob_after fl (cuts fl (map p_rate ps))) (minp (bcur (zb z)))) (fofZ fl (n + Z.of_nat (length ids))) = true \/
      (20000000 < n + Z.of_nat (length ids))%Z).
  Proof.
    intros H Hn Ha Hr. exact (due fl L [] [] _ _ 0 N 0 (fresh_start fl L size N (normal_N fl _ _ Hn)) eq_refl size0 eq_refl ops ps n z e s z' ids d st (fresh_sched size) H Hn Ha Hr).
  Qed.
  Lemma last_length W0 B Size N T0 (syms0 : list Z) z0 (Z0 : start_stream fl L W0 syms0 z0 B Size T0) (HB : (B = kmax + N)%Z) (HSz : (Size <= 2 ^ 49)%Z)
    (P0 : power (bcur (zb z0)) = fofZ fl 0) ops ps n z :
    timed fl z0 ops ps n z -> normal fl N ops -> forall e, In e ps -> (0 <= p_before e <= p_total e)%Z /\ (p_total e <= p_before e + N)%Z.
  Proof.
    induction 1 as [|ops ps n z e s z' ids d st H IH Ha Hr Hu|ops ps n z e s z' ids d st H IH Ha Hr Hu|ops ps n z op z' H IH Hs Ho]; intros Hn x Hx;
      [easy|exact (IH (normal_snoc fl _ _ _ Hn) x Hx)| |exact (IH (normal_snoc fl _ _ _ Hn) x Hx)].
    apply in_app_or in Hx as [Hx|[<-|[]]]; [exact (IH (normal_snoc fl _ _ _ Hn) x Hx)|]. cbn [p_before p_total].
    destruct (timed_power fl L W0 syms0 z0 B Size N T0 Z0 HB HSz P0 _ _ _ _ H (normal_snoc fl _ _ _ Hn)) as [E R].
    destruct (s_words fl L W0 syms0 z0 B Size N T0 Z0 HB HSz ops z e s z' ids d st n (timed_hist fl _ _ _ _ _ H) Hn Ha Hr E R) as (_ & Hl & _).
    pose proof Hn as (_ & HN & Hfd & _). rewrite fed_snoc in Hfd. apply Forall_app in Hfd as [_ Hfd]. cbn [op_fed] in Hfd. inversion_clear Hfd as [|? ? Hls _]. lia.
  Qed.
  Section W.
    Context (thr : Z) (Rl : rlaws fl L thr) (W : wlaws fl L thr Rl).
    Lemma fresh_periods size N ops ps n z : timed fl (new_stream fl size) ops ps n z -> normal fl N ops ->
      forall i j e1 e2, i < j -> nth_error ps i = Some e1 -> nth_error ps j = Some e2 ->
      (p_before e1 < p_total e2)%Z /\ (p_total e1 < p_total e2 + N)%Z.
    Proof.
      intros H Hn i j e1 e2 Hij H1 H2. destruct (fresh_rested fl L thr Rl size) as (R1 & R2 & R3 & _).
      pose proof (sd_order _ _ _ _ _ _ _ (steady_hist fl L [] [] _ _ 0 N 0 (fresh_start fl L size N (normal_N fl _ _ Hn)) eq_refl size0 R3 thr Rl W ops ps n z R1 R2 H Hn) i j e1 e2 Hij H1 H2) as E.
      split; [exact E|]. destruct (last_length _ _ _ N _ _ _ (fresh_start fl L size N (normal_N fl _ _ Hn)) eq_refl size0 R3 ops ps n z H Hn e1 (nth_error_In _ _ H1)) as [_ E1]. lia.
    Qed.
  End W.
  Section Loaded.
    Context (N : Z) (syms : list Z) (c : coder) (freqs : list Z) (ws : list seq) (size : Z) (mp : F fl) (z0 : stream fl).
    Context (HN : (0 <= N <= 2 ^ 40)%Z) (HL : loadable fl N syms c freqs ws mp) (E0 : loaded_stream fl c freqs ws size mp = Ok z0).
    Let Z0 := loaded_start fl L N syms c freqs ws size mp z0 HN HL E0.
    Let S0 := loaded_size fl N syms c freqs ws mp HL.
    Lemma loaded_sched : fresh_schedule fl (zb z0) /\ power (bcur (zb z0)) = fofZ fl 0.
    Proof.
      destruct (loaded_parts fl L N syms c freqs ws size mp z0 HN HL E0) as (d & d' & st & _ & _ & _ & Em & -> & _). cbn [zb].
      destruct (mk_stat_ok fl (isort ws) mp (Some freqs)) as (d2 & st2 & E2 & _ & _ & _ & _ & _ & H1 & _). rewrite Em in E2. injection E2 as <- <-.
      split; [easy|exact H1].
    Qed.
    Lemma loaded_due ops ps n z e s z' ids d st : timed fl z0 ops ps n z -> normal fl N (ops ++ [SAccept e s]) ->
      s_accept fl e z s = Ok z' -> reads fl z s ids d st ->
      (rebuilds fl z z' = true <->
        fltb fl (wait fl (prob_after fl (cuts fl (map p_rate ps))) (minp (bcur (zb z)))) (fofZ fl (n + Z.of_nat (length ids))) = true \/
        (20000000 < n + Z.of_nat (length ids))%Z).
    Proof.
      intros H Hn Ha Hr. destruct loaded_sched as [F1 F2].
      exact (due fl L _ _ _ _ _ N _ Z0 eq_refl S0 F2 ops ps n z e s z' ids d st F1 H Hn Ha Hr).
    Qed.
    Context (thr : Z) (Rl : rlaws fl L thr) (W : wlaws fl L thr Rl).
    Lemma loaded_periods ops ps n z : rm fl L thr Rl mp -> timed fl z0 ops ps n z -> normal fl N ops ->
      forall i j e1 e2, i < j -> nth_error ps i = Some e1 -> nth_error ps j = Some e2 ->
      (p_before e1 < p_total e2)%Z /\ (p_total e1 < p_total e2 + N)%Z.
    Proof.
      intros Hm H Hn i j e1 e2 Hij H1 H2. destruct (loaded_rested fl L thr Rl N syms c freqs ws size mp z0 HN HL E0 Hm) as (R1 & R2 & R3 & _).
      pose proof (sd_order _ _ _ _ _ _ _ (steady_hist fl L _ _ _ _ _ N _ Z0 eq_refl S0 R3 thr Rl W ops ps n z R1 R2 H Hn) i j e1 e2 Hij H1 H2) as E.
      split; [exact E|]. destruct (last_length _ _ _ N _ _ _ Z0 eq_refl S0 R3 ops ps n z H Hn e1 (nth_error_In _ _ H1)) as [_ E1]. lia.
    Qed.
  End Loaded.
End L.
