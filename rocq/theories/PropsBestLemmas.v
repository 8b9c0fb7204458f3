(** Statements of PropsBest.v for streams and models. *)
From Verif Require Import Base Spec FloatOps FloatLaws FloatIEEE FloatExample OrderProofs DictProofs ModelDict Maps ModelCoder SpecCoder
  CoderProofs ModelStat ModelBuilder ModelStream ModelVGram SpecStat SpecBuilder StatProofs RunProofs LearnProofs EnvExample PropsDictLemmas
  PropsStatLemmas BuilderProofs BuilderSafe BuilderOwn BuilderRuns ReachProofs PropsBuilderLemmas StreamProofs StreamRuns PropsStreamLemmas VGramRuns
  VGramProofs PropsVGramLemmas BestProofs SpecStream SpecVGram SpecWeight SpecBest.

Section P.
  Context (fl : fops) (L : flaws fl).

  Section Sim.
    Context (ws0 : list seq) (syms0 : list Z) (z0 : stream fl) (B Size N T0 : Z).
    Context (Z0 : start_stream fl L ws0 syms0 z0 B Size T0) (HB : (B = kmax + N)%Z) (HSz : (Size <= 2 ^ 49)%Z).
    Context (a0 : nat) (d00 : dict) (st00 : sstat fl).
    Context (S0 : sinv fl L ws0 a0 [] [] (zb z0) d00 d00 st00 []) (Hcl : symbol_closed ws0).
    Context (Hwl : Forall (fun w : seq => Z.of_nat (length w) <= 2 ^ 40)%Z ws0) (Ha : (Z.of_nat a0 <= bsize (zb z0))%Z).
    Context (F0 : hfull fl (zb z0)) (O0 : own_inv fl (0, 0, phase_of fl (zb z0)) [] (zb z0)).

    Lemma hist_best ops z s al : shist fl z0 ops z -> normal fl N ops -> room T0 -> has_room fl syms0 z0 ops -> calm fl syms0 z0 ops ->
      s_alphabet fl z = Ok al -> covers al (restrict (syms0 ++ seen fl ops) s) -> (Z.of_nat (length s) <= 2 ^ 40)%Z ->
      exists ids, s_parse fl z s = Ok (ids, z) /\ most_probable fl (s_freqs fl z) al ids (restrict (syms0 ++ seen fl ops) s).
    Proof.
      intros H Hn HR Hr Hc Hal Hcov Hl.
      destruct (sim_exists fl L ws0 syms0 z0 B Size N T0 Z0 HB HSz ops z H Hn) as [bops S].
      destruct (hist_ready fl L ws0 syms0 z0 B Size N T0 Z0 HB HSz a0 d00 st00 S0 Hcl Hwl Ha F0 O0 ops z al H Hn Hr Hc Hal) as (d & R & ->).
      rewrite <- restrict_symbols in *. apply (ready_best fl L _ d z s R); try easy.
      - exact (sm_freqs _ _ _ _ _ _ _ _ _ _ _ _ S).
      - exact (sm_total _ _ _ _ _ _ _ _ _ _ _ _ S).
      - pose proof (sm_sum _ _ _ _ _ _ _ _ _ _ _ _ S) as Hs. pose proof Hn as (_ & (_ & _ & _ & Hu)). unfold room in HR. unfold kmax in Hs. lia.
    Qed.
  End Sim.

  Lemma fresh_best size N ops z s al : shist fl (new_stream fl size) ops z -> normal fl N ops -> roomy fl size ops ->
    calm fl [] (new_stream fl size) ops -> s_alphabet fl z = Ok al -> covers al (restrict (seen fl ops) s) ->
    (Z.of_nat (length s) <= 2 ^ 40)%Z ->
    exists ids, s_parse fl z s = Ok (ids, z) /\ most_probable fl (s_freqs fl z) al ids (restrict (seen fl ops) s).
  Proof.
    intros H Hn Hr Hc Hal Hcov Hl. pose proof Hr as (_ & H1 & _).
    refine (hist_best [] [] (new_stream fl size) (kmax + N) 0 N 0 (fresh_start fl L size N (normal_N fl _ _ Hn)) eq_refl size0
      0 empty_dict _ (fresh_sinv fl L (size - 1)) no_symbols (Forall_nil _) _ (fresh_full fl _) (fresh_own fl _)
      ops z s al H Hn room0 (fresh_room fl _ _ Hr) Hc Hal Hcov Hl).
    cbn. lia.
  Qed.
  Lemma loaded_best N syms c freqs ws size mp z0 : (0 <= N <= 2 ^ 40)%Z -> loadable fl N syms c freqs ws mp ->
    loaded_stream fl c freqs ws size mp = Ok z0 -> forall ops z s al, shist fl z0 ops z -> normal fl N ops -> roomy_loaded fl syms ws ops ->
    calm fl syms z0 ops -> s_alphabet fl z = Ok al -> covers al (restrict (syms ++ seen fl ops) s) -> (Z.of_nat (length s) <= 2 ^ 40)%Z ->
    exists ids, s_parse fl z s = Ok (ids, z) /\ most_probable fl (s_freqs fl z) al ids (restrict (syms ++ seen fl ops) s).
  Proof.
    intros HN HL E ops z s al H Hn Hr Hc Hal Hcov Hl.
    destruct (loaded_safe fl L N syms c freqs ws size mp z0 HN HL E) as (d0 & st0 & S & Ha & F & O & _).
    exact (hist_best (isort ws) syms z0 (kmax + N) _ N _ (loaded_start fl L N syms c freqs ws size mp z0 HN HL E) eq_refl
      (loaded_size fl N syms c freqs ws mp HL) _ d0 st0 S (loaded_closed fl N syms c freqs ws mp HL) (loaded_words fl N syms c freqs ws mp HL) Ha F O
      ops z s al H Hn room50 (loaded_room fl L N syms c freqs ws size mp z0 HN HL E _ Hr) Hc Hal Hcov Hl).
  Qed.
  Lemma fitted_best size N ops0 w v xs ops al v' ys : good_fit fl size N ops0 w v xs ops al -> fit fl w v xs = Ok (true, v') ->
    (forall y, In y ys -> covers al (restrict (seen fl ops) y) /\ (Z.of_nat (length y) <= 2 ^ 40)%Z) ->
    exists rs, Forall2 (fun y ids => most_probable fl (s_freqs fl (vs v')) al ids (restrict (seen fl ops) y)) ys rs /\
      forall w', exists m, kept (w_term w') (length ys) m /\ transform fl w' v' ys = Ok (firstn m rs, v').
  Proof.
    intros G Ef Hy. destruct (good_start fl L _ _ _ _ _ _ _ _ G) as (z & d & fs & b & acc & E & R & Eal & Hcr & _). rewrite Ef in E. injection E as ->.
    assert (ES : forall s, restrict (seen fl ops) s = restrict (symbols_of fl [] ops) s).
    { intro s. apply restrict_ext. intro c. unfold symbols_of. rewrite adds_in. cbn [In]. tauto. }
    assert (Hne : ~ In [] (map (decw (symbols_of fl [] ops)) (seqs d))).
    { intro Hi. apply in_map_iff in Hi as (u & Eu & Hu). destruct u; [|discriminate Eu]. now apply (rd_ne _ _ _ _ R [] Hu). }
    rewrite Eal in *. destruct (counts_sum _ _ _ Hne Hcr) as [Hf Hz]. destruct G as (_ & _ & _ & _ & _ & _ & _ & _ & _ & _ & Ht).
    match type of R with ready _ _ _ (vs ?v0) => set (v1 := v0) in * end.
    assert (X : exists rs, Forall2 (fun y ids => s_parse fl (vs v1) y = Ok (ids, vs v1) /\
      most_probable fl (s_freqs fl (vs v1)) (map (decw (symbols_of fl [] ops)) (seqs d)) ids (restrict (seen fl ops) y)) ys rs).
    { induction ys as [|y ys IH]; [now exists []|]. destruct IH as [rs IH]; [intros u Hu; apply Hy; now right|].
      destruct (Hy y (or_introl eq_refl)) as [Hc Hl]. rewrite ES in Hc.
      destruct (ready_best fl L _ d (vs v1) y R Hf eq_refl) as (ids & Hi & Hm); [unfold v1; cbn [vs zfreqs]; lia|exact Hc|exact Hl|].
      exists (ids :: rs). constructor; [|exact IH]. now rewrite ES. }
    destruct X as [rs X]. exists rs. split; [|apply batch_pure]; clear -X; induction X as [|y ids ys rs [H H2] X IH]; now constructor.
  Qed.
End P.

(** ** In exact numbers *)
From Coq Require Import Reals Lra.
From Flocq Require Import Core BinarySingleNaN.
From Verif Require Import BestFloat.
Local Open Scope R_scope.

Lemma spells_short al ids s : ~ In [] al -> spells al ids s -> (length ids <= length s)%nat.
Proof.
  intros He (vs & H & <-). induction H as [|i w ids vs Hw H IH]; [cbn; lia|]. cbn [length concat]. rewrite app_length.
  unfold word_at in Hw. apply nth_error_In in Hw. destruct w; [contradiction|]. cbn [length]. lia.
Qed.
Lemma slack_pos m : 0 <= slack m.
Proof.
  unfold slack. pose proof (pos_INR m). pose proof (bpow_gt_0 radix2 (-44)). pose proof (bpow_gt_0 radix2 (-47)).
  assert (0 <= INR m * bpow radix2 (-47)) by (apply Rmult_le_pos; lra). apply Rmult_le_pos; lra.
Qed.
Lemma near lg freqs al ids s : log_close lg -> Forall (fun f => 0 <= f)%Z freqs -> (zsum freqs + Z.of_nat (length al) <= 2 ^ 53)%Z -> ~ In [] al ->
  (Z.of_nat (length s) <= 2 ^ 40)%Z -> most_probable (ieee lg) freqs al ids s ->
  forall ids', spells al ids' s -> split_prob freqs (length al) ids' <= split_prob freqs (length al) ids * exp (slack (length s)).
Proof.
  intros Hc Hf Hz He Hl [Hs Hb] ids' Hs'. destruct al as [|a al].
  - assert (X : forall l, spells [] l s -> l = []).
    { intros l (vs & H & _). destruct H as [|i w l vs Hw]; [easy|]. unfold word_at in Hw. destruct i; discriminate Hw. }
    rewrite (X _ Hs), (X _ Hs'). cbn [split_prob fold_right]. rewrite Rmult_1_l. pose proof (slack_pos (length s)) as Hp.
    rewrite <- exp_0 at 1. destruct Hp as [Hp|Hp]; [left; now apply exp_increasing|right; now rewrite Hp].
  - assert (Hz0 : (0 <= zsum freqs)%Z) by (apply zsum_nonneg; exact Hf).
    assert (Hle : forall f, In f freqs -> (f <= zsum freqs)%Z).
    { clear -Hf. induction freqs as [|x l IH]; [easy|]. inversion_clear Hf as [|? ? Hx Hl]. cbn [zsum fold_right]. fold (zsum l).
      pose proof (zsum_nonneg l Hl). intros f [<-|Hf]; [lia|]. specialize (IH Hl f Hf). lia. }
    apply (near_best lg Hc freqs (length (a :: al))); try assumption.
    + apply Forall_forall. intros f Hi. pose proof (proj1 (Forall_forall _ _) Hf f Hi). specialize (Hle f Hi). cbn [length] in Hz. cbn beta in *. lia.
    + cbn [length] in *. lia.
    + now apply spells_short with (a :: al).
    + now apply spells_short with (a :: al).
    + now apply Hb.
Qed.

Lemma fitted_sizes fl (L : flaws fl) size N ops0 w v xs ops al v' : good_fit fl size N ops0 w v xs ops al -> fit fl w v xs = Ok (true, v') ->
  Forall (fun f => 0 <= f)%Z (s_freqs fl (vs v')) /\ (zsum (s_freqs fl (vs v')) + Z.of_nat (length al) <= 2 ^ 53)%Z /\ ~ In [] al.
Proof.
  intros G Ef. destruct (good_start fl L _ _ _ _ _ _ _ _ G) as (z & d & fs & b & acc & E & R & Eal & Hcr & _). rewrite Ef in E. injection E as ->.
  assert (Hne : ~ In [] (map (decw (symbols_of fl [] ops)) (seqs d))).
  { intro Hi. apply in_map_iff in Hi as (u & Eu & Hu). destruct u; [|discriminate Eu]. now apply (rd_ne _ _ _ _ R [] Hu). }
  rewrite Eal in *. destruct (counts_sum _ _ _ Hne Hcr) as [Hf Hz]. destruct G as (_ & _ & _ & _ & _ & _ & _ & _ & _ & _ & Ht).
  pose proof (rd_size _ _ _ _ R) as Hd. unfold dsize in Hd. split; [exact Hf|]. split; [|exact Hne].
  rewrite map_length. unfold s_freqs. cbn [vs zfreqs]. lia.
Qed.
Lemma fitted_near lg : log_ok lg -> log_close lg -> forall size N ops0 w v xs ops al v' ys, good_fit (ieee lg) size N ops0 w v xs ops al ->
  fit (ieee lg) w v xs = Ok (true, v') ->
  (forall y, In y ys -> covers al (restrict (seen (ieee lg) ops) y) /\ (Z.of_nat (length y) <= 2 ^ 40)%Z) ->
  exists rs, Forall2 (fun y ids => let y' := restrict (seen (ieee lg) ops) y in let fs := s_freqs (ieee lg) (vs v') in
      spells al ids y' /\ forall ids', spells al ids' y' ->
      split_prob fs (length al) ids' <= split_prob fs (length al) ids * exp (slack (length y'))) ys rs /\
    forall w', exists m, kept (w_term w') (length ys) m /\ transform (ieee lg) w' v' ys = Ok (firstn m rs, v').
Proof.
  intros Hlg Hc size N ops0 w v xs ops al v' ys G Ef Hy.
  destruct (fitted_best (ieee lg) (ieee_laws lg Hlg) _ _ _ _ _ _ _ _ _ ys G Ef Hy) as (rs & Hrs & Hw). exists rs. split; [|exact Hw].
  destruct (fitted_sizes (ieee lg) (ieee_laws lg Hlg) _ _ _ _ _ _ _ _ _ G Ef) as (Hf & Hz & Hne). clear Hw.
  induction Hrs as [|y ids ys rs Hm Hrs IH]; constructor; [|apply IH; intros u Hu; apply Hy; now right].
  cbn zeta. split; [exact (proj1 Hm)|]. apply (near lg _ _ _ _ Hc Hf Hz Hne); [|exact Hm].
  destruct (Hy y (or_introl eq_refl)) as [_ Hl]. pose proof (restrict_length (seen (ieee lg) ops) y). lia.
Qed.

Lemma slack_thousand : slack 1000 <= / 10000000.
Proof.
  unfold slack. rewrite u44, u47. pose proof u0 as Hu. assert (Hu2 : u53 * IZR (2 ^ 53) = 1) by apply u1.
  replace (INR 1000) with 1000 by (rewrite INR_IZR_INZ; reflexivity). change (IZR (2 ^ 53)) with 9007199254740992 in Hu2. lra.
Qed.
