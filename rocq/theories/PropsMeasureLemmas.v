(** Statements of PropsMeasure.v, proved from MeasureProofs.v. *)
From Flocq Require Import IEEE754.BinarySingleNaN.
From Verif Require Import Base Spec FloatOps FloatLaws FloatIEEE FloatExample OrderProofs DictProofs ModelDict Maps ModelStat
  ModelBuilder SpecStat SpecBuilder StatProofs RunProofs LearnProofs EnvExample PropsStatLemmas BuilderProofs BuilderSafe BuilderOwn BuilderRuns
  PropsBuilderLemmas SpecMeasure MeasureProofs.

Section P.
  Context (fl : fops) (L : flaws fl).
  Lemma fresh_kinv size : kinv fl (0, 0, First) [] (new_builder fl size).
  Proof.
    split; [reflexivity|]. split; [cbn; lia|]. split; [|discriminate]. exists empty_dict, []. split; [reflexivity|]. split.
    { split; try reflexivity; [constructor|]. intro j. unfold at0. cbn. now destruct j. }
    split; [vm_compute; discriminate|]. intros _. now split.
  Qed.
  Lemma stat_kinv ws mp fs d st size symb res pop prob best turns ph : mk_stat fl ws mp fs = Ok (d, st) ->
    ph = match res with RNull => First | _ => Live end -> (forall p s, res <> ROwn p s) ->
    kinv fl (0, 0, ph) [] (mkBuilder [d] size symb 0 st res pop prob best turns).
  Proof.
    intros H -> Hr. split; [unfold phase_of; cbn [bres]; destruct res as [| |p s]; try reflexivity; now destruct (Hr p s)|]. split; [cbn; lia|]. split.
    - exists d, []. split; [reflexivity|]. split; [exact (meas_new fl _ _ _ _ _ H)|]. split; [vm_compute; discriminate|]. intros _. now split.
    - cbn [bres]. intros p s E. now destruct (Hr p s).
  Qed.

  Lemma fresh_measured size N ops w b : whist fl (new_builder fl size) First ops w b -> envs_ok fl ops -> lengths_ok fl N ops ->
    shared_known fl (fun _ => False) ops -> measured fl w ops b.
  Proof.
    intros H He Hl Hk. pose proof Hl as ((HN & HN') & _). destruct (bounds N HN HN') as [HB0 HB].
    exact (kept_value fl L (fun _ => False) (kmax + N) 0 N (new_builder fl size) (new_builder_inv fl L size _ HB0) HB ltac:(lia) (fresh_kinv size) ops w b H He Hl Hk).
  Qed.
  Lemma alphabet_measured d0 size b0 N ops w b : new_builder_dict fl d0 size = Ok b0 -> ~ In [] (seqs d0) -> (Z.of_nat (dsize d0) <= 2 ^ 50)%Z ->
    whist fl b0 First ops w b -> envs_ok fl ops -> lengths_ok fl N ops -> shared_known fl (fun v => In v (seqs d0)) ops -> measured fl w ops b.
  Proof.
    intros H0 Hne Hsz H He Hl Hk. pose proof Hl as ((HN & HN') & _). destruct (bounds N HN HN') as [HB0 HB].
    pose proof (builder_dict_inv fl L d0 size b0 (kmax + N) H0 Hne ltac:(lia)) as I0.
    pose proof H0 as E0. unfold new_builder_dict in E0. apply bind_ok in E0 as ([d' st] & Hm & E0). injection E0 as <-.
    match type of I0 with binv _ _ _ _ _ _ ?b0 => assert (K0 : kinv fl (0, 0, First) [] b0) by (now apply (stat_kinv _ _ _ _ _ _ _ _ _ _ _ _ _ Hm)) end.
    exact (kept_value fl L _ (kmax + N) _ N _ I0 HB Hsz K0 ops w b H He Hl Hk).
  Qed.
  Lemma loaded_measured d0 freqs al mp b0 N ops w b : new_builder_loaded fl d0 freqs al mp = Ok b0 -> ~ In [] (seqs d0) -> (Z.of_nat (dsize d0) <= 2 ^ 50)%Z ->
    Forall (fun f => 0 <= f <= kmax + N)%Z freqs -> fnan fl mp = false ->
    whist fl b0 Live ops w b -> envs_ok fl ops -> lengths_ok fl N ops -> shared_known fl (fun v => In v (seqs d0)) ops ->
    snd w <> First /\ measured fl w ops b.
  Proof.
    intros H0 Hne Hsz Hf Hmp H He Hl Hk. pose proof Hl as ((HN & HN') & _). destruct (bounds N HN HN') as [HB0 HB].
    pose proof (builder_loaded_inv fl L d0 freqs al mp b0 (kmax + N) H0 Hne ltac:(lia) Hf Hmp) as I0.
    pose proof H0 as E0. unfold new_builder_loaded in E0. apply bind_ok in E0 as ([d' st] & Hm & E0). injection E0 as <-. split.
    - clear - H. induction H as [|ops [[i j] ph] b op b' H IH Hs]; [discriminate|]. destruct op; cbn [window_step snd] in *; try exact IH.
      unfold window_next. destruct (is_updated fl b b'), (bpop b), ph; cbn [snd]; easy.
    - match type of I0 with binv _ _ _ _ _ _ ?b0 => assert (K0 : kinv fl (0, 0, Live) [] b0) by (now apply (stat_kinv _ _ _ _ _ _ _ _ _ _ _ _ _ Hm)) end.
      exact (kept_value fl L _ (kmax + N) _ N _ I0 HB Hsz K0 ops w b H He Hl Hk).
  Qed.
  Lemma result_no_empty size N ops b d : bhist fl (new_builder fl size) ops b -> envs_ok fl ops -> lengths_ok fl N ops ->
    shared_known fl (fun _ => False) ops -> hget fl b (result_ptr fl b) = Ok d -> ~ In [] (seqs d).
  Proof.
    intros H He Hl Hk Hd. pose proof (fresh_hist fl L _ _ _ _ H He Hl Hk) as I. destruct (hget_in fl _ _ _ Hd) as [Hin _].
    destruct (proj1 (Forall_forall _ _) (bi_heap _ _ _ _ _ _ _ I) d Hin) as (_ & Hne & _). intro Hi. now apply (Hne [] Hi).
  Qed.
End P.

Lemma zeros_nan lg n f : (forall j, f j = 0%Z) -> fnan (ieee lg) (per_symbol (ieee lg) (map f (List.seq 0 n)) 0 0) = true.
Proof.
  intro Hf. unfold per_symbol.
  assert (E : forall l a, fold_left (fun a k => if Z.ltb 0 k then fsub (ieee lg) a (fmul (ieee lg) (fofZ (ieee lg) k) (flog (ieee lg) (fofZ (ieee lg) k))) else a) (map f l) a = a).
  { induction l as [|x l IH]; intro a; [reflexivity|]. cbn [map fold_left]. rewrite (Hf x). apply IH. }
  rewrite E. unfold ieee. cbn [fadd fmul fdiv flog fofZ fnan F].
  assert (E0 : f64_ofZ 0 = B754_zero false) by (vm_compute; reflexivity). rewrite E0.
  destruct (lg (B754_zero false)) as [sx|sx| |sx m e He]; try reflexivity; destruct sx; reflexivity.
Qed.
Lemma nothing_nan lg : log_ok lg -> forall size N ops w b, whist (ieee lg) (new_builder (ieee lg) size) First ops w b -> envs_ok (ieee lg) ops ->
  lengths_ok (ieee lg) N ops -> shared_known (ieee lg) (fun _ => False) ops -> snd w <> First ->
  Forall (fun s : seq => s = []) (in_window w (accepted (ieee lg) ops)) ->
  exists x, code_length (ieee lg) b = Ok x /\ fnan (ieee lg) x = true.
Proof.
  intros Hlg size N ops w b H He Hl Hk Hw Hn.
  pose proof (fresh_measured (ieee lg) (ieee_laws lg Hlg) size N ops w b H He Hl Hk) as M. unfold measured in M.
  assert (G : exists d log, hget (ieee lg) b (result_ptr (ieee lg) b) = Ok d /\ readings w (accepted (ieee lg) ops) (seqs d) log /\
        code_length (ieee lg) b = Ok (per_symbol (ieee lg) (uses (dsize d) log) (words_emitted log) (symbols_consumed log)))
    by (destruct (snd w); [now destruct Hw|exact M|exact M]).
  destruct G as (d & log & Hd & Hr & ->). eexists. split; [reflexivity|].
  pose proof (result_no_empty (ieee lg) (ieee_laws lg Hlg) size N ops b d (window_bhist _ _ _ _ _ _ H) He Hl Hk Hd) as Hne.
  destruct (no_readings w _ _ _ Hr Hn Hne) as (-> & -> & Hz). apply zeros_nan. exact Hz.
Qed.

(** The two updates of C29: the builder has just been reduced. *)
Lemma just_reduced : exists w b, whist exf (new_builder exf 7) First (accepts exf (runs [first_text; second_text])) w b /\ w = (2, 2, Live).
Proof.
  destruct two_hist as (b1 & b2 & ops & -> & H & E & Hr & _).
  destruct (window_exists exf _ First _ _ H) as (w1 & Hw1). destruct w1 as [[i j] ph].
  exists (window_step exf (accepts exf (runs [first_text])) b1 (BAccept exenv second_text) b2 (i, j, ph)), b2. split.
  - exact (wh_step exf _ _ _ _ b1 (BAccept exenv second_text) b2 Hw1 E).
  - destruct Hr as [Hu Hp]. unfold window_step, window_next, is_updated. rewrite Hp. unfold updated in Hu.
    apply Nat.ltb_lt in Hu. rewrite Hu. reflexivity.
Qed.
