(** Statements of PropsBuilder.v, proved from the invariants. *)
From Verif Require Import Base Spec FloatOps FloatLaws FloatIEEE FloatExample OrderProofs DictProofs ModelDict Maps ModelStat
  ModelBuilder SpecStat SpecBuilder StatProofs RunProofs LearnProofs EnvExample PropsStatLemmas BuilderProofs BuilderSafe BuilderRuns.

Section P.
  Context (fl : fops) (L : flaws fl).
  Local Notation hist size := (bhist fl (new_builder fl size)).

  Lemma fresh_hist size ops b N : hist size ops b -> envs_ok fl ops -> lengths_ok fl N ops ->
    shared_known fl (fun _ => False) ops ->
    binv fl L (fun _ => False) (accepted fl ops) (kmax + N) (2 * processed fl ops) b.
  Proof.
    intros H He Hl Hs. pose proof Hl as ((HN & HN') & _).
    assert (HB : (kmax + N <= kmax + N <= 2 ^ 52)%Z) by (unfold kmax; lia).
    assert (HB0 : (0 <= kmax + N)%Z) by (unfold kmax; lia).
    exact (hist_inv fl L (fun _ => False) (kmax + N) 0 N (new_builder fl size) (new_builder_inv fl L size _ HB0) HB ltac:(lia) ops b H He Hl Hs).
  Qed.

  Lemma words_occur size ops b : hist size ops b -> envs_ok fl ops -> lengths_ok fl (2 ^ 40) ops ->
    shared_known fl (fun _ => False) ops ->
    forall d w, In d (bheap b) -> In w (seqs d) -> w <> [] /\ occurs (accepted fl ops) w.
  Proof.
    intros H He Hl Hs d w Hd Hw. pose proof (fresh_hist _ _ _ _ H He Hl Hs) as I.
    destruct (proj1 (Forall_forall _ _) (bi_heap _ _ _ _ _ _ _ I) d Hd) as (_ & Hne & Hf).
    split; [now apply Hne|]. now destruct (Hf w Hw).
  Qed.
  Lemma alpha_occur size ops b : hist size ops b -> envs_ok fl ops -> lengths_ok fl (2 ^ 40) ops ->
    shared_known fl (fun _ => False) ops ->
    exists d, alpha fl b = Ok d /\ sorted (seqs d) /\ forall w, In w (seqs d) -> w <> [] /\ occurs (accepted fl ops) w.
  Proof.
    intros H He Hl Hs. pose proof (fresh_hist _ _ _ _ H He Hl Hs) as I.
    destruct (nth_lt (bheap b) (result_ptr fl b) (bi_res _ _ _ _ _ _ _ I)) as [d Hd].
    unfold alpha, hget. rewrite (vget_some _ _ _ Hd). cbn [bind].
    destruct (mk_dict_spec (seqs d)) as (d' & E & Hsd & _). exists d'. split; [easy|]. rewrite Hsd. split; [apply isort_sorted|].
    intros w Hw. apply (proj1 (isort_in _ _)) in Hw. apply (words_occur _ _ _ H He Hl Hs d); [now apply nth_error_In in Hd|easy].
  Qed.
  Lemma words_occur_from d0 size b0 ops b : new_builder_dict fl d0 size = Ok b0 -> ~ In [] (seqs d0) ->
    (Z.of_nat (dsize d0) <= 2 ^ 50)%Z ->
    bhist fl b0 ops b -> envs_ok fl ops -> lengths_ok fl (2 ^ 40) ops -> shared_known fl (fun w => In w (seqs d0)) ops ->
    forall d w, In d (bheap b) -> In w (seqs d) -> w <> [] /\ (In w (seqs d0) \/ occurs (accepted fl ops) w).
  Proof.
    intros H0 Hne Hsz H He Hl Hs d w Hd Hw.
    assert (I : binv fl L (fun w => In w (seqs d0)) (accepted fl ops) (kmax + 2 ^ 40) (Z.of_nat (dsize d0) + 2 * processed fl ops) b).
    { assert (HB : (kmax + 2 ^ 40 <= kmax + 2 ^ 40 <= 2 ^ 52)%Z) by (unfold kmax; lia).
      assert (HB0 : (0 <= kmax + 2 ^ 40 <= 2 ^ 52)%Z) by (unfold kmax; lia).
      exact (hist_inv fl L _ _ _ _ b0 (builder_dict_inv fl L d0 size b0 _ H0 Hne HB0) HB Hsz ops b H He Hl Hs). }
    destruct (proj1 (Forall_forall _ _) (bi_heap _ _ _ _ _ _ _ I) d Hd) as (_ & Hn & Hf). split; [now apply Hn|]. exact (Hf w Hw).
  Qed.

  (** Counters *)
  Lemma counters size ops b : hist size ops b -> envs_ok fl ops -> lengths_ok fl (2 ^ 40) ops ->
    shared_known fl (fun _ => False) ops ->
    exists P, power (bcur b) = fofZ fl P /\ (0 <= P <= 20000000)%Z /\
      (forall i, 0 <= freq fl (bcur b) i <= P)%Z /\
      (forall k c, In (k, c) (pairs (bcur b)) -> 1 <= c <= P)%Z.
  Proof.
    intros H He Hl Hs. pose proof (fresh_hist _ _ _ _ H He Hl Hs) as I.
    destruct (bi_cur _ _ _ _ _ _ _ I) as (d & P & Hd & HP & SI). unfold kmax in HP. exists P.
    split; [apply SI|]. split; [split; [apply SI|easy]|]. split.
    - intro i. rewrite freq_at0. apply SI.
    - intros [i j] c Hin.
      assert (Hpos : forall i j c, In ((i, j), c) (pairs (bcur b)) -> (1 <= c)%Z) by (intros; now apply (si_pairs _ _ _ _ _ _ _ _ _ SI) in H0).
      split; [now apply (Hpos i j)|]. pose proof (pair_le _ _ _ Hpos Hin). pose proof (si_psum _ _ _ _ _ _ _ _ _ SI). lia.
  Qed.
  Lemma no_overflow size ops b N d s ids n d1 st1 : hist size ops b -> envs_ok fl ops -> lengths_ok fl N ops ->
    shared_known fl (fun _ => False) ops -> (N < 2 ^ 30 - 20000000)%Z -> (Z.of_nat (length s) <= N)%Z ->
    hget fl b (bptr b) = Ok d -> stat_parse fl d (bcur b) s [] = Ok (ids, n, d1, st1) ->
    (forall i, 0 <= at0 (sfreqs st1) i < 2 ^ 31)%Z /\ (forall i, 0 <= at0 (pfreqs st1) i < 2 ^ 31)%Z /\
    (forall k c, In (k, c) (pairs st1) -> 1 <= c < 2 ^ 31)%Z.
  Proof.
    intros H He Hl Hs HN Hls Hd Hp. pose proof (fresh_hist _ _ _ _ H He Hl Hs) as I. pose proof Hl as ((HN0 & HN1) & _ & Hpr).
    destruct (bi_cur _ _ _ _ _ _ _ I) as (d' & P & Hd' & HP & SI). rewrite Hd in Hd'. injection Hd' as <-.
    assert (DI : dict_inv (fun _ => False) (accepted fl ops) d)
      by (apply (proj1 (Forall_forall _ _) (bi_heap _ _ _ _ _ _ _ I)); exact (proj1 (hget_in fl _ _ _ Hd))).
    assert (HB : (0 <= kmax + N <= 2 ^ 52)%Z) by (unfold kmax; lia).
    destruct (stat_step fl L _ _ _ _ d (bcur b) P s ids n d1 st1 DI SI HP HB ltac:(lia) ltac:(lia) Hp) as (P1 & HP1 & _ & SI1 & _).
    unfold kmax in HP.
    split; [|split].
    - intro i. pose proof (si_sf _ _ _ _ _ _ _ _ _ SI1 i). lia.
    - intro i. pose proof (si_pf _ _ _ _ _ _ _ _ _ SI1 i). unfold kmax, seq in *. lia.
    - intros [i j] c Hin.
      assert (Hpos : forall i j c, In ((i, j), c) (pairs st1) -> (1 <= c)%Z) by (intros; now apply (si_pairs _ _ _ _ _ _ _ _ _ SI1) in H0).
      pose proof (Hpos _ _ _ Hin). pose proof (pair_le _ _ _ Hpos Hin). pose proof (si_psum _ _ _ _ _ _ _ _ _ SI1). lia.
  Qed.

  (** Minimum probability *)
  Lemma minp_step size ops b op b' : hist size ops b -> bstep fl b op b' -> envs_ok fl (ops ++ [op]) ->
    lengths_ok fl (2 ^ 40) (ops ++ [op]) -> shared_known fl (fun _ => False) (ops ++ [op]) ->
    fltb fl (minp (bcur b)) (minp (bcur b')) = false /\ fnan fl (minp (bcur b)) = false.
  Proof.
    intros H Hs He Hl Hk. destruct (lengths_snoc _ _ _ _ Hl) as (Hl' & Hp & Hn).
    pose proof (fresh_hist _ _ _ _ H (envs_snoc _ _ _ He) Hl' (shared_snoc _ _ _ _ Hk)) as I.
    pose proof (processed_nonneg fl ops) as Hpn.
    assert (Hnan : fnan fl (minp (bcur b)) = false) by (destruct (bi_cur _ _ _ _ _ _ _ I) as (? & ? & _ & _ & SI); apply SI).
    split; [|easy]. destruct op as [e s| |p s freqs total]; cbn [bstep op_accepted op_length] in *.
    - inversion_clear Hn as [|? ? Hs1 _].
      assert (HB : (kmax + 2 ^ 40 <= kmax + 2 ^ 40 <= 2 ^ 52)%Z) by (unfold kmax; lia).
      exact (proj2 (accept_inv fl L _ _ _ _ (2 ^ 40) e b s b' (He e s ltac:(apply in_or_app; right; now left)) I HB Hs1 ltac:(lia) ltac:(lia) Hs)).
    - destruct Hs as (fs & Hf). destruct (freqs_inv fl L _ _ _ _ _ _ _ I Hf) as [_ ->]. apply (lt_irrefl fl L).
    - destruct Hs as (d & o & n & d' & _ & _ & ->). apply (lt_irrefl fl L).
  Qed.
  Lemma minp_bound size ops b : hist size ops b -> envs_ok fl ops -> lengths_ok fl (2 ^ 40) ops ->
    shared_known fl (fun _ => False) ops -> fltb fl (flit fl 2 1000) (minp (bcur b)) = false.
  Proof.
    induction 1 as [|ops b op b' H IH Hs]; intros He Hl Hk.
    - apply (lt_irrefl fl L).
    - destruct (minp_step _ _ _ _ _ H Hs He Hl Hk) as [H1 H2].
      destruct (lengths_snoc _ _ _ _ Hl) as (Hl' & _).
      specialize (IH (envs_snoc _ _ _ He) Hl' (shared_snoc _ _ _ _ Hk)).
      apply (le_trans fl L _ (minp (bcur b))); easy.
  Qed.
  Lemma fresh_heap size : heap_wf fl (new_builder fl size).
  Proof. split; [|cbn; lia]. constructor; [|constructor]. split; [easy|]. intros i j H. destruct i; discriminate H. Qed.
  Lemma minp_unset size ops b : rhist fl (new_builder fl size) None ops None b -> get_min_probability fl b = fofZ fl (-1).
  Proof.
    intro H. destruct (rhist_result fl _ _ (fresh_heap size) (eq_refl : result_is fl (new_builder fl size) None) _ _ _ H) as [_ E].
    cbn in E. unfold get_min_probability. now rewrite E.
  Qed.

  (** Result *)
  Lemma result_which size ops r b : rhist fl (new_builder fl size) None ops r b ->
    exists d', alpha fl b = Ok d' /\
    match r with
    | None => result_ptr fl b = bptr b /\ exists d, hget fl b (bptr b) = Ok d /\ Permutation (seqs d) (seqs d')
    | Some (p, ws) => result_ptr fl b = p /\
        exists d, hget fl b p = Ok d /\ extends_by_symbols ws (seqs d) /\ Permutation (seqs d) (seqs d')
    end.
  Proof.
    intro R.
    destruct (rhist_result fl _ _ (fresh_heap size) (eq_refl : result_is fl (new_builder fl size) None) _ _ _ R) as [[Hwf Hp] E].
    assert (G : exists d, hget fl b (result_ptr fl b) = Ok d).
    { destruct r as [[p ws]|]; cbn in E.
      - destruct E as (_ & -> & d & Hd & _). now exists d.
      - unfold result_ptr. rewrite E. destruct (nth_lt (bheap b) (bptr b) Hp) as [d Hd]. exists d. now apply vget_some. }
    destruct G as [d Hd]. unfold alpha. rewrite Hd. cbn [bind]. destruct (mk_dict_spec (seqs d)) as (d' & Ed & Hsd & _).
    exists d'. split; [easy|]. assert (Hperm : Permutation (seqs d) (seqs d')) by (rewrite Hsd; apply Permutation_sym, isort_perm).
    destruct r as [[p ws]|]; cbn in E.
    - destruct E as (_ & Ep & d2 & Hd2 & Hx). split; [easy|]. exists d2. rewrite Ep, Hd2 in Hd. injection Hd as <-. easy.
    - unfold result_ptr in *. rewrite E in *. split; [easy|]. now exists d.
  Qed.
  Lemma reductions size ops b : hist size ops b -> exists r, rhist fl (new_builder fl size) None ops r b.
  Proof. exact (rhist_exists fl _ None (fresh_heap size) ops b). Qed.

  (** Adequate size *)
  Lemma bounds N : (0 <= N)%Z -> (N <= 2 ^ 40)%Z -> (0 <= kmax + N)%Z /\ (kmax + N <= kmax + N <= 2 ^ 52)%Z.
  Proof. unfold kmax. lia. Qed.
  Lemma no_symbols : symbol_closed [].
  Proof. intros w []. Qed.
  Lemma well_fed_snoc ws0 size N ops op : well_fed fl ws0 size N (ops ++ [op]) -> well_fed fl ws0 size N ops.
  Proof.
    intro W. pose proof W as (_ & _ & ((HN & HN') & _) & _). destruct (bounds N HN HN') as [_ HB].
    exact (safe_snoc fl ws0 0 (new_builder fl size) _ N HB ops op W).
  Qed.
  Lemma fresh_safe size N ops pre b : uhist fl (new_builder fl size) ops pre b -> well_fed fl [] size N ops -> (0 <= size)%Z ->
    binv fl L (fun w => In w []) (accepted fl ops) (kmax + N) (0 + 2 * processed fl ops) b /\ bsize b = size /\
    exists d d0 st0 log, sinv fl L [] 0 (accepted fl pre) (accepted fl ops) b d d0 st0 log.
  Proof.
    intros H W Hsz. pose proof W as (_ & _ & ((HN & HN') & _) & _). destruct (bounds N HN HN') as [HB0 HB].
    exact (safe_hist fl L [] 0 (new_builder fl size) (kmax + N) 0 N _ _ (new_builder_inv fl L size _ HB0) (fresh_sinv fl L size)
      no_symbols (Forall_nil _) HB ltac:(lia) Hsz ops pre b H W).
  Qed.
  Lemma bhist_u size ops pre b : uhist fl (new_builder fl size) ops pre b -> hist size ops b.
  Proof. induction 1; [constructor|eapply bh_step; eauto|eapply bh_step; eauto]. Qed.

  Lemma working_dict size N ops b : hist size ops b -> well_fed fl [] size N ops -> (0 <= size)%Z ->
    exists d, hget fl b (bptr b) = Ok d /\ strictly_sorted (seqs d) /\ ~ In [] (seqs d) /\
      forall c, In [c] (seqs d) <-> In c (concat (accepted fl ops)).
  Proof.
    intros H W Hsz. destruct (uhist_exists fl 0 (new_builder fl size) ops b H) as [pre U].
    destruct (fresh_safe size N ops pre b U W Hsz) as (I & _ & d & d0 & st0 & log & S). exists d.
    split; [apply S|]. split; [exact (proj1 (fi_full _ _ _ _ _ (sv_full _ _ _ _ _ _ _ _ _ _ _ S)))|]. split.
    - intro Hin. now apply (ri_ne _ _ _ _ _ _ (sv_run _ _ _ _ _ _ _ _ _ _ _ S)) in Hin.
    - exact (sv_sym _ _ _ _ _ _ _ _ _ _ _ S).
  Qed.
  Lemma accept_total size N ops b e s : hist size ops b -> well_fed fl [] size N (ops ++ [BAccept e s]) -> (0 <= size)%Z ->
    exists b', accept fl e b s = Ok b'.
  Proof.
    intros H W Hsz. destruct (uhist_exists fl 0 (new_builder fl size) ops b H) as [pre U]. pose proof W as (_ & _ & ((HN & HN') & _) & _).
    assert (W0 : well_fed fl [] size N ops) by exact (well_fed_snoc _ _ _ _ _ W).
    destruct (fresh_safe size N ops pre b U W0 Hsz) as (I & Hb & d & d0 & st0 & log & S).
    destruct (bounds N HN HN') as [HB0 HB].
    destruct (safe_next fl L [] 0 (new_builder fl size) (kmax + N) 0 N no_symbols (Forall_nil _) HB ltac:(lia) Hsz
      pre ops b e s d d0 st0 log I S Hb W) as (b' & E & _). now exists b'.
  Qed.
  Lemma accepts_snoc es p : accepts fl (es ++ [p]) = accepts fl es ++ [BAccept (fst p) (snd p)].
  Proof. unfold accepts. rewrite map_app. reflexivity. Qed.
  Lemma run_all size N es : well_fed fl [] size N (accepts fl es) -> (0 <= size)%Z -> exists b, hist size (accepts fl es) b.
  Proof.
    intros W Hsz. induction es as [|p es IH] using rev_ind; [exists (new_builder fl size); constructor|].
    rewrite accepts_snoc in *.
    destruct IH as [b H]; [exact (well_fed_snoc _ _ _ _ _ W)|].
    destruct (accept_total size N _ b _ _ H W Hsz) as [b' E]. exists b'. now apply (bh_step fl _ _ b).
  Qed.
  Lemma reduced_size size N ops pre b e s b' : uhist fl (new_builder fl size) ops pre b ->
    well_fed fl [] size N (ops ++ [BAccept e s]) -> (0 <= size)%Z -> accept fl e b s = Ok b' -> reduced fl b b' ->
    exists d, hget fl b' (bptr b') = Ok d /\ result_ptr fl b' = bptr b' /\
      (Z.of_nat (dsize d) <= size + 1 + (Z.of_nat (distinct (accepted fl ops ++ [s])) - Z.of_nat (distinct (accepted fl pre))))%Z.
  Proof.
    intros U W Hsz E [Hu Hp]. pose proof W as (_ & _ & ((HN & HN') & _) & _).
    assert (W0 : well_fed fl [] size N ops) by exact (well_fed_snoc _ _ _ _ _ W).
    destruct (fresh_safe size N ops pre b U W0 Hsz) as (I & Hb & d & d0 & st0 & log & S).
    destruct (bounds N HN HN') as [HB0 HB].
    destruct (safe_next fl L [] 0 (new_builder fl size) (kmax + N) 0 N no_symbols (Forall_nil _) HB ltac:(lia) Hsz
      pre ops b e s d d0 st0 log I S Hb W) as (b1 & E1 & _ & Hc).
    rewrite E in E1. injection E1 as <-. unfold updated in Hu. destruct Hc as [[Hh _]|(_ & d' & st' & S' & Hsize)]; [lia|].
    exists d'. split; [apply S'|]. split.
    - destruct (result_step fl b (BAccept e s) b' E) as [[_ Er]|[Hn _]]; [unfold result_ptr; now rewrite Er|].
      exfalso. apply Hn. now split.
    - specialize (Hsize Hp). pose proof (sv_ge _ _ _ _ _ _ _ _ _ _ _ S ltac:(cbn; lia)) as Hge. cbn [bsize new_builder app] in Hsize, Hge. lia.
  Qed.

  (** A builder that starts from an alphabet. *)
  Lemma alphabet_total d0 size N b0 ops b e s : new_builder_dict fl d0 size = Ok b0 ->
    NoDup (seqs d0) -> ~ In [] (seqs d0) -> symbol_closed (seqs d0) ->
    Forall (fun w : seq => Z.of_nat (length w) <= 2 ^ 40)%Z (seqs d0) -> (Z.of_nat (dsize d0) <= 2 ^ 49)%Z ->
    (Z.of_nat (dsize d0) <= size)%Z ->
    bhist fl b0 ops b -> well_fed fl (seqs d0) size N (ops ++ [BAccept e s]) ->
    (exists d, hget fl b (bptr b) = Ok d /\ strictly_sorted (seqs d) /\ ~ In [] (seqs d) /\
      forall c, In [c] (seqs d) <-> In c (concat (seqs d0 ++ accepted fl ops))) /\
    exists b', accept fl e b s = Ok b'.
  Proof.
    intros H0 Hnd Hne Hcl Hlen Hsz2 Hsz H W. destruct (uhist_exists fl 0 b0 ops b H) as [pre U].
    pose proof W as (_ & _ & ((HN & HN') & _) & _). destruct (bounds N HN HN') as [HB0 HB].
    assert (E0 : exists d st, mk_stat fl (seqs d0) (k_max_min_probability fl) None = Ok (d, st) /\
      b0 = mkBuilder [d] size (seqs d0) 0 st RNull true (flit fl 1 10) (fofZ fl 1) 0).
    { unfold new_builder_dict in H0. apply bind_ok in H0 as ([d st] & Hm & H0). injection H0 as <-. now exists d, st. }
    destruct E0 as (d1 & st1 & Hm & Eb).
    assert (Eg : hget fl b0 (bptr b0) = Ok d1) by (rewrite Eb; reflexivity).
    assert (Ec : bcur b0 = st1) by (rewrite Eb; reflexivity).
    assert (Es : bsize b0 = size) by (rewrite Eb; reflexivity).
    assert (Ea : length (bsymb b0) = dsize d0) by (rewrite Eb; reflexivity).
    clear Eb.
    assert (Hst : start_ok (seqs d0) None) by (split; [easy|]; split; [unfold dsize, seq in *; lia|easy]).
    pose proof (stat_sinv fl L _ _ _ _ _ b0 Hst Hnd Hcl Hm Eg Ec) as S0.
    assert (HBB : (0 <= kmax + N <= 2 ^ 52)%Z) by lia.
    pose proof (builder_dict_inv fl L d0 size b0 _ H0 Hne HBB) as I0.
    assert (Ha : (Z.of_nat (length (bsymb b0)) <= bsize b0)%Z) by (rewrite Es, Ea; exact Hsz).
    assert (W1 : safe_ops fl (seqs d0) b0 N (ops ++ [BAccept e s])) by (unfold safe_ops; rewrite Es; exact W).
    assert (W2 : safe_ops fl (seqs d0) b0 N ops) by exact (safe_snoc fl _ 0 b0 _ N HB _ _ W1).
    destruct (safe_hist fl L (seqs d0) _ b0 (kmax + N) _ N _ _ I0 S0 Hcl Hlen HB Hsz2 Ha ops pre b U W2)
      as (I & Hb & d & d2 & st2 & log & S).
    split.
    - exists d. split; [apply S|]. split; [exact (proj1 (fi_full _ _ _ _ _ (sv_full _ _ _ _ _ _ _ _ _ _ _ S)))|]. split.
      + intro Hin. now apply (ri_ne _ _ _ _ _ _ (sv_run _ _ _ _ _ _ _ _ _ _ _ S)) in Hin.
      + exact (sv_sym _ _ _ _ _ _ _ _ _ _ _ S).
    - destruct (safe_next fl L (seqs d0) _ b0 (kmax + N) _ N Hcl Hlen HB Hsz2 Ha pre ops b e s d d2 st2 log I S Hb W1) as (b' & E & _).
      now exists b'.
  Qed.
End P.

(** Refutations and examples on doubles. *)
Lemma rep_in n s c : In c (rep n s) -> In c s.
Proof. unfold rep. intro H. apply in_concat in H as (x & Hx & Hc). apply repeat_spec in Hx. now subst x. Qed.
Lemma exenvs ss : envs_ok exf (accepts exf (runs ss)) /\ draws_fine exf (accepts exf (runs ss)) /\
  shared_known exf (fun _ => False) (accepts exf (runs ss)) /\ shared_known exf (fun w => In w []) (accepts exf (runs ss)).
Proof.
  assert (Hs : forall W, shared_known exf W (accepts exf (runs ss))).
  { intros W a p s freqs total b E. exfalso. assert (Hin : In (BShared p s freqs total) (accepts exf (runs ss))) by (rewrite E; apply in_or_app; right; now left).
    unfold accepts in Hin. apply in_map_iff in Hin as (q & Hq & _). discriminate Hq. }
  assert (He : forall e s, In (BAccept e s) (accepts exf (runs ss)) -> e = exenv).
  { intros e s Hin. unfold accepts, runs in Hin. rewrite map_map in Hin. apply in_map_iff in Hin as (q & [= <- <-] & _). reflexivity. }
  split; [|split; [|split; [apply Hs|apply Hs]]].
  - intros e s Hin. apply He in Hin. subst e. apply exenv_ok.
  - intros e s Hin. apply He in Hin. subst e. apply exenv_draws.
Qed.
Lemma accepted_runs ss : accepted exf (accepts exf (runs ss)) = ss.
Proof. unfold accepted, accepts, runs. induction ss as [|s ss IH]; cbn in *; [easy|]. now rewrite IH. Qed.
Lemma runs_app a b : runs (a ++ b) = runs a ++ runs b.
Proof. apply map_app. Qed.
Definition fed_check (size : Z) (ss : list seq) : bool :=
  forallb (fun s : seq => Z.leb (Z.of_nat (length s)) (2 ^ 40)) ss &&
  Z.leb (zsum (map (fun s : seq => Z.of_nat (length s)) ss)) (2 ^ 48) &&
  fresh_check [] [] (concat ss) && Z.leb (Z.of_nat (pred (distinct ss))) size.
Lemma processed_runs ss : processed exf (accepts exf (runs ss)) = zsum (map (fun s : seq => Z.of_nat (length s)) ss).
Proof. unfold processed, accepts, runs. rewrite !map_map. reflexivity. Qed.
Lemma fed_ok size ss : fed_check size ss = true -> well_fed exf [] size (2 ^ 40) (accepts exf (runs ss)).
Proof.
  intro H. unfold fed_check in H. apply andb_prop in H as [H H4]. apply andb_prop in H as [H H3]. apply andb_prop in H as [H1 H2].
  destruct (exenvs ss) as (E1 & E2 & _ & E4). split; [easy|]. split; [easy|]. split; [|split; [easy|]].
  - split; [lia|]. rewrite accepted_runs, processed_runs. split; [|now apply Z.leb_le].
    apply Forall_forall. intros s Hs. apply Z.leb_le. now apply (proj1 (forallb_forall _ _) H1).
  - rewrite accepted_runs. split; [now apply fresh_b|now apply Z.leb_le].
Qed.

Lemma two_fed : well_fed exf [] 7 (2 ^ 40) (accepts exf (runs [first_text; second_text])).
Proof. apply fed_ok. vm_compute. reflexivity. Qed.
Lemma two_hist : exists b1 b2 ops1, ops1 = accepts exf (runs [first_text]) /\ bhist exf (new_builder exf 7) ops1 b1 /\
  accept exf exenv b1 second_text = Ok b2 /\ reduced exf b1 b2 /\ bptr b2 = 2 /\ result_ptr exf b2 = 2 /\
  map seqs (bheap b2) = [[[1]; [2]]; [[1]; [1; 2]; [2]; [2; 1]; [3]; [4]; [5]; [6]; [7]; [8]];
      [[1]; [1; 2]; [2]; [3]; [4]; [5]; [6]; [7]; [8]]]%Z.
Proof.
  destruct (watch_ok _ _ _ _ _ two_updates) as (b1 & H & E). unfold seen in E.
  destruct (accept exf exenv b1 second_text) as [b2| | |] eqn:Ea; try discriminate E. injection E as E1 E2 E3 E4 E5 _.
  exists b1, b2, (accepts exf (runs [first_text])). split; [easy|]. split; [easy|]. split; [easy|]. split; [|easy].
  split; [|easy]. unfold updated. rewrite E1, <- (map_length seqs (bheap b2)), E3. cbn. lia.
Qed.
Lemma exceeds_size : exists size ops b e s b' d, bhist exf (new_builder exf size) ops b /\
  well_fed exf [] size (2 ^ 40) (ops ++ [BAccept e s]) /\ accept exf e b s = Ok b' /\ reduced exf b b' /\
  hget exf b' (result_ptr exf b') = Ok d /\ (size + 1 < Z.of_nat (dsize d))%Z.
Proof.
  destruct two_hist as (b1 & b2 & ops & -> & H & E & Hr & _ & Hp & Hm).
  exists 7%Z, (accepts exf (runs [first_text])), b1, exenv, second_text, b2.
  destruct (nth_error (bheap b2) 2) as [d|] eqn:Ed.
  - exists d. split; [easy|]. split; [exact two_fed|]. split; [easy|]. split; [easy|]. rewrite Hp. split; [now apply vget_some|].
    apply (map_nth_error seqs) in Ed. rewrite Hm in Ed. injection Ed as Ed. unfold dsize. rewrite <- Ed. cbn. lia.
  - apply nth_error_None in Ed. rewrite <- (map_length seqs), Hm in Ed. cbn in Ed. lia.
Qed.
Lemma small_size_ub : exists ss s b, bhist exf (new_builder exf 0) (accepts exf (runs ss)) b /\
  fresh_ascending [] (concat (ss ++ [s])) /\ distinct (ss ++ [s]) = 3 /\
  env_ok exf exenv /\ draws_ok exf exenv /\ accept exf exenv b s = UB IterInvalid.
Proof.
  destruct (watch_ok _ _ _ _ _ size_zero) as (b & H & E).
  exists [rep 395 [1; 2; 3]; rep 395 [1; 2; 3]]%Z, (rep 395 [1; 3; 2]%Z), b. split; [exact H|].
  split; [apply fresh_b; vm_compute; reflexivity|]. split; [vm_compute; reflexivity|].
  split; [apply exenv_ok|]. split; [apply exenv_draws|].
  destruct (accept exf exenv b (rep 395 [1; 3; 2]%Z)) as [?|k| |]; try discriminate E. now destruct k.
Qed.

Lemma two_results : exists b1 b2, rhist exf (new_builder exf 7) None (accepts exf (runs [first_text])) None b1 /\
  rhist exf (new_builder exf 7) None (accepts exf (runs [first_text; second_text]))
    (Some (2, [[1]; [1; 2]; [2]; [3]; [4]; [5]; [6]; [7]; [8]]%Z)) b2.
Proof.
  destruct two_hist as (b1 & b2 & ops & -> & H & E & Hr & Hp & _ & Hm). exists b1, b2.
  assert (R1 : rhist exf (new_builder exf 7) None (accepts exf (runs [first_text])) None b1).
  {
    change (accepts exf (runs [first_text])) with (([] : list (bop exf)) ++ [BAccept exenv first_text]) in *.
    assert (G : forall o b', bhist exf (new_builder exf 7) o b' -> forall op, o = [op] -> bstep exf (new_builder exf 7) op b').
    { destruct 1 as [|o b0 op0 b0' H0 Hs]; intros op Eo; [discriminate Eo|].
      change [op] with (([] : list (bop exf)) ++ [op]) in Eo. apply app_inj_tail in Eo as [-> ->].
      inversion H0 as [Ea Eb0|o1 ? ? ? ? ? Ea]; [now subst|destruct o1; discriminate Ea]. }
    pose proof (G _ _ H _ eq_refl) as Hs.
    apply (rh_other exf _ _ [] None (new_builder exf 7)); [constructor|exact Hs|]. intros [_ Hb]. discriminate Hb. }
  split; [exact R1|].
  destruct (nth_error (bheap b2) 2) as [d|] eqn:Ed.
  - pose proof Ed as Ed'. apply (map_nth_error seqs) in Ed'. rewrite Hm in Ed'. injection Ed' as Ed'. rewrite Ed', <- Hp.
    apply (rh_reduction exf _ _ (accepts exf (runs [first_text])) None b1 (BAccept exenv second_text) b2 d R1 E Hr).
    rewrite Hp. now apply vget_some.
  - apply nth_error_None in Ed. rewrite <- (map_length seqs), Hm in Ed. cbn in Ed. lia.
Qed.
