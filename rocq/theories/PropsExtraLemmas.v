(** Lemmas for PropsExtra.v. *)
From Coq Require Import Permutation.
From Verif Require Import Base Spec FloatOps FloatLaws FloatIEEE FloatExample ModelDict Maps ModelCoder ModelStat ModelBuilder ModelStream
  SpecStat SpecBuilder EnvExample DictProofs BuilderProofs BuilderSafe BuilderOwn StreamProofs ForgetProofs TotalProofs BuilderRuns StreamRuns ExtraRuns SpecStream SpecExtra PropsStreamLemmas.

Section L.
  Context (fl : fops) (L : flaws fl).
  Lemma shist_app z0 a z1 : shist fl z0 a z1 -> forall b z, shist fl z1 b z -> shist fl z0 (a ++ b) z.
  Proof. intros H. induction 1 as [|b z op z' Hb IH Hs]; [now rewrite app_nil_r|]. rewrite app_assoc. now apply (sh_step fl z0 _ z). Qed.

  Lemma loaded_forgets N syms c freqs ws size mp z0 : (0 <= N <= 2 ^ 40)%Z -> loadable fl N syms c freqs ws mp ->
    loaded_stream fl c freqs ws size mp = Ok z0 -> forall a z1 e s z2 b z z' al,
    shist fl z0 a z1 -> s_accept fl e z1 s = Ok z2 -> reduced fl (zb z1) (zb z2) -> shist fl z2 b z ->
    normal fl N (a ++ SAccept e s :: b ++ [SUpdate]) -> roomy_loaded fl syms ws (a ++ SAccept e s :: b) ->
    s_update fl z = Ok z' -> s_alphabet fl z' = Ok al -> Forall (fun w : seq => length w = 1) al.
  Proof.
    intros HN HL E0 a z1 e s z2 b z z' al H1 Hs Hred H2 Hn Hr Hu Hal.
    destruct (swindow_reduced fl z0 Live a z1 e s z2 b z H1 Hs Hred H2) as (w & W & Hi & _).
    pose proof (loaded_start fl L N syms c freqs ws size mp z0 HN HL E0) as Z0.
    destruct (loaded_safe fl L N syms c freqs ws size mp z0 HN HL E0) as (d00 & st00 & S0 & _ & _ & _ & _ & Hb).
    destruct (loaded_parts fl L N syms c freqs ws size mp z0 HN HL E0) as (d & d' & st & _ & _ & Hwf & Hm & Ez & _).
    refine (forget_update fl L (isort ws) syms z0 _ _ N _ Z0 eq_refl (loaded_size fl N syms c freqs ws mp HL) (length ws) d00 st00 S0
      (loaded_closed fl N syms c freqs ws mp HL) (loaded_words fl N syms c freqs ws mp HL) Hb _ _ _ (a ++ SAccept e s :: b) w z z' al W Hi _ _ Hu Hal).
    - rewrite Ez. reflexivity.
    - rewrite Ez. split; cbn [zb bheap bptr]; [|cbn; lia]. constructor; [exact (mk_stat_wf _ _ _ _ _ _ Hm)|]. constructor; [exact Hwf|constructor].
    - rewrite Ez. cbn [zb bres]. discriminate.
    - rewrite <- app_assoc. exact Hn.
    - exact (loaded_room fl L N syms c freqs ws size mp z0 HN HL E0 _ Hr).
  Qed.

  (** C65 *)
  Lemma seen_total ops : total_len (fed fl ops) = Z.of_nat (length (seen fl ops)).
  Proof.
    unfold seen, total_len. induction (fed fl ops) as [|x xs IH]; [easy|]. cbn [map concat]. rewrite app_length, VGramProofs.zsum_cons. unfold seq in *. lia.
  Qed.
  Lemma sdraws_snoc ops (op : sop fl) : sdraws_fine fl (ops ++ [op]) -> sdraws_fine fl ops.
  Proof. intros H e s Hi. apply (H e s), in_or_app. now left. Qed.
  Lemma distinct_snoc ops (op : sop fl) : distinct (fed fl ops) <= distinct (fed fl (ops ++ [op])).
  Proof. apply distinct_mono. intros c Hc. rewrite fed_snoc, concat_app. apply in_or_app. now left. Qed.
  Lemma total_bounds (fs : list Z) T : Forall (fun f => 0 <= f)%Z fs -> (zsum fs <= T)%Z -> Forall (fun f => 0 <= f <= T)%Z fs.
  Proof.
    induction 1 as [|f fs Hf H IH]; intro E; [constructor|]. rewrite VGramProofs.zsum_cons in E.
    assert (0 <= zsum fs)%Z by (now apply RunProofs.zsum_nonneg). constructor; [lia|]. apply IH. lia.
  Qed.
  Lemma fresh_total size N ops z : shist fl (new_stream fl size) ops z -> normal fl N ops -> roomy fl size ops ->
    calm fl [] (new_stream fl size) ops ->
    ztotal z = zsum (s_freqs fl z) /\ (zsum (s_freqs fl z) <= Z.of_nat (length (seen fl ops)))%Z /\
    Forall (fun f => 0 <= f <= Z.of_nat (length (seen fl ops)))%Z (s_freqs fl z).
  Proof.
    intros H Hn Hr Hc. destruct (swindow_exists fl _ First ops z H) as [w W].
    pose (good := fun o : list (sop fl) => normal fl N o /\ roomy fl size o /\ calm fl [] (new_stream fl size) o).
    assert (Hg : forall o op, good (o ++ [op]) -> good o).
    { intros o op (G1 & (G2 & G3 & G4) & G5). split; [exact (normal_snoc _ _ _ _ G1)|]. split; [|exact (calm_snoc _ _ _ _ _ G5)].
      split; [exact (sdraws_snoc _ _ G2)|]. split; [exact G3|]. pose proof (distinct_snoc o op). lia. }
    assert (T := totals fl (new_stream fl size) First good Hg ltac:(split; reflexivity)).
    assert (T' : let '(i, j, ph) := w in (zsum (zfreqs z) <= total_len (fed fl ops))%Z).
    { destruct w as [[i j] ph]. refine (proj1 (proj2 (proj2 (T _ ops (i, j, ph) z W (conj Hn (conj Hr Hc)))))).
      intros o w1 y y' W1 (G1 & G2 & G3) Hu. pose proof (Hg o SUpdate (conj G1 (conj G2 G3))) as (_ & K2 & K3).
      destruct (fresh_update fl L size N o w1 y y' W1 G1 K2 K3 Hu) as [->|(r & al & E & Hal & Hcn)]; [now left|right]. exists r, al.
      split; [exact E|]. split; [exact Hcn|]. assert (Hs' : shist fl (new_stream fl size) (o ++ [SUpdate]) y') by (apply (sh_step fl _ _ y); [exact (swindow_shist _ _ _ _ _ _ W1)|exact Hu]).
      exact (proj2 (proj2 (fresh_distinct fl L size N _ y' al Hs' G1 G2 G3 Hal))). }
    destruct (sim_exists fl L [] [] (new_stream fl size) (kmax + N) 0 N 0 (fresh_start fl L size N (normal_N fl _ _ Hn)) eq_refl size0 ops z H Hn) as [bops S].
    destruct w as [[i j] ph]. rewrite seen_total in T'. split; [exact (sm_total _ _ _ _ _ _ _ _ _ _ _ _ S)|]. split; [exact T'|].
    apply total_bounds; [exact (sm_freqs _ _ _ _ _ _ _ _ _ _ _ _ S)|exact T'].
  Qed.
  Lemma loaded_total N syms c freqs ws size mp z0 : (0 <= N <= 2 ^ 40)%Z -> loadable fl N syms c freqs ws mp ->
    loaded_stream fl c freqs ws size mp = Ok z0 -> forall ops z, shist fl z0 ops z -> normal fl N ops -> roomy_loaded fl syms ws ops ->
    calm fl syms z0 ops ->
    ztotal z = zsum (s_freqs fl z) /\ (zsum (s_freqs fl z) <= zsum freqs + Z.of_nat (length (seen fl ops)))%Z /\
    Forall (fun f => 0 <= f <= zsum freqs + Z.of_nat (length (seen fl ops)))%Z (s_freqs fl z).
  Proof.
    intros HN HL E0 ops z H Hn Hr Hc. destruct (swindow_exists fl _ Live ops z H) as [w W].
    destruct (loaded_parts fl L N syms c freqs ws size mp z0 HN HL E0) as (d & d' & st & _ & _ & _ & _ & Ez & _).
    pose (good := fun o : list (sop fl) => normal fl N o /\ roomy_loaded fl syms ws o /\ calm fl syms z0 o).
    assert (Hg : forall o op, good (o ++ [op]) -> good o).
    { intros o op (G1 & (G2 & G3) & G5). split; [exact (normal_snoc _ _ _ _ G1)|]. split; [|exact (calm_snoc _ _ _ _ _ G5)].
      split; [exact (sdraws_snoc _ _ G2)|]. refine (Nat.le_trans _ _ _ _ G3). apply NoDup_incl_length; [apply NoDup_nodup|].
      intros x Hx. apply nodup_In in Hx. apply nodup_In. rewrite seen_snoc, app_assoc. apply in_or_app. now left. }
    assert (T := totals fl z0 Live good Hg ltac:(rewrite Ez; cbn [zb bres]; split; discriminate)).
    assert (T' : let '(i, j, ph) := w in (zsum (zfreqs z) <= zsum (zfreqs z0) + total_len (fed fl ops))%Z).
    { destruct w as [[i j] ph]. refine (proj1 (proj2 (proj2 (T _ ops (i, j, ph) z W (conj Hn (conj Hr Hc)))))).
      intros o w1 y y' W1 (G1 & G2 & G3) Hu. pose proof (Hg o SUpdate (conj G1 (conj G2 G3))) as (_ & K2 & K3).
      destruct (loaded_update fl L N syms c freqs ws size mp z0 HN HL E0 o w1 y y' W1 G1 K2 K3 Hu) as [->|(r & al & E & Hal & Hcn)]; [now left|right].
      exists r, al. split; [exact E|]. split; [exact Hcn|].
      assert (Hs' : shist fl z0 (o ++ [SUpdate]) y') by (apply (sh_step fl _ _ y); [exact (swindow_shist _ _ _ _ _ _ W1)|exact Hu]).
      exact (proj2 (proj2 (loaded_distinct fl L N syms c freqs ws size mp z0 HN HL E0 _ y' al Hs' G1 G2 G3 Hal))). }
    destruct (sim_exists fl L _ syms z0 (kmax + N) _ N _ (loaded_start fl L N syms c freqs ws size mp z0 HN HL E0) eq_refl
      (loaded_size fl N syms c freqs ws mp HL) ops z H Hn) as [bops S].
    assert (Ef : zfreqs z0 = freqs) by now rewrite Ez. rewrite Ef in T'.
    destruct w as [[i j] ph]. rewrite seen_total in T'. split; [exact (sm_total _ _ _ _ _ _ _ _ _ _ _ _ S)|]. split; [exact T'|].
    apply total_bounds; [exact (sm_freqs _ _ _ _ _ _ _ _ _ _ _ _ S)|exact T'].
  Qed.
End L.

Definition twice_ops : list (sop exf) := [SAccept exenv twice_text; SAccept exenv twice_text].
Lemma twice_normal : normal exf 2380 (twice_ops ++ [SUpdate]).
Proof.
  split.
  - intros e s [E|[E|[E|[]]]]; try discriminate E; injection E as <- _; exact exenv_ok.
  - split; [lia|]. split; [|split; vm_compute; discriminate]. repeat constructor; vm_compute; discriminate.
Qed.
Lemma twice_roomy : roomy_loaded exf [5; 8]%Z [[0]; [1]; [0; 1]]%Z twice_ops.
Proof.
  split; [intros e s [E|[E|[]]]; injection E as <- _; exact exenv_draws|]. apply Nat.leb_le. vm_compute. reflexivity.
Qed.
Lemma twice_file : loadable exf 2380 [5; 8]%Z twice_coder [3; 2; 0]%Z [[0]; [1]; [0; 1]]%Z (flit exf 2 1000).
Proof.
  destruct loadable_case as (H1 & H2 & H3 & H4 & H5 & H6 & H7 & H8 & H9 & H10 & H11).
  do 8 (split; [assumption|]). split; [repeat constructor; lia|]. now split.
Qed.
Lemma forgotten : exists z0 z1 z2 z3, loaded_stream exf twice_coder [3; 2; 0]%Z [[0]; [1]; [0; 1]]%Z 100 (flit exf 2 1000) = Ok z0 /\
  s_alphabet exf z0 = Ok [[5]; [5; 8]; [8]]%Z /\
  s_accept exf exenv z0 twice_text = Ok z1 /\ s_accept exf exenv z1 twice_text = Ok z2 /\ reduced exf (zb z1) (zb z2) /\
  s_update exf z2 = Ok z3 /\ s_alphabet exf z3 = Ok [[5]; [8]]%Z.
Proof. exact (twice_ok _ _ _ _ run_twice). Qed.

(** C66: two symbols renamed to the same. *)
Lemma small_merged : look (run_s (new_stream exf 10) (map (renamed_op (fun _ => 0%Z)) small_ops)) = Some (Ok [[0]], [5])%Z.
Proof. vm_compute. reflexivity. Qed.
