(** Statements of PropsStream.v, proved from the simulation. *)
From Verif Require Import Base Spec FloatOps FloatLaws FloatIEEE FloatExample OrderProofs DictProofs ModelDict Maps ModelCoder SpecCoder
  CoderProofs ModelStat ModelBuilder ModelStream SpecStat SpecBuilder SpecStream StatProofs RunProofs LearnProofs EnvExample PropsDictLemmas
  PropsStatLemmas BuilderProofs BuilderSafe BuilderOwn BuilderRuns ReachProofs PropsBuilderLemmas StreamProofs StreamRuns SpecStream.

Section P.
  Context (fl : fops) (L : flaws fl).

  (** ** A fresh stream *)
  Lemma fresh_start size N : (0 <= N)%Z -> start_stream fl L [] [] (new_stream fl size) (kmax + N) 0 0.
  Proof.
    intro HN. split; cbn [new_stream zcoder zb zdict zfreqs ztotal].
    - constructor.
    - exact (like_refl [] (NoDup_nil _)).
    - cbn. lia.
    - intros w [].
    - apply new_builder_inv. unfold kmax. lia.
    - discriminate.
    - constructor.
    - cbn. lia.
  Qed.
  Lemma fresh_full size : hfull fl (new_builder fl size).
  Proof.
    constructor; [|constructor]. split; [|intros w []]. split; [constructor|]. split; [easy|]. intros i p H. destruct i; discriminate H.
  Qed.
  Lemma fresh_own size : own_inv fl (0, 0, phase_of fl (new_builder fl size)) [] (new_builder fl size).
  Proof. split; [cbn; lia|]. cbn. discriminate. Qed.
  Lemma fresh_room size ops : roomy fl size ops -> has_room fl [] (new_stream fl size) ops.
  Proof.
    intros (H1 & H2 & H3). split; [exact H1|]. unfold symbols_of, SpecStream.seen. rewrite adds_length.
    unfold distinct in H3. cbn [new_stream zb new_builder bsize]. lia.
  Qed.
  Lemma room0 : room 0.
  Proof. unfold room. lia. Qed.
  Lemma size0 : (0 <= 2 ^ 49)%Z.
  Proof. lia. Qed.
  Lemma normal_N N ops : normal fl N ops -> (0 <= N)%Z.
  Proof. intros (_ & ((H & _) & _)). exact H. Qed.

  (** Which histories have a dictionary. *)
  Lemma update_sets z z' : s_update fl z = Ok z' -> zdict z' <> None.
  Proof.
    unfold s_update. destruct (zdict z) as [q|] eqn:E.
    - destruct (Nat.eqb q _); [intros [= <-]; now rewrite E|]. intro H. apply bind_ok in H as ([fs b] & _ & H). now injection H as <-.
    - intro H. apply bind_ok in H as ([fs b] & _ & H). now injection H as <-.
  Qed.
  Lemma accept_keeps e z s z' : s_accept fl e z s = Ok z' -> zdict z' = zdict z /\ zfreqs z' = zfreqs z.
  Proof.
    unfold s_accept. destruct (encode (zcoder z) s) as [q c]. intro H. apply bind_ok in H as (b & _ & H). now injection H as <-.
  Qed.
  Lemma parse_keeps z s ids z' : s_parse fl z s = Ok (ids, z') -> zdict z' = zdict z /\ zdict z <> None.
  Proof.
    unfold s_parse. intro H. apply bind_ok in H as (da & _ & H). apply bind_ok in H as ([p d] & Ht & H). apply bind_ok in H as ([[i n] d'] & _ & H).
    injection H as _ <-. split; [easy|]. unfold the_dict in Ht. now destruct (zdict z).
  Qed.
  Lemma step_keeps z op z' : sstep fl z op z' -> zdict z <> None -> zdict z' <> None.
  Proof.
    destruct op as [e s|s|]; cbn [sstep]; intros H Hd.
    - apply accept_keeps in H as [-> _]. easy.
    - destruct H as [ids H]. apply parse_keeps in H as [-> _]. easy.
    - now apply update_sets in H.
  Qed.
  Lemma updated_dict z0 ops z : shist fl z0 ops z -> In SUpdate ops \/ zdict z0 <> None -> zdict z <> None.
  Proof.
    induction 1 as [|ops z op z' H IH Hs]; intros Hi; [now destruct Hi|].
    destruct Hi as [Hi|Hi]; [|apply (step_keeps _ _ _ Hs), IH; now right].
    apply in_app_or in Hi as [Hi|[->|[]]]; [apply (step_keeps _ _ _ Hs), IH; now left|]. now apply update_sets in Hs.
  Qed.
  Lemma no_update z0 ops z : shist fl z0 ops z -> zdict z0 = None -> ~ In SUpdate ops ->
    zdict z = None /\ zfreqs z = zfreqs z0 /\ forall s, ~ In (SParse s) ops.
  Proof.
    induction 1 as [|ops z op z' H IH Hs]; intros H0 Hi; [easy|].
    destruct IH as (E1 & E2 & E3); [easy|intro Hx; apply Hi, in_or_app; now left|]. destruct op as [e s|s|]; cbn [sstep] in Hs.
    - apply accept_keeps in Hs as [-> ->]. split; [easy|]. split; [easy|]. intros t Ht. apply in_app_or in Ht as [Ht|[Ht|[]]]; [now apply (E3 t)|discriminate].
    - exfalso. destruct Hs as [ids Hs]. now apply parse_keeps in Hs as [_ Hs].
    - exfalso. apply Hi, in_or_app. right. now left.
  Qed.
  Lemma calm_nil syms z0 ops : (forall s, ~ In (SParse s) ops) -> calm fl syms z0 ops.
  Proof. intros H a s b z al -> . exfalso. apply (H s), in_or_app. right. now left. Qed.

  (** C37 *)
  Lemma fresh_lossless size N ops z s : shist fl (new_stream fl size) ops z -> normal fl N ops -> In SUpdate ops ->
    (handled fl ops + Z.of_nat (length s) <= 2 ^ 48)%Z -> (Z.of_nat (length s) <= 2 ^ 40)%Z ->
    exists ids z' al al', s_parse fl z s = Ok (ids, z') /\ s_alphabet fl z = Ok al /\ s_alphabet fl z' = Ok al' /\
      spells al' ids (restrict (seen fl ops) s) /\ extends_by_symbols al al'.
  Proof.
    intros H Hn Hu Hh Hl. exact (parse_lossless fl L [] [] (new_stream fl size) (kmax + N) 0 N 0 (fresh_start size N (normal_N _ _ Hn)) eq_refl size0
      ops z s H Hn room0 (updated_dict _ _ _ H (or_introl Hu)) Hh Hl).
  Qed.

  (** C38 *)
  Lemma fresh_pure size N ops z s al : shist fl (new_stream fl size) ops z -> normal fl N ops -> roomy fl size ops ->
    calm fl [] (new_stream fl size) ops -> s_alphabet fl z = Ok al -> covers al (restrict (seen fl ops) s) ->
    (Z.of_nat (length s) <= 2 ^ 40)%Z ->
    exists ids, s_parse fl z s = Ok (ids, z) /\ spells al ids (restrict (seen fl ops) s).
  Proof.
    intros H Hn Hr Hc Hal Hcov Hl. pose proof Hr as (_ & H1 & _).
    refine (parse_pure fl L [] [] (new_stream fl size) (kmax + N) 0 N 0 (fresh_start size N (normal_N _ _ Hn)) eq_refl size0
      0 empty_dict _ (fresh_sinv fl L (size - 1)) no_symbols (Forall_nil _) _ (fresh_full _) (fresh_own _)
      ops z s al H Hn room0 (fresh_room _ _ Hr) Hc Hal Hcov Hl).
    cbn. lia.
  Qed.

  (** C41 *)
  Lemma fresh_alphabet size N ops z : shist fl (new_stream fl size) ops z -> normal fl N ops -> In SUpdate ops ->
    exists al, s_alphabet fl z = Ok al.
  Proof.
    intros H Hn Hu. exact (alphabet_total fl L [] [] (new_stream fl size) (kmax + N) 0 N 0 (fresh_start size N (normal_N _ _ Hn)) eq_refl size0
      ops z H Hn (updated_dict _ _ _ H (or_introl Hu))).
  Qed.
  Lemma fresh_distinct size N ops z al : shist fl (new_stream fl size) ops z -> normal fl N ops -> roomy fl size ops ->
    calm fl [] (new_stream fl size) ops -> s_alphabet fl z = Ok al -> NoDup al /\ symbol_closed al /\ ~ In [] al.
  Proof.
    intros H Hn Hr Hc Hal. pose proof Hr as (_ & H1 & _).
    refine (alphabet_distinct fl L [] [] (new_stream fl size) (kmax + N) 0 N 0 (fresh_start size N (normal_N _ _ Hn)) eq_refl size0
      0 empty_dict _ (fresh_sinv fl L (size - 1)) no_symbols (Forall_nil _) _ (fresh_full _) (fresh_own _)
      ops z al H Hn (fresh_room _ _ Hr) Hc Hal).
    cbn. lia.
  Qed.

  (** C39 *)
  Lemma fresh_update size N ops w z z' : swhist fl (new_stream fl size) First ops w z -> normal fl N (ops ++ [SUpdate]) -> roomy fl size ops ->
    calm fl [] (new_stream fl size) ops -> s_update fl z = Ok z' ->
    z' = z \/ exists r al, s_freqs fl z' = s_freqs fl z ++ r /\ s_alphabet fl z' = Ok al /\ counted w (fed fl ops) al r.
  Proof.
    intros W Hn Hr Hc Hu. pose proof Hr as (_ & H1 & _).
    assert (Ha : (Z.of_nat 0 <= bsize (zb (new_stream fl size)))%Z) by (cbn; lia).
    destruct (update_freqs fl L [] [] (new_stream fl size) (kmax + N) 0 N 0 (fresh_start size N (normal_N _ _ Hn)) eq_refl size0
      0 empty_dict _ (fresh_sinv fl L (size - 1)) no_symbols (Forall_nil _) Ha (fresh_full _) (fresh_own _)
      ops w z z' W Hn (fresh_room _ _ Hr) Hc Hu) as [[E _]|G]; [now left|now right].
  Qed.
  Lemma first_update size N ops w z z' : swhist fl (new_stream fl size) First ops w z -> normal fl N (ops ++ [SUpdate]) -> roomy fl size ops ->
    ~ In SUpdate ops -> s_update fl z = Ok z' ->
    exists al, s_alphabet fl z' = Ok al /\ counted w (fed fl ops) al (s_freqs fl z').
  Proof.
    intros W Hn Hr Hi Hu. pose proof (swindow_shist _ _ _ _ _ _ W) as H.
    destruct (no_update _ _ _ H eq_refl Hi) as (Hd & Hf & Hp).
    destruct (fresh_update _ _ _ _ _ _ W Hn Hr (calm_nil _ _ _ Hp) Hu) as [->|(r & al & E & Hal & Hc)].
    - apply update_sets in Hu. congruence.
    - exists al. split; [exact Hal|]. rewrite E. unfold s_freqs. rewrite Hf. exact Hc.
  Qed.
  Lemma windows size ops z : shist fl (new_stream fl size) ops z -> exists w, swhist fl (new_stream fl size) First ops w z.
  Proof. exact (swindow_exists fl (new_stream fl size) First ops z). Qed.

  (** C40 *)
  Lemma before_update size N ops z : shist fl (new_stream fl size) ops z -> normal fl N ops -> ~ In SUpdate ops ->
    (forall s, s_parse fl z s = UB NullDeref) /\ s_alphabet fl z = UB NullDeref /\ s_freqs fl z = [].
  Proof.
    intros H Hn Hi. destruct (no_update _ _ _ H eq_refl Hi) as (Hd & Hf & _).
    destruct (sim_exists fl L [] [] (new_stream fl size) (kmax + N) 0 N 0 (fresh_start size N (normal_N _ _ Hn)) eq_refl size0 ops z H Hn) as [bops S].
    destruct (nth_lt _ _ (bi_res _ _ _ _ _ _ _ (sm_binv _ _ _ _ _ _ _ _ _ _ _ _ S))) as [dr Hdr].
    split; [|split].
    - intro s. unfold s_parse, alpha, hget. rewrite (vget_some _ _ _ Hdr). cbn [bind]. destruct (mk_dict_spec (seqs dr)) as (dm & -> & _).
      cbn [bind]. unfold the_dict. now rewrite Hd.
    - unfold s_alphabet, the_dict. now rewrite Hd.
    - exact Hf.
  Qed.
  Lemma fresh_update_total size N ops z : shist fl (new_stream fl size) ops z -> normal fl N ops ->
    exists z', s_update fl z = Ok z'.
  Proof.
    intros H Hn. destruct (update_total fl L [] [] (new_stream fl size) (kmax + N) 0 N 0 (fresh_start size N (normal_N _ _ Hn)) eq_refl size0 ops z H Hn)
      as (z' & E & _). now exists z'.
  Qed.
  Lemma fresh_accept_total size N ops z e s : shist fl (new_stream fl size) ops z -> normal fl N (ops ++ [SAccept e s]) ->
    roomy fl size (ops ++ [SAccept e s]) -> exists z', s_accept fl e z s = Ok z'.
  Proof.
    intros H Hn Hr. pose proof Hr as (_ & H1 & _).
    refine (s_accept_total fl L [] [] (new_stream fl size) (kmax + N) 0 N 0 (fresh_start size N (normal_N _ _ Hn)) eq_refl size0
      0 empty_dict _ (fresh_sinv fl L (size - 1)) no_symbols (Forall_nil _) _ ops z e s H Hn (fresh_room _ _ Hr)).
    cbn. lia.
  Qed.

  (** ** A loaded stream *)
  Lemma adds_self : forall l acc, NoDup (acc ++ l) -> adds acc l = acc ++ l.
  Proof.
    induction l as [|x l IH]; intros acc Hn; [now rewrite app_nil_r|]. cbn [adds fold_left].
    assert (Hx : ~ In x acc) by (intro Hi; apply NoDup_remove_2 in Hn; apply Hn, in_or_app; now left).
    unfold add1 at 2. destruct (in_dec Z.eq_dec x acc) as [Hi|_]; [contradiction|].
    change (adds (acc ++ [x]) l = acc ++ x :: l). rewrite IH; rewrite <- app_assoc; easy.
  Qed.
  Lemma adds_count syms h : NoDup syms -> length (adds syms h) = length (nodup Z.eq_dec (syms ++ h)).
  Proof.
    intro Hn. rewrite <- adds_length, adds_app. now rewrite (adds_self syms [] Hn).
  Qed.

  Section Loaded.
    Context (N : Z) (syms : list Z) (c : coder) (freqs : list Z) (ws : list seq) (size : Z) (mp : F fl) (z0 : stream fl).
    Context (HN : (0 <= N <= 2 ^ 40)%Z) (HL : loadable fl N syms c freqs ws mp) (E0 : loaded_stream fl c freqs ws size mp = Ok z0).

    Lemma loaded_parts : exists d d' st, mk_dict ws = Ok d /\ seqs d = isort ws /\ wf_dict d /\ mk_stat fl (isort ws) mp (Some freqs) = Ok (d', st) /\
      z0 = mkStream size (mkBuilder [d'; d] (Z.of_nat (length ws)) ws 0 st RSame true (flit fl 1 10) (fofZ fl 1) 0) (Some 1) c freqs (isum freqs) (Some mp) /\
      binv fl L (fun w => In w (isort ws)) [] (kmax + N) (Z.of_nat (length ws)) (mkBuilder [d'] (Z.of_nat (length ws)) ws 0 st RSame true (flit fl 1 10) (fofZ fl 1) 0).
    Proof.
      destruct HL as (H1 & H2 & H3 & H4 & H5 & H6 & H7 & H8 & H9 & H10 & H11). pose proof E0 as E. unfold loaded_stream in E.
      destruct (mk_dict_spec ws) as (d & Ed & Hs & Hlk). rewrite Ed in E. cbn [bind] in E. apply bind_ok in E as (b & Eb & E).
      assert (Hne : ~ In [] (seqs d)) by (rewrite Hs; intro Hi; now apply (proj1 (isort_in _ _)) in Hi).
      assert (HB : (0 <= kmax + N <= 2 ^ 52)%Z) by (unfold kmax; lia).
      pose proof (builder_loaded_inv fl L d freqs ws mp b (kmax + N) Eb Hne HB H9 H11) as I.
      assert (Hsz : dsize d = length ws) by (unfold dsize; rewrite Hs; apply isort_length).
      unfold new_builder_loaded in Eb. rewrite Hs, Hsz in *. apply bind_ok in Eb as ([d' st] & Em & Eb). injection Eb as <-. injection E as <-.
      exists d, d', st. split; [easy|]. split; [easy|]. split; [now apply links_wf|]. split; [easy|]. split; [easy|]. exact I.
    Qed.

    Lemma loaded_start : start_stream fl L (isort ws) syms z0 (kmax + N) (Z.of_nat (length ws)) (2 ^ 50).
    Proof.
      destruct loaded_parts as (d & d' & st & Ed & Hs & Hwf & Em & -> & I).
      destruct HL as (H1 & H2 & H3 & H4 & H5 & H6 & H7 & H8 & H9 & H10 & H11).
      split; cbn [zcoder zb zdict zfreqs ztotal].
      - exact H1.
      - now apply numbers_like.
      - intros i Hi. apply isort_in. now apply H6.
      - intros w Hw k Hk. apply (proj1 (isort_in _ _)) in Hw. now apply (H5 w k).
      - destruct I as [I1 I2 I3 I4 I5]. cbn [bheap bptr bcur bres result_ptr hget] in *. split; cbn [bheap bptr bcur bres].
        + inversion_clear I1 as [|? ? I1h _]. constructor; [exact I1h|]. constructor; [|constructor]. split; [exact Hwf|].
          split; [intros w Hw ->; rewrite Hs in Hw; now apply (proj1 (isort_in _ _)) in Hw|]. intros w Hw. left. now rewrite <- Hs.
        + cbn. lia.
        + exact I3.
        + discriminate.
        + inversion_clear I5 as [|? ? I5h _]. constructor; [exact I5h|]. constructor; [|constructor]. unfold dsize. rewrite Hs, isort_length. lia.
      - intros p [= <-]. cbn. lia.
      - apply Forall_forall. intros f Hf. pose proof (proj1 (Forall_forall _ _) H9 f Hf). cbn beta in *. lia.
      - split; [apply isum_zsum|exact H10].
    Qed.
    Lemma loaded_size : (Z.of_nat (length ws) <= 2 ^ 49)%Z.
    Proof. now destruct HL as (_ & _ & _ & _ & _ & _ & _ & H & _). Qed.
    Lemma loaded_closed : symbol_closed (isort ws).
    Proof.
      destruct HL as (_ & _ & _ & _ & H5 & H6 & _). intros w Hw k Hk. apply (proj1 (isort_in _ _)) in Hw. pose proof (H5 w k Hw Hk).
      apply isort_in. replace k with (Z.of_nat (Z.to_nat k)) by lia. apply H6. lia.
    Qed.
    Lemma loaded_words : Forall (fun w : seq => Z.of_nat (length w) <= 2 ^ 40)%Z (isort ws).
    Proof.
      destruct HL as (_ & _ & _ & _ & _ & _ & H & _). apply Forall_forall. intros w Hw. apply (proj1 (isort_in _ _)) in Hw.
      exact (proj1 (Forall_forall _ _) H w Hw).
    Qed.
    Lemma loaded_safe : exists d00 st00, sinv fl L (isort ws) (length ws) [] [] (zb z0) d00 d00 st00 [] /\
      (Z.of_nat (length ws) <= bsize (zb z0))%Z /\ hfull fl (zb z0) /\ own_inv fl (0, 0, phase_of fl (zb z0)) [] (zb z0) /\ phase_of fl (zb z0) = Live /\
      bsize (zb z0) = Z.of_nat (length ws).
    Proof.
      pose proof loaded_closed as Hcl.
      destruct loaded_parts as (d & d' & st & Ed & Hs & Hwf & Em & -> & I).
      destruct HL as (H1 & H2 & H3 & H4 & H5 & H6 & H7 & H8 & H9 & H10 & H11). cbn [zb].
      assert (Hnd : NoDup (isort ws)) by (apply (Permutation_NoDup (l := ws)); [apply Permutation_sym, isort_perm|exact H3]).
      assert (Hok : start_ok (isort ws) (Some freqs)).
      { split; [intro Hi; now apply (proj1 (isort_in _ _)) in Hi|]. split; [rewrite isort_length; lia|]. apply Forall_forall. intros f Hf.
        pose proof (proj1 (Forall_forall _ _) H9 f Hf). cbn beta in *. lia. }
      exists d', st. split; [|split; [|split; [|split; [|split]]]].
      - exact (stat_sinv fl L (isort ws) mp (Some freqs) d' st (mkBuilder [d'; d] (Z.of_nat (length ws)) ws 0 st RSame true (flit fl 1 10) (fofZ fl 1) 0)
          Hok Hnd Hcl Em eq_refl eq_refl).
      - cbn. lia.
      - destruct (mk_full fl _ _ _ _ _ Hnd Em) as (Hf & Hs' & _). destruct (mk_dict_history_full ws d H3 Ed) as [Hfd _].
        constructor; [|constructor; [|constructor]]; (split; [easy|]).
        + intros w Hw. rewrite Hs' in *. rewrite isort_id in * by apply isort_sorted. now apply Hcl.
        + intros w Hw. rewrite Hs in *. now apply Hcl.
      - split; [cbn; lia|discriminate].
      - easy.
      - easy.
    Qed.
    Lemma loaded_room ops : roomy_loaded fl syms ws ops -> has_room fl syms z0 ops.
    Proof.
      intros [H1 H2]. split; [exact H1|]. destruct loaded_safe as (_ & _ & _ & _ & _ & _ & _ & ->). unfold symbols_of.
      rewrite adds_count by (now destruct HL). unfold SpecStream.seen in *. lia.
    Qed.
    Lemma room50 : room (2 ^ 50).
    Proof. unfold room. lia. Qed.
    Lemma loaded_dict : zdict z0 <> None.
    Proof. now destruct loaded_parts as (d & d' & st & _ & _ & _ & _ & -> & _). Qed.

    Lemma loaded_lossless ops z s : shist fl z0 ops z -> normal fl N ops ->
      (handled fl ops + Z.of_nat (length s) <= 2 ^ 48)%Z -> (Z.of_nat (length s) <= 2 ^ 40)%Z ->
      exists ids z' al al', s_parse fl z s = Ok (ids, z') /\ s_alphabet fl z = Ok al /\ s_alphabet fl z' = Ok al' /\
        spells al' ids (restrict (syms ++ seen fl ops) s) /\ extends_by_symbols al al'.
    Proof.
      intros H Hn Hh Hl. exact (parse_lossless fl L (isort ws) syms z0 (kmax + N) _ N _ loaded_start eq_refl loaded_size
        ops z s H Hn room50 (updated_dict _ _ _ H (or_intror loaded_dict)) Hh Hl).
    Qed.
    Lemma loaded_pure ops z s al : shist fl z0 ops z -> normal fl N ops -> roomy_loaded fl syms ws ops ->
      calm fl syms z0 ops -> s_alphabet fl z = Ok al -> covers al (restrict (syms ++ seen fl ops) s) ->
      (Z.of_nat (length s) <= 2 ^ 40)%Z ->
      exists ids, s_parse fl z s = Ok (ids, z) /\ spells al ids (restrict (syms ++ seen fl ops) s).
    Proof.
      intros H Hn Hr Hc Hal Hcov Hl. destruct loaded_safe as (d0 & st0 & S & Ha & F & O & _).
      exact (parse_pure fl L (isort ws) syms z0 (kmax + N) _ N _ loaded_start eq_refl loaded_size
        _ d0 st0 S loaded_closed loaded_words Ha F O ops z s al H Hn room50 (loaded_room _ Hr) Hc Hal Hcov Hl).
    Qed.
    Lemma loaded_distinct ops z al : shist fl z0 ops z -> normal fl N ops -> roomy_loaded fl syms ws ops ->
      calm fl syms z0 ops -> s_alphabet fl z = Ok al -> NoDup al /\ symbol_closed al /\ ~ In [] al.
    Proof.
      intros H Hn Hr Hc Hal. destruct loaded_safe as (d0 & st0 & S & Ha & F & O & _).
      exact (alphabet_distinct fl L (isort ws) syms z0 (kmax + N) _ N _ loaded_start eq_refl loaded_size
        _ d0 st0 S loaded_closed loaded_words Ha F O ops z al H Hn (loaded_room _ Hr) Hc Hal).
    Qed.
    Lemma loaded_alphabet ops z : shist fl z0 ops z -> normal fl N ops -> exists al, s_alphabet fl z = Ok al.
    Proof.
      intros H Hn. exact (alphabet_total fl L (isort ws) syms z0 (kmax + N) _ N _ loaded_start eq_refl loaded_size
        ops z H Hn (updated_dict _ _ _ H (or_intror loaded_dict))).
    Qed.
    Lemma loaded_update ops w z z' : swhist fl z0 Live ops w z -> normal fl N (ops ++ [SUpdate]) -> roomy_loaded fl syms ws ops ->
      calm fl syms z0 ops -> s_update fl z = Ok z' ->
      z' = z \/ exists r al, s_freqs fl z' = s_freqs fl z ++ r /\ s_alphabet fl z' = Ok al /\ counted w (fed fl ops) al r.
    Proof.
      intros W Hn Hr Hc Hu. destruct loaded_safe as (d0 & st0 & S & Ha & F & O & Hph & _). rewrite <- Hph in W.
      destruct (update_freqs fl L (isort ws) syms z0 (kmax + N) _ N _ loaded_start eq_refl loaded_size
        _ d0 st0 S loaded_closed loaded_words Ha F O ops w z z' W Hn (loaded_room _ Hr) Hc Hu) as [[E _]|G]; [now left|now right].
    Qed.
    Lemma loaded_accept_total ops z e s : shist fl z0 ops z -> normal fl N (ops ++ [SAccept e s]) ->
      roomy_loaded fl syms ws (ops ++ [SAccept e s]) -> exists z', s_accept fl e z s = Ok z'.
    Proof.
      intros H Hn Hr. destruct loaded_safe as (d0 & st0 & S & Ha & F & O & _).
      exact (s_accept_total fl L (isort ws) syms z0 (kmax + N) _ N _ loaded_start eq_refl loaded_size
        _ d0 st0 S loaded_closed loaded_words Ha ops z e s H Hn (loaded_room _ Hr)).
    Qed.
    Lemma loaded_update_total ops z : shist fl z0 ops z -> normal fl N ops -> exists z', s_update fl z = Ok z'.
    Proof.
      intros H Hn. destruct (update_total fl L (isort ws) syms z0 (kmax + N) _ N _ loaded_start eq_refl loaded_size ops z H Hn) as (z' & E & _).
      now exists z'.
    Qed.
  End Loaded.
  Lemma loaded_exists c freqs ws size mp : exists z0, loaded_stream fl c freqs ws size mp = Ok z0.
  Proof.
    unfold loaded_stream. destruct (mk_dict_spec ws) as (d & -> & _). cbn [bind]. unfold new_builder_loaded.
    destruct (mk_stat_ok fl (seqs d) mp (Some freqs)) as (d' & st & -> & _). cbn [bind]. now eexists.
  Qed.
End P.

(** ** Examples and refutations *)
Lemma parse_changes : exists ops z z',
  shist exf (new_stream exf 10) ops z /\ shist exf (new_stream exf 10) (ops ++ [SParse [7%Z]]) z' /\ In 7%Z (seen exf ops) /\
  s_alphabet exf z = Ok [[1]]%Z /\ s_alphabet exf z' = Ok [[1]; [7]]%Z.
Proof.
  destruct (ending_run 2 _ _ eq_refl eq_refl) as (z & H & Ha & _). destruct (ending_run 3 _ _ eq_refl eq_refl) as (z' & H' & Ha' & _).
  exists (opening ++ [feed [7%Z]]), z, z'. split; [exact H|]. split; [rewrite <- app_assoc; exact H'|]. split; [|now split].
  unfold seen, fed. rewrite flat_map_app, concat_app. apply in_or_app. right. now left.
Qed.
Lemma second_update : exists ops z, shist exf (new_stream exf 10) (ops ++ [SUpdate]) z /\
  s_alphabet exf z = Ok [[1]; [1; 1]]%Z /\ s_freqs exf z = [1; 0; 0]%Z.
Proof. destruct (ending_run 1 _ _ eq_refl eq_refl) as (z & H & Ha & Hf). now exists opening, z. Qed.
Lemma duplicate_word : exists ops z, shist exf (new_stream exf 10) ops z /\ s_alphabet exf z = Ok [[1]; [7]; [6]; [6]]%Z.
Proof. destruct (ending_run 4 _ _ eq_refl eq_refl) as (z & H & Ha & _). eexists _, z. split; [exact H|exact Ha]. Qed.

Definition small_ops : list (sop exf) := [feed [5; 8]; feed [5; 8; 5]; SUpdate; SParse [8; 3; 5]]%Z.
Lemma small_run : look (run_s (new_stream exf 10) small_ops) = Some (Ok [[5]; [8]], [3; 2])%Z.
Proof. vm_compute. reflexivity. Qed.
Lemma small_before : look (run_s (new_stream exf 10) [feed [5; 8]; feed [5; 8; 5]; SUpdate]%Z) = Some (Ok [[5]; [8]], [3; 2])%Z.
Proof. vm_compute. reflexivity. Qed.
Lemma sstep_det fl z op z1 z2 : sstep fl z op z1 -> sstep fl z op z2 -> z1 = z2.
Proof.
  destruct op as [e s|s|]; cbn [sstep]; [|intros [i1 H1] [i2 H2]|]; try congruence.
Qed.
Lemma shist_det fl z0 ops z1 z2 : shist fl z0 ops z1 -> shist fl z0 ops z2 -> z1 = z2.
Proof.
  intro H. revert z2. induction H as [|ops z op z' H IH Hs]; intros z2 H2.
  - inversion H2; [easy|]. now destruct ops.
  - inversion H2 as [E|ops' z'' op' z3 H3 Hs3 E]; [now destruct ops|]. apply app_inj_tail in E as [-> ->].
    rewrite (IH _ H3) in Hs. exact (sstep_det _ _ _ _ _ Hs Hs3).
Qed.
Lemma small_case : exists z, shist exf (new_stream exf 10) small_ops z /\ normal exf 10 small_ops /\
  roomy exf 10 small_ops /\ In SUpdate small_ops /\ s_alphabet exf z = Ok [[5]; [8]]%Z /\ s_freqs exf z = [3; 2]%Z /\
  calm exf [] (new_stream exf 10) small_ops /\
  covers [[5]; [8]]%Z (restrict (seen exf small_ops) [8; 3; 5]%Z).
Proof.
  destruct (look_ok _ _ _ _ small_run) as (z & H & Ha & Hf). exists z. split; [exact H|].
  assert (Hin : forall e s, In (SAccept e s) small_ops -> e = exenv).
  { intros e s [E|[E|[E|[E|[]]]]]; try discriminate E; now injection E. }
  assert (Hcov : covers [[5]; [8]]%Z (restrict [5; 8; 5; 8; 5]%Z [8; 3; 5]%Z)).
  { intros c Hc. cbn in Hc. cbn. intuition congruence. }
  split; [|split; [|split; [|split; [exact Ha|split; [exact Hf|split]]]]].
  - split; [intros e s Hi; rewrite (Hin e s Hi); exact exenv_ok|]. split; [lia|]. split; [repeat constructor; cbn; lia|].
    split; [vm_compute; discriminate|vm_compute; discriminate].
  - split; [intros e s Hi; rewrite (Hin e s Hi); exact exenv_draws|]. split; [lia|vm_compute; discriminate].
  - right. right. now left.
  - intros a s b z1 al E H1 Hal. destruct a as [|x1 [|x2 [|x3 [|x4 a]]]]; cbn in E; try discriminate E; [|].
    + injection E as <- <- <- <- <-. destruct (look_ok _ _ _ _ small_before) as (z2 & H2 & Ha2 & _).
      rewrite (shist_det _ _ _ _ _ H1 H2), Ha2 in Hal. injection Hal as <-. exact Hcov.
    + injection E as _ _ _ _ E. now destruct a.
  - exact Hcov.
Qed.
Lemma loadable_case : loadable exf 10 [5; 8]%Z (mkCoder [(8, 1); (5, 0)] [(0, 5); (1, 8)])%Z [3; 2; 0]%Z [[0]; [1]; [0; 1]]%Z (flit exf 2 1000).
Proof.
  split; [|split; [split; [|split; [|split]]|split; [|split; [|split; [|split; [|split; [|split; [|split; [|split]]]]]]]]].
  - repeat constructor; cbn; lia.
  - intros [|[|[|i]]] x Hx; cbn in Hx; try discriminate Hx; injection Hx as <-; easy.
  - intros x Hx. cbn in Hx. cbn. destruct (Z.eqb_spec x 8); [lia|]. destruct (Z.eqb_spec x 5); [lia|]. easy.
  - intros k Hk. cbn in Hk. cbn. destruct (Z.eqb_spec k 0); [lia|]. destruct (Z.eqb_spec k 1); [lia|]. easy.
  - easy.
  - repeat constructor; cbn; intuition discriminate.
  - cbn. intuition discriminate.
  - intros w k Hw Hk. cbn in Hw. destruct Hw as [<-|[<-|[<-|[]]]]; cbn in Hk; cbn; lia.
  - intros [|[|i]] Hi; cbn in Hi; [now left|right; now left|lia].
  - repeat constructor; cbn; lia.
  - cbn. lia.
  - repeat constructor; lia.
  - cbn. lia.
  - vm_compute. reflexivity.
Qed.
