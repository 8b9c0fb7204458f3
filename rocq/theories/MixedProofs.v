(** Fit, transform and the calls of a stream in any order. *)
From Verif Require Import ExpandProofs Base Spec FloatOps FloatLaws OrderProofs DictProofs GreedyProofs DpProofs WeightedProofs ModelDict Maps
  ModelCoder SpecCoder CoderProofs ModelStat ModelBuilder ModelStream ModelVGram SpecStat SpecBuilder StatProofs RunProofs
  ReduceProofs LearnProofs PropsStatLemmas BuilderProofs BuilderSafe BuilderOwn PropsBuilderLemmas StreamProofs PropsStreamLemmas VGramProofs PropsVGramLemmas
  SpecStream SpecVGram SpecMixed.

Lemma vadd_sum a i f a' : vadd a i f = Ok a' -> zsum a' = (zsum a + f)%Z /\ length a' = length a /\
  ((0 <= f)%Z -> Forall (fun f => 0 <= f)%Z a -> Forall (fun f => 0 <= f)%Z a').
Proof.
  intro H. pose proof H as H0. unfold vadd in H. apply bind_ok in H as (x & Hx & _). apply vget_ok in Hx.
  assert (Hi : i < length a) by (apply nth_error_Some; congruence).
  destruct (vadd_ok a i f Hi) as (a1 & E & Hl & Ha). rewrite H0 in E. injection E as <-. split; [|split; [exact Hl|]].
  - rewrite !zsum_at0, Hl, (sumf_ext _ _ _ (fun j _ => Ha j)), sumf_add. f_equal.
    clear -Hi. revert Hi. generalize (length a). induction n as [|n IH]; intro Hi; [lia|]. rewrite sumf_S.
    destruct (Nat.eqb_spec n i) as [->|Hn].
    + rewrite sumf_zero; [lia|]. intros j Hj. destruct (Nat.eqb_spec j i); [lia|easy].
    + rewrite IH by lia. lia.
  - intros Hf Hn. apply (forall_at0 (fun f => (0 <= f)%Z)); [lia|]. intro j. rewrite Ha.
    assert (0 <= at0 a j)%Z.
    { unfold at0. destruct (nth_in_or_default j a 0%Z) as [H|H]; [exact (proj1 (Forall_forall _ _) Hn _ H)|lia]. }
    destruct (Nat.eqb j i); lia.
Qed.
Lemma fold_sum : forall ids a a', foldM (fun a i => vadd a i 1) ids a = Ok a' -> Forall (fun f => 0 <= f)%Z a ->
  zsum a' = (zsum a + Z.of_nat (length ids))%Z /\ Forall (fun f => 0 <= f)%Z a'.
Proof.
  induction ids as [|i ids IH]; intros a a' H Hn; cbn [foldM] in H.
  - injection H as <-. cbn [length]. split; [lia|exact Hn].
  - apply bind_ok in H as (a1 & H1 & H). apply vadd_sum in H1 as (E & _ & G). destruct (IH a1 a' H (G ltac:(lia) Hn)) as [E2 G2].
    split; [cbn [length]; lia|exact G2].
Qed.

Section M.
  Context (fl : fops) (L : flaws fl) (size N : Z).
  Notation syms calls := (symbols_of fl [] calls).

  Record msim (calls : list (sop fl)) (z : stream fl) (bops : list (bop fl)) : Prop := {
    ms_hist : bhist fl (new_builder fl (size - 1)) bops (zb z);
    ms_acc : accepted fl bops = map (enc (syms calls)) (fed fl calls);
    ms_coder : coder_like (syms calls) (zcoder z);
    ms_proc : (processed fl bops <= handled fl calls)%Z;
    ms_env : forall e s, In (BAccept e s) bops -> exists s', In (SAccept e s') calls;
    ms_known : shared_known fl (fun w => In w []) bops;
    ms_dict : forall p, zdict z = Some p -> p < length (bheap (zb z));
    ms_freqs : Forall (fun f => 0 <= f)%Z (zfreqs z);
    ms_sum : (zsum (zfreqs z) <= handled fl calls + updates fl calls * (kmax + N))%Z;
    ms_total : (0 <= ztotal z <= handled fl calls + updates fl calls * (kmax + N))%Z
  }.

  Lemma ms_lengths calls z bops : msim calls z bops -> normal fl N calls -> lengths_ok fl N bops.
  Proof.
    intros S (_ & HN & Hf & Hh & _). split; [exact HN|]. split; [|pose proof (ms_proc _ _ _ S); lia].
    rewrite (ms_acc _ _ _ S). apply Forall_forall. intros q Hq. apply in_map_iff in Hq as (x & <- & Hx).
    unfold enc. rewrite map_length. exact (proj1 (Forall_forall _ _) Hf x Hx).
  Qed.
  Lemma ms_envs calls z bops : msim calls z bops -> normal fl N calls -> envs_ok fl bops.
  Proof. intros S (He & _) e s Hi. destruct (ms_env _ _ _ S e s Hi) as [s' Hs]. exact (He e s' Hs). Qed.
  Lemma ms_binv calls z bops : msim calls z bops -> normal fl N calls ->
    binv fl L (fun w => In w []) (accepted fl bops) (kmax + N) (2 * processed fl bops) (zb z).
  Proof.
    intros S Hn. exact (fresh_hist fl L (size - 1) bops (zb z) N (ms_hist _ _ _ S) (ms_envs _ _ _ S Hn) (ms_lengths _ _ _ S Hn) (ms_known _ _ _ S)).
  Qed.
  Lemma start (HN : (0 <= N)%Z) : start_stream fl L [] [] (new_stream fl size) (kmax + N) 0 0.
  Proof. exact (fresh_start fl L size N HN). Qed.

  Lemma syms_nodup calls : NoDup (syms calls).
  Proof. apply adds_nodup. constructor. Qed.
  Lemma syms_in calls c : In c (syms calls) <-> In c (seen fl calls).
  Proof. rewrite symbols_in. cbn [In]. tauto. Qed.
  Lemma syms_restrict calls s : restrict (syms calls) s = restrict (seen fl calls) s.
  Proof. apply restrict_ext. intro c. apply syms_in. Qed.

  (** A call that accepts nothing. *)
  Lemma quiet_call calls op : op_fed fl op = [] -> syms (calls ++ [op]) = syms calls /\ fed fl (calls ++ [op]) = fed fl calls.
  Proof.
    intro H. rewrite fed_snoc, H, app_nil_r. split; [|easy]. unfold symbols_of. rewrite seen_snoc, H. cbn [concat]. now rewrite app_nil_r.
  Qed.
  Lemma msim_quiet calls z bops op : msim calls z bops -> (0 <= N)%Z -> op_fed fl op = [] -> msim (calls ++ [op]) z bops.
  Proof.
    intros S HN Ho. destruct (quiet_call calls op Ho) as [E1 E2].
    assert (Hh : (0 <= op_handled fl op)%Z) by (destruct op; cbn [op_handled]; lia).
    assert (Hu : (updates fl calls * (kmax + N) <= updates fl (calls ++ [op]) * (kmax + N))%Z).
    { rewrite updates_snoc. unfold kmax. destruct (is_update fl op); lia. }
    split; try apply S.
    - rewrite E1, E2. apply S.
    - rewrite E1. apply S.
    - rewrite handled_snoc. pose proof (ms_proc _ _ _ S). lia.
    - intros e s Hi. destruct (ms_env _ _ _ S e s Hi) as [s' Hs]. exists s'. apply in_or_app. now left.
    - rewrite handled_snoc. pose proof (ms_sum _ _ _ S). lia.
    - rewrite handled_snoc. pose proof (ms_total _ _ _ S). lia.
  Qed.
  Lemma msim_parses xs : forall calls z bops, msim calls z bops -> (0 <= N)%Z -> msim (calls ++ map SParse xs) z bops.
  Proof.
    induction xs as [|x xs IH]; intros calls z bops S HN; cbn [map]; [now rewrite app_nil_r|].
    change (SParse x :: map SParse xs) with ([SParse x] ++ map (@SParse fl) xs). rewrite app_assoc. apply IH; [|exact HN]. now apply msim_quiet.
  Qed.

  (** Reading the frequencies of the builder. *)
  Lemma msim_read calls z bops fs b : msim calls z bops -> normal fl N calls -> result_freqs fl (zb z) [] = Ok (fs, b) ->
    Forall (fun f => 0 <= f)%Z fs /\ (zsum fs <= kmax + N)%Z /\ length (bheap b) = length (bheap (zb z)) /\
    msim calls (mkStream (zsize z) b (zdict z) (zcoder z) (zfreqs z) (ztotal z) (zminp z)) (bops ++ [BFreqs]).
  Proof.
    intros S Hn H. pose proof Hn as (_ & ((HN & _) & _)).
    destruct (freqs_bound fl L [] (kmax + N) N eq_refl _ _ _ _ _ (ms_binv _ _ _ S Hn) H HN) as [H1 H2]. split; [exact H1|]. split; [exact H2|].
    assert (Hle : length (bheap b) = length (bheap (zb z))).
    { clear -H. unfold result_freqs in H. apply bind_ok in H as (d & _ & H). destruct (bres (zb z)); now injection H as _ <-. }
    split; [exact Hle|]. split; cbn [zb zcoder zdict zfreqs ztotal]; try apply S.
    - apply (bh_step fl _ bops (zb z)); [apply S|]. now exists fs.
    - rewrite accepted_snoc. cbn [op_accepted]. rewrite app_nil_r. apply S.
    - rewrite processed_snoc. cbn [op_length]. pose proof (ms_proc _ _ _ S). lia.
    - intros e s Hi. apply in_app_or in Hi as [Hi|[Hi|[]]]; [now apply (ms_env _ _ _ S e s)|discriminate Hi].
    - apply shared_known_snoc; [apply S|]. intros; discriminate.
    - rewrite Hle. apply S.
  Qed.
  (** Parsing with a dictionary of the builder. *)
  Lemma msim_shared calls z bops s q fs total p d ids n d' : msim calls z bops -> normal fl N calls ->
    q = enc (syms calls) (restrict (syms calls) s) -> zdict z = Some p -> hget fl (zb z) p = Ok d ->
    parse_weighted fl d q fs total [] = Ok (ids, n, d') ->
    msim (calls ++ [SParse s]) (mkStream (zsize z) (hput fl (zb z) p d') (zdict z) (zcoder z) (zfreqs z) (ztotal z) (zminp z))
      (bops ++ [BShared p q fs total]).
  Proof.
    intros S Hn Eq Ep Hd Hw. pose proof Hn as (_ & ((HN & _) & _)). destruct (quiet_call calls (SParse s) eq_refl) as [E1 E2].
    assert (Hql : length q <= length s) by (rewrite Eq; unfold enc; rewrite map_length; apply restrict_length).
    split; cbn [zb zcoder zdict zfreqs ztotal].
    - apply (bh_step fl _ bops (zb z)); [apply S|]. now exists d, ids, n, d'.
    - rewrite accepted_snoc, E1, E2. cbn [op_accepted]. rewrite app_nil_r. apply S.
    - rewrite E1. apply S.
    - rewrite processed_snoc, handled_snoc. cbn [op_length op_handled]. pose proof (ms_proc _ _ _ S). lia.
    - intros e1 s1 Hi. apply in_app_or in Hi as [Hi|[Hi|[]]]; [|discriminate Hi].
      destruct (ms_env _ _ _ S e1 s1 Hi) as [s2 Hs2]. exists s2. apply in_or_app. now left.
    - apply shared_known_snoc; [apply S|]. intros p2 s2 f2 t2 c [= <- <- <- <-] Hc. rewrite Eq in Hc.
      apply in_map_iff in Hc as (y & <- & Hy). apply restrict_in in Hy as [_ Hy].
      exact (code_origin fl L [] [] _ _ _ _ (start HN) calls bops y (ms_acc _ _ _ S) Hy).
    - intros p2 Hp2. unfold hput. cbn [bheap]. rewrite upd_length. now apply (ms_dict _ _ _ S).
    - apply S.
    - rewrite handled_snoc, updates_snoc. cbn [is_update op_handled]. pose proof (ms_sum _ _ _ S). lia.
    - rewrite handled_snoc, updates_snoc. cbn [is_update op_handled]. pose proof (ms_total _ _ _ S). lia.
  Qed.

  Lemma msim_op calls z bops op z' : msim calls z bops -> normal fl N (calls ++ [op]) -> sstep fl z op z' ->
    exists bops', msim (calls ++ [op]) z' bops'.
  Proof.
    intros S Hn Hs. pose proof (normal_snoc _ _ _ _ Hn) as Hn0. pose proof Hn as (_ & ((HN & _) & _)).
    destruct op as [e s|s|]; cbn [sstep] in Hs.
    - unfold s_accept in Hs. destruct (like_encode s _ _ (syms_nodup calls) (ms_coder _ _ _ S)) as (c' & Ec & Hc'). rewrite Ec in Hs.
      apply bind_ok in Hs as (b' & Ha & Hs). injection Hs as <-.
      assert (ES : syms (calls ++ [SAccept e s]) = adds (syms calls) s).
      { unfold symbols_of. rewrite seen_snoc. cbn [op_fed concat]. now rewrite app_nil_r, adds_app. }
      set (q := enc (adds (syms calls) s) s) in *.
      assert (Hql : length q = length s) by (unfold q, enc; apply map_length).
      exists (bops ++ [BAccept e q]). split; cbn [zb zcoder zdict zfreqs ztotal].
      + apply (bh_step fl _ bops (zb z)); [apply S|exact Ha].
      + rewrite accepted_snoc, fed_snoc. cbn [op_accepted op_fed]. rewrite map_app, ES. cbn [map]. f_equal.
        rewrite (ms_acc _ _ _ S). apply map_ext_in. intros x Hx. destruct (adds_ext s (syms calls)) as [r ->].
        rewrite enc_ext; [easy|]. intros c Hc. now apply (fed_known fl [] calls x).
      + rewrite ES. exact Hc'.
      + rewrite processed_snoc, handled_snoc. cbn [op_length op_handled]. rewrite Hql. pose proof (ms_proc _ _ _ S). lia.
      + intros e1 s1 Hi. apply in_app_or in Hi as [Hi|[Hi|[]]].
        * destruct (ms_env _ _ _ S e1 s1 Hi) as [s2 Hs2]. exists s2. apply in_or_app. now left.
        * injection Hi as <- _. exists s. apply in_or_app. right. now left.
      + apply shared_known_snoc; [apply S|]. intros; discriminate.
      + intros p Hp. pose proof (ms_dict _ _ _ S p Hp) as Hlt. apply (accept_cases fl) in Ha as (d & i1 & n1 & d1 & st1 & Hd & _ & Hc).
        destruct Hc as [[_ ->]|(_ & ws & fs & mp & d4 & st4 & prob & best & turns & _ & _ & ->)]; unfold parsed; cbn [bheap];
          rewrite ?app_length, upd_length; lia.
      + apply S.
      + rewrite handled_snoc, updates_snoc. cbn [is_update op_handled]. pose proof (ms_sum _ _ _ S). lia.
      + rewrite handled_snoc, updates_snoc. cbn [is_update op_handled]. pose proof (ms_total _ _ _ S). lia.
    - destruct Hs as [ids Hs]. unfold s_parse in Hs. rewrite (like_immutable _ _ s (ms_coder _ _ _ S)) in Hs.
      apply bind_ok in Hs as (da & _ & Hs). apply bind_ok in Hs as ([p d] & Htd & Hs). apply bind_ok in Hs as ([[ids1 n] d'] & Hw & Hs).
      injection Hs as <- <-. unfold the_dict in Htd. destruct (zdict z) as [p'|] eqn:Ep; [|discriminate Htd].
      apply bind_ok in Htd as (d1 & Hd & Htd). injection Htd as -> ->. eexists. unfold put_dict. rewrite Ep.
      pose proof (msim_shared _ _ _ s _ _ _ _ _ _ _ _ S Hn0 eq_refl Ep Hd Hw) as G. rewrite Ep in G. exact G.
    - destruct (quiet_call calls SUpdate eq_refl) as [E1 E2].
      assert (G : forall fs b, result_freqs fl (zb z) (zfreqs z) = Ok (fs, b) -> forall mp,
        exists bops', msim (calls ++ [SUpdate]) (mkStream (zsize z) b (Some (result_ptr fl (zb z))) (zcoder z) fs (isum fs) mp) bops').
      { intros fs b Hf mp. apply freqs_prefix in Hf as (r & Hr & ->).
        destruct (msim_read _ _ _ _ _ S Hn0 Hr) as (Hr1 & Hr2 & Hle & S1).
        pose proof (msim_quiet _ _ _ SUpdate S1 HN eq_refl) as S2. exists (bops ++ [BFreqs]).
        assert (Hz : (zsum (zfreqs z ++ r) <= handled fl (calls ++ [SUpdate]) + updates fl (calls ++ [SUpdate]) * (kmax + N))%Z).
        { rewrite zsum_app, handled_snoc, updates_snoc. cbn [is_update op_handled]. pose proof (ms_sum _ _ _ S). unfold kmax in *. lia. }
        split; cbn [zb zcoder zdict zfreqs ztotal]; try apply S2.
        - intros p [= <-]. pose proof (bi_res _ _ _ _ _ _ _ (ms_binv _ _ _ S Hn0)). lia.
        - apply Forall_app. split; [apply S|exact Hr1].
        - exact Hz.
        - rewrite isum_zsum. split; [|exact Hz]. rewrite zsum_app. pose proof (zsum_nonneg _ (ms_freqs _ _ _ S)). pose proof (zsum_nonneg _ Hr1). lia. }
      unfold s_update in Hs. destruct (zdict z) as [q|] eqn:Eq.
      + destruct (Nat.eqb q (result_ptr fl (zb z))).
        * injection Hs as <-. exists bops. now apply msim_quiet.
        * apply bind_ok in Hs as ([fs b] & Hf & Hs). injection Hs as <-. now apply G.
      + apply bind_ok in Hs as ([fs b] & Hf & Hs). injection Hs as <-. now apply G.
  Qed.
  Lemma normal_app a b : normal fl N (a ++ b) -> normal fl N a.
  Proof. induction b as [|op b IH] using rev_ind; [now rewrite app_nil_r|]. rewrite app_assoc. intro H. apply IH. exact (normal_snoc _ _ _ _ H). Qed.
  Lemma msim_hist : forall z ops z', shist fl z ops z' -> forall calls bops, msim calls z bops -> normal fl N (calls ++ ops) ->
    exists bops', msim (calls ++ ops) z' bops'.
  Proof.
    induction 1 as [|ops z1 op z2 H IH Hs]; intros calls bops S Hn; [exists bops; now rewrite app_nil_r|].
    rewrite app_assoc in *. destruct (IH calls bops S (normal_snoc _ _ _ _ Hn)) as [bops1 S1]. now apply (msim_op _ z1 bops1).
  Qed.

  (** The calls of the sampling, cut where it was interrupted. *)
  Lemma rounds_prefix w xs : forall n i z stop t' z', rounds fl w xs n (i * length xs) z = Ok (stop, t', z') ->
    (stop = false /\ shist fl z (flat_map (round fl w xs) (List.seq i n)) z') \/
    (stop = true /\ exists m j, j < length xs /\ w_term w ((i + m) * length xs + j) = true /\
      (forall k, i * length xs <= k < (i + m) * length xs + j -> w_term w k = false) /\
      shist fl z (flat_map (round fl w xs) (List.seq i m) ++ map (draw fl w xs) (List.seq ((i + m) * length xs) (S j))) z').
  Proof.
    induction n as [|n IH]; intros i z stop t' z' H; cbn [rounds] in H.
    - injection H as <- <- <-. left. split; [easy|constructor].
    - apply bind_ok in H as ([[stop1 t1] z1] & Hs & H). rewrite flat_map_seq_S.
      apply sample_run in Hs as [(-> & -> & Hs & Hk)|(-> & m & Hm & H1 & H2 & Hs)].
      + apply bind_ok in H as (z2 & Hu & H).
        assert (Hr : shist fl z (round fl w xs i) z2) by (now apply (sh_step fl z _ z1)).
        replace (i * length xs + length xs) with (S i * length xs) in H by lia.
        apply IH in H as [[-> H]|(-> & m & j & Hj & Ht & Hf & H)].
        * left. split; [easy|]. exact (shist_app fl _ _ _ _ _ Hr H).
        * right. split; [easy|]. exists (S m), j. replace (i + S m) with (S i + m) by lia. split; [exact Hj|]. split; [exact Ht|]. split.
          -- intros k Hkk. destruct (Nat.lt_ge_cases k (S i * length xs)); [apply Hk; lia|]. apply Hf. lia.
          -- rewrite flat_map_seq_S, <- app_assoc. exact (shist_app fl _ _ _ _ _ Hr H).
      + injection H as <- <- <-. right. split; [easy|]. exists 0, m. rewrite Nat.add_0_r. split; [exact Hm|]. split; [exact H1|]. split; [exact H2|exact Hs].
  Qed.

  (** What a parse with given frequencies does. *)
  Lemma parse_any calls z bops p s fs T : msim calls z bops -> normal fl N calls -> zdict z = Some p -> (Z.of_nat (length s) <= 2 ^ 40)%Z ->
    Forall (fun f => 0 <= f)%Z fs -> (zsum fs <= 2 ^ 51)%Z -> (0 <= T <= 2 ^ 51)%Z ->
    let q := enc (syms calls) (restrict (syms calls) s) in
    exists d ids d', hget fl (zb z) p = Ok d /\ parse_weighted fl d q fs (fofZ fl T) [] = Ok (ids, length ids, d') /\
      spells (seqs d') ids q /\ extends_by_symbols (seqs d) (seqs d') /\ length ids <= length s.
  Proof.
    intros S Hn Hp Hl Hf Hz HT q. destruct (nth_lt _ _ (ms_dict _ _ _ S p Hp)) as [d Hd].
    assert (Hin : In d (bheap (zb z))) by (now apply nth_error_In in Hd).
    pose proof (ms_binv _ _ _ S Hn) as I. destruct (proj1 (Forall_forall _ _) (bi_heap _ _ _ _ _ _ _ I) d Hin) as (Hwf & Hne & _).
    pose proof (proj1 (Forall_forall _ _) (bi_sizes _ _ _ _ _ _ _ I) d Hin) as Hsz. cbn beta in Hsz.
    assert (Hq : length q <= length s) by (unfold q, enc; rewrite map_length; apply restrict_length).
    pose proof Hn as (_ & ((HN0 & HN) & _ & Hh & Hu)). pose proof (ms_proc _ _ _ S) as Hpr.
    assert (Hle : forall f, In f fs -> (f <= zsum fs)%Z).
    { clear -Hf. induction fs as [|x l IH]; [easy|]. inversion_clear Hf as [|? ? Hx Hl]. cbn [zsum fold_right]. fold (zsum l).
      pose proof (zsum_nonneg l Hl). intros f [<-|Hf]; [lia|]. specialize (IH Hl f Hf). lia. }
    destruct (weighted_lossless fl L true false d q fs T Hwf Hne) as (ids & x & d' & E & Hsp & _ & Hne' & Hext & _).
    { split; [lia|]. apply Forall_forall. intros f Hfi. pose proof (proj1 (Forall_forall _ _) Hf f Hfi). cbn beta in *.
      specialize (Hle f Hfi). unfold maxcount. lia. }
    { unfold maxlen. lia. } { unfold maxcount. lia. }
    exists d, ids, d'. split; [now apply vget_some|]. split; [unfold parse_weighted; now rewrite E|]. split; [exact Hsp|]. split; [exact Hext|].
    pose proof (spells_le (seqs d') ids q Hne' Hsp). lia.
  Qed.

  Lemma restrict_all S s : (forall c, In c s -> In c S) -> restrict S s = s.
  Proof.
    intro H. unfold restrict. induction s as [|x s IH]; [easy|]. cbn [filter]. destruct (in_dec Z.eq_dec x S) as [Hi|Hi].
    - f_equal. apply IH. intros c Hc. apply H. now right.
    - exfalso. apply Hi, H. now left.
  Qed.

  (** Counting the data. *)
  Lemma recount_sim w fs : Forall (fun f => 0 <= f)%Z fs -> (zsum fs <= kmax + N)%Z -> forall xs calls t z acc bops stop t' z' acc',
    msim calls z bops -> normal fl N (calls ++ map SParse xs) ->
    (forall x, In x xs -> (Z.of_nat (length x) <= 2 ^ 40)%Z /\ forall c, In c x -> In c (seen fl calls)) ->
    Forall (fun f => 0 <= f)%Z acc -> recount fl w fs xs t z acc = Ok (stop, t', z', acc') ->
    exists bops', msim (calls ++ map SParse xs) z' bops' /\ Forall (fun f => 0 <= f)%Z acc' /\ (zsum acc' <= zsum acc + total_symbols xs)%Z.
  Proof.
    intros Hf Hz. induction xs as [|x xs IH]; intros calls t z acc bops stop t' z' acc' S Hn Hx Ha H; cbn [recount] in H.
    - injection H as <- <- <- <-. exists bops. rewrite app_nil_r. split; [exact S|]. split; [exact Ha|]. unfold total_symbols. cbn. lia.
    - destruct (Hx x (or_introl eq_refl)) as [Hl Hk]. pose proof Hn as (_ & ((HN & HN') & _)).
      assert (Hk' : forall c, In c x -> In c (syms calls)) by (intros c Hc; apply syms_in; now apply Hk).
      rewrite (encode_known (syms calls) _ (ms_coder _ _ _ S) x Hk') in H.
      apply bind_ok in H as ([p d] & Htd & H). unfold the_dict in Htd. destruct (zdict z) as [p'|] eqn:Ep; [|discriminate Htd].
      apply bind_ok in Htd as (d1 & Hd & Htd). injection Htd as -> ->.
      apply bind_ok in H as ([[ids n] d'] & Hw & H). apply bind_ok in H as (acc1 & Hacc & H).
      change (map SParse (x :: xs)) with ([SParse x] ++ map (@SParse fl) xs) in *. rewrite app_assoc in *.
      assert (Hn1 : normal fl N (calls ++ [SParse x])) by exact (normal_app _ _ Hn).
      pose proof (normal_snoc _ _ _ _ Hn1) as Hn0.
      pose proof (zsum_nonneg fs Hf) as Hz0.
      destruct (parse_any calls z bops p x fs (isum fs) S Hn0 Ep Hl Hf) as (d2 & ids2 & d2' & Hd2 & Hw2 & _ & _ & Hle);
        [unfold kmax in Hz; lia|rewrite isum_zsum; unfold kmax in Hz; lia|].
      rewrite Hd in Hd2. injection Hd2 as <-. rewrite (restrict_all _ x Hk') in Hw2. rewrite Hw in Hw2. injection Hw2 as -> _ _.
      apply fold_sum in Hacc as [Es Hn1a]; [|exact Ha].
      assert (S1 : msim (calls ++ [SParse x]) (mkStream (zsize z) (hput fl (zb z) p d') (Some p) (zcoder z) (zfreqs z) (ztotal z) (zminp z))
        (bops ++ [BShared p (enc (syms calls) x) fs (fofZ fl (isum fs))])).
      { rewrite <- Ep. apply (msim_shared calls z bops x _ fs _ p d ids2 n d'); try assumption. now rewrite (restrict_all _ x Hk'). }
      assert (Ht : total_symbols (x :: xs) = (Z.of_nat (length x) + total_symbols xs)%Z) by reflexivity.
      destruct (w_term w t).
      + injection H as <- <- <- <-. exists (bops ++ [BShared p (enc (syms calls) x) fs (fofZ fl (isum fs))]).
        split; [now apply msim_parses|]. split; [exact Hn1a|]. pose proof (total_nonneg xs). lia.
      + assert (Hx1 : forall y, In y xs -> (Z.of_nat (length y) <= 2 ^ 40)%Z /\ forall c, In c y -> In c (seen fl (calls ++ [SParse x]))).
        { intros y Hy. destruct (Hx y (or_intror Hy)) as [H1 H2]. split; [exact H1|]. intros c Hc. rewrite seen_snoc. apply in_or_app. left. now apply H2. }
        destruct (IH _ _ _ _ _ _ _ _ _ S1 Hn Hx1 Hn1a H) as (bops' & S' & Ha' & Hs').
        exists bops'. split; [exact S'|]. split; [exact Ha'|]. lia.
  Qed.

  Lemma seen_app a b : seen fl (a ++ b) = seen fl a ++ seen fl b.
  Proof. unfold seen, fed. now rewrite flat_map_app, concat_app. Qed.
  Lemma seen_parses xs : seen fl (map SParse xs) = [].
  Proof. unfold seen, fed. induction xs as [|x xs IH]; [easy|]. exact IH. Qed.
  Lemma handled_app a b : handled fl (a ++ b) = (handled fl a + handled fl b)%Z.
  Proof. unfold handled. now rewrite map_app, zsum_app. Qed.
  Lemma handled_parses xs : handled fl (map SParse xs) = total_symbols xs.
  Proof. unfold handled, total_symbols. now rewrite map_map. Qed.

  Lemma recompute_sim w xs t z calls bops t' z' : msim calls z bops -> normal fl N (calls ++ map SParse xs) ->
    countable fl xs (calls ++ map SParse xs) -> recompute_freqs fl w xs t z = Ok (t', z') ->
    exists bops', msim (calls ++ map SParse xs) z' bops'.
  Proof.
    intros S Hn Hc H. pose proof (normal_app _ _ Hn) as Hn0. pose proof Hn as (_ & ((HN & _) & _)). unfold recompute_freqs in H.
    apply bind_ok in H as ([fs b] & Hf & H). apply bind_ok in H as ([[[stop t2] z2] acc] & Hr & H). injection H as _ <-.
    destruct (msim_read _ _ _ _ _ S Hn0 Hf) as (Hf1 & Hf2 & _ & S1).
    assert (Hx0 : forall x, In x xs -> (Z.of_nat (length x) <= 2 ^ 40)%Z /\ forall c, In c x -> In c (seen fl calls)).
    { intros x Hx. destruct (Hc x Hx) as [H1 H2]. split; [exact H1|]. intros c Hcc. specialize (H2 c Hcc).
      now rewrite seen_app, seen_parses, app_nil_r in H2. }
    assert (Hr0 : Forall (fun f => 0 <= f)%Z (repeat 0%Z (length fs))) by (apply Forall_forall; intros f Hi; apply repeat_spec in Hi; lia).
    destruct (recount_sim w fs Hf1 Hf2 xs calls t _ _ _ stop t2 z2 acc S1 Hn Hx0 Hr0 Hr) as (bops' & S' & Ha & Hs).
    assert (Hz : (zsum acc <= handled fl (calls ++ map SParse xs) + updates fl (calls ++ map SParse xs) * (kmax + N))%Z).
    { rewrite handled_app, handled_parses.
      assert (E0 : zsum (repeat 0%Z (length fs)) = 0%Z) by (clear; induction (length fs) as [|n IH]; [easy|exact IH]).
      pose proof (handled_nonneg fl calls). pose proof (updates_nonneg fl (calls ++ map SParse xs)). unfold kmax. nia. }
    exists bops'. split; cbn [zb zcoder zdict zfreqs ztotal]; try apply S'; [exact Ha|exact Hz|].
    destruct stop; [apply S'|]. rewrite isum_zsum. pose proof (zsum_nonneg acc Ha). lia.
  Qed.

  Lemma transform_sim w : forall xs t z r z' calls bops, msim calls z bops -> normal fl N (calls ++ map SParse xs) ->
    transform_loop fl w xs t z = Ok (r, z') -> exists bops', msim (calls ++ map SParse xs) z' bops'.
  Proof.
    induction xs as [|x xs IH]; intros t z r z' calls bops S Hn H; cbn [transform_loop] in H.
    - injection H as <- <-. exists bops. now rewrite app_nil_r.
    - apply bind_ok in H as ([ids z1] & Hp & H). change (map SParse (x :: xs)) with ([SParse x] ++ map (@SParse fl) xs) in *. rewrite app_assoc in *.
      pose proof Hn as (_ & ((HN & _) & _)).
      destruct (msim_op calls z bops (SParse x) z1 S (normal_app _ _ Hn)) as [bops1 S1]; [now exists ids|].
      destruct (w_term w t).
      + injection H as <- <-. exists bops1. now apply msim_parses.
      + apply bind_ok in H as ([r2 z2] & H2 & H). injection H as <- <-. exact (IH _ _ _ _ _ _ S1 Hn H2).
  Qed.

  Lemma vstep_sim calls v bops op new v' : msim calls (vs v) bops -> normal fl N (calls ++ new) -> vstep fl calls v op new v' ->
    exists bops', msim (calls ++ new) (vs v') bops'.
  Proof.
    intros S Hn Hv. destruct op as [w xs|w xs|op]; cbn [vstep] in Hv.
    - destruct Hv as (ok & Hf & Hc & Hk). unfold fit in Hf. unfold fit_calls in Hc. destruct (vfitted v).
      + destruct (vcomputed v).
        * injection Hf as <- <-. subst new. rewrite app_nil_r. now exists bops.
        * apply bind_ok in Hf as ([t z] & Hr & Hf). injection Hf as <- <-. subst new. cbn [vs].
          exact (recompute_sim _ _ _ _ _ _ _ _ S Hn (Hk eq_refl) Hr).
      + apply bind_ok in Hf as ([[stop t] z] & Hr & Hf).
        pose proof (rounds_prefix w xs (Z.to_nat (viter v)) 0 (vs v) stop t z Hr) as G. cbn [Nat.add] in G.
        destruct G as [[-> Hs]|(-> & m & j & Hj & Hkt & Hkf & Hs)].
        * apply bind_ok in Hf as ([t2 z2] & Hr2 & Hf). injection Hf as <- <-. cbn [vs]. subst new. rewrite app_assoc in *.
          destruct (msim_hist _ _ _ Hs calls bops S (normal_app _ _ Hn)) as [bops1 S1].
          exact (recompute_sim _ _ _ _ _ _ _ _ S1 Hn (Hk eq_refl) Hr2).
        * injection Hf as <- <-. cbn [vs on_stream]. destruct Hc as (m' & j' & Hj' & Hkt' & Hkf' & ->).
          assert (Ek : m' * length xs + j' = m * length xs + j).
          { destruct (Nat.lt_trichotomy (m * length xs + j) (m' * length xs + j')) as [Hlt|[E|Hlt]]; [|easy|].
            - rewrite (Hkf' _ Hlt) in Hkt. discriminate.
            - rewrite (Hkf (m' * length xs + j')) in Hkt'; [discriminate|]. lia. }
          rewrite !(Nat.mul_comm _ (length xs)) in Ek. apply Nat.div_mod_unique in Ek as [-> ->]; [|exact Hj'|exact Hj].
          exact (msim_hist _ _ _ Hs calls bops S Hn).
    - destruct Hv as [[r Ht] ->]. unfold transform in Ht. apply bind_ok in Ht as ([r2 z] & Hl & Ht). injection Ht as <- <-. cbn [vs on_stream].
      exact (transform_sim _ _ _ _ _ _ _ _ S Hn Hl).
    - destruct Hv as (Hs & _ & ->). exact (msim_op _ _ _ _ _ S Hn Hs).
  Qed.

  Lemma vhist_sim iter ops calls v : vhist fl (new_vgram fl size iter) ops calls v -> normal fl N calls -> exists bops, msim calls (vs v) bops.
  Proof.
    induction 1 as [|ops calls v op new v' H IH Hs]; intro Hn.
    - exists []. pose proof Hn as (_ & ((HN & _) & _)). split; cbn [new_vgram vs new_stream zb zcoder zdict zfreqs ztotal].
      + constructor.
      + easy.
      + exact (like_refl [] (NoDup_nil _)).
      + cbn. lia.
      + intros e s [].
      + intros a p s freqs total b E. now destruct a.
      + discriminate.
      + constructor.
      + cbn. lia.
      + cbn. lia.
    - destruct (IH (normal_app _ _ Hn)) as [bops S]. exact (vstep_sim _ _ _ _ _ _ S Hn Hs).
  Qed.

  (** ** What holds in every such state *)
  Lemma ms_range calls z bops d w : msim calls z bops -> normal fl N calls -> In d (bheap (zb z)) -> In w (seqs d) ->
    w <> [] /\ in_range (syms calls) w /\ occurs (fed fl calls) (decw (syms calls) w).
  Proof.
    intros S Hn Hd Hw. destruct (proj1 (Forall_forall _ _) (bi_heap _ _ _ _ _ _ _ (ms_binv _ _ _ S Hn)) d Hd) as (_ & Hne & Hf).
    split; [exact (Hne w Hw)|].
    destruct (Hf w Hw) as [[]|(x & Hx & a & b & E)].
    rewrite (ms_acc _ _ _ S) in Hx. apply in_map_iff in Hx as (y & <- & Hy).
    assert (Hk : forall e, In e y -> In e (syms calls)) by (intros e He; now apply (fed_known fl [] calls y)). split.
    - intros c Hc. apply (enc_range _ y); [exact Hk|]. rewrite E. apply in_or_app. right. apply in_or_app. now left.
    - exists y. split; [exact Hy|]. exists (decw (syms calls) a), (decw (syms calls) b).
      rewrite <- (dec_enc _ y Hk) at 1. rewrite E. unfold decw. now rewrite !map_app.
  Qed.
  Lemma ms_alphabet calls z bops p d : msim calls z bops -> normal fl N calls -> zdict z = Some p -> hget fl (zb z) p = Ok d ->
    s_alphabet fl z = Ok (map (decw (syms calls)) (seqs d)).
  Proof.
    intros S Hn Hp Hd. unfold s_alphabet, the_dict. rewrite Hp, Hd. cbn [bind].
    apply like_decode_all; [exact (ms_coder _ _ _ S)|]. intros w Hw. apply (ms_range calls z bops d w S Hn); [|easy].
    now apply (hget_in fl _ _ _) in Hd.
  Qed.

  Lemma ms_parse calls z bops s : msim calls z bops -> normal fl N (calls ++ [SParse s]) -> zdict z <> None -> (Z.of_nat (length s) <= 2 ^ 40)%Z ->
    exists ids z' al al', s_parse fl z s = Ok (ids, z') /\ s_alphabet fl z = Ok al /\ s_alphabet fl z' = Ok al' /\
      spells al' ids (restrict (seen fl calls) s) /\ extends_by_symbols al al'.
  Proof.
    intros S Hn' Hd Hl. pose proof (normal_snoc _ _ _ _ Hn') as Hn. destruct (zdict z) as [p|] eqn:Ep; [|congruence].
    pose proof Hn as (_ & ((HN0 & HN) & _ & Hh & Hu)). pose proof (ms_sum _ _ _ S) as Hsum. pose proof (ms_total _ _ _ S) as Htot. unfold kmax in Hsum, Htot.
    destruct (parse_any calls z bops p s (zfreqs z) (ztotal z) S Hn Ep Hl (ms_freqs _ _ _ S)) as (d & ids & d' & Hg & Epw & Hsp & Hext & _); [lia|lia|].
    assert (E : s_parse fl z s = Ok (ids, put_dict fl z p d')).
    { unfold s_parse. rewrite (like_immutable _ _ s (ms_coder _ _ _ S)).
      unfold alpha. destruct (nth_lt _ _ (bi_res _ _ _ _ _ _ _ (ms_binv _ _ _ S Hn))) as [dr Hdr]. unfold hget at 1. rewrite (vget_some _ _ _ Hdr). cbn [bind].
      destruct (mk_dict_spec (seqs dr)) as (dm & Em & _). rewrite Em. cbn [bind].
      unfold the_dict. rewrite Ep, Hg. cbn [bind]. now rewrite Epw. }
    exists ids, (put_dict fl z p d'), (map (decw (syms calls)) (seqs d)), (map (decw (syms calls)) (seqs d')).
    split; [exact E|]. split; [exact (ms_alphabet calls z bops p d S Hn Ep Hg)|].
    destruct (msim_op calls z bops (SParse s) (put_dict fl z p d') S Hn') as [bops' S']; [now exists ids|].
    destruct (quiet_call calls (SParse s) eq_refl) as [ES _].
    split.
    { rewrite <- ES. apply (ms_alphabet _ _ bops' p d' S' Hn'); [exact Ep|]. unfold put_dict, hput, hget. cbn [zb bheap].
      apply vget_some, upd_same. now apply (hget_in fl _ _ _) in Hg. }
    split.
    - rewrite <- syms_restrict. rewrite <- (dec_enc (syms calls) (restrict (syms calls) s)).
      + now apply spells_decw.
      + intros c Hc. now apply restrict_in in Hc.
    - destruct Hext as [cs ->]. exists (map (fun c => nth (Z.to_nat c) (syms calls) 0%Z) cs). rewrite map_app. f_equal.
      rewrite !map_map. reflexivity.
  Qed.

  Lemma ms_words calls z bops : msim calls z bops -> normal fl N calls -> zdict z <> None ->
    exists al, s_alphabet fl z = Ok al /\ forall w, In w al -> w <> [] /\ occurs (fed fl calls) w.
  Proof.
    intros S Hn Hd. destruct (zdict z) as [p|] eqn:Ep; [|congruence]. destruct (nth_lt _ _ (ms_dict _ _ _ S p Ep)) as [d Hg].
    assert (Hin : In d (bheap (zb z))) by (now apply nth_error_In in Hg).
    exists (map (decw (syms calls)) (seqs d)). split; [exact (ms_alphabet calls z bops p d S Hn Ep (vget_some _ _ _ Hg))|].
    intros w Hw. apply in_map_iff in Hw as (k & <- & Hk). destruct (ms_range _ _ _ _ _ S Hn Hin Hk) as (H1 & _ & H2).
    split; [|exact H2]. now destruct k.
  Qed.

  (** An update that takes over another dictionary adds frequencies for all of its words. *)
  Lemma ms_update calls z bops : msim calls z bops -> normal fl N (calls ++ [SUpdate]) ->
    exists z', s_update fl z = Ok z' /\ zdict z' <> None /\
      (z' = z \/ exists r al, s_freqs fl z' = s_freqs fl z ++ r /\ s_alphabet fl z' = Ok al /\ length al <= length r).
  Proof.
    intros S Hn'. pose proof (normal_snoc _ _ _ _ Hn') as Hn.
    pose proof (ms_binv _ _ _ S Hn) as I. pose proof (bi_res _ _ _ _ _ _ _ I) as Hr. destruct (nth_lt _ _ Hr) as [dr Hdr].
    assert (G : exists r b, result_freqs fl (zb z) [] = Ok (r, b) /\ result_freqs fl (zb z) (zfreqs z) = Ok (zfreqs z ++ r, b) /\
      bheap b = bheap (zb z) /\ dsize dr <= length r).
    { unfold result_freqs, hget. rewrite (vget_some _ _ _ Hdr). cbn [bind].
      assert (Hp : forall l, dsize dr <= length (pad l (dsize dr))) by (intro l; unfold pad; rewrite app_length, repeat_length; lia).
      destruct (bres (zb z)); do 2 eexists; (split; [reflexivity|]); (split; [reflexivity|]); (split; [reflexivity|]); apply Hp. }
    destruct G as (r & b & E0 & E & Hh & Hlr).
    assert (G : forall z', z' = mkStream (zsize z) b (Some (result_ptr fl (zb z))) (zcoder z) (zfreqs z ++ r) (isum (zfreqs z ++ r)) (zminp z') ->
      s_update fl z = Ok z' ->
      exists r al, s_freqs fl z' = s_freqs fl z ++ r /\ s_alphabet fl z' = Ok al /\ length al <= length r).
    { intros z' Ez Hu. destruct (msim_op calls z bops SUpdate z' S Hn' Hu) as [bops' S'].
      exists r, (map (decw (syms (calls ++ [SUpdate]))) (seqs dr)). split; [now rewrite Ez|]. split; [|rewrite map_length; exact Hlr].
      apply (ms_alphabet _ _ bops' (result_ptr fl (zb z)) dr S' Hn'); rewrite Ez; [easy|]. cbn [zb]. unfold hget. rewrite Hh. now apply vget_some. }
    unfold s_update in *. rewrite E in *. cbn [bind] in *. destruct (zdict z) as [q|] eqn:Eq.
    - destruct (Nat.eqb q (result_ptr fl (zb z))).
      + exists z. split; [reflexivity|]. split; [now rewrite Eq|now left].
      + eexists. split; [reflexivity|]. split; [easy|]. right. now apply G.
    - eexists. split; [reflexivity|]. split; [easy|]. right. now apply G.
  Qed.
  Lemma updated_safe calls z bops e s : msim calls z bops -> normal fl N (calls ++ [SAccept e s]) -> roomy fl size (calls ++ [SAccept e s]) ->
    exists z', s_accept fl e z s = Ok z'.
  Proof.
    intros S Hn Hr. unfold s_accept. destruct (like_encode s _ _ (syms_nodup calls) (ms_coder _ _ _ S)) as (c' & Ec & Hc'). rewrite Ec.
    set (q := enc (adds (syms calls) s) s) in *.
    assert (ES : syms (calls ++ [SAccept e s]) = adds (syms calls) s).
    { unfold symbols_of. rewrite seen_snoc. cbn [op_fed concat]. now rewrite app_nil_r, adds_app. }
    assert (Hacc : accepted fl (bops ++ [BAccept e q]) = map (enc (syms (calls ++ [SAccept e s]))) (fed fl (calls ++ [SAccept e s]))).
    { rewrite accepted_snoc, fed_snoc. cbn [op_accepted op_fed]. rewrite map_app, ES. cbn [map]. f_equal.
      rewrite (ms_acc _ _ _ S). apply map_ext_in. intros x Hx. destruct (adds_ext s (syms calls)) as [r ->].
      rewrite enc_ext; [easy|]. intros c Hc. now apply (fed_known fl [] calls x). }
    pose proof Hn as (Hen & (HN & Hlf & Hh & Hup)). destruct Hr as (Hdr & Hs1 & Hds). pose proof HN as [HN0 _].
    assert (Hin : forall e1 s1, In (BAccept e1 s1) (bops ++ [BAccept e q]) -> exists s', In (SAccept e1 s') (calls ++ [SAccept e s])).
    { intros e1 s1 Hi. apply in_app_or in Hi as [Hi|[Hi|[]]].
      - destruct (ms_env _ _ _ S e1 s1 Hi) as [s2 Hs2]. exists s2. apply in_or_app. now left.
      - injection Hi as <- _. exists s. apply in_or_app. right. now left. }
    destruct (accept_total fl L (size - 1) N bops (zb z) e q (ms_hist _ _ _ S)) as [b' E]; [|lia|rewrite E; now eexists].
    split; [|split; [|split; [|split; [|split]]]].
    - intros e1 s1 Hi. destruct (Hin e1 s1 Hi) as [s' Hi']. now apply (Hen e1 s').
    - intros e1 s1 Hi. destruct (Hin e1 s1 Hi) as [s' Hi']. now apply (Hdr e1 s').
    - split; [easy|]. split.
      + rewrite Hacc. apply Forall_forall. intros y Hy. apply in_map_iff in Hy as (x & <- & Hx). unfold enc. rewrite map_length.
        exact (proj1 (Forall_forall _ _) Hlf x Hx).
      + rewrite processed_snoc. rewrite handled_snoc in Hh. cbn [op_length op_handled] in *. unfold q, enc. rewrite map_length. pose proof (ms_proc _ _ _ S). lia.
    - apply shared_known_snoc; [apply S|]. intros; discriminate.
    - rewrite Hacc, enc_concat. exact (codes_fresh fl L [] [] _ _ _ _ (start HN0) 0 _).
    - pose proof (distinct_codes fl L [] [] _ _ _ _ (start HN0) 0 _ _ Hacc) as Hd.
      unfold symbols_of in Hd. rewrite adds_length in Hd. unfold distinct in *. unfold seen in Hd. lia.
  Qed.

  (** fit and updates only. *)
  Lemma call_freqs z op z' : sstep fl z op z' -> exists r, s_freqs fl z' = s_freqs fl z ++ r /\ (r = [] \/ op = SUpdate).
  Proof.
    destruct op as [e s|s|]; cbn [sstep]; intro H.
    - apply accept_keeps in H as [_ H]. exists []. rewrite app_nil_r. split; [exact H|now left].
    - destruct H as [ids H]. exists []. rewrite app_nil_r. split; [|now left]. unfold s_parse in H. apply bind_ok in H as (da & _ & H).
      apply bind_ok in H as ([p d] & _ & H). apply bind_ok in H as ([[i n] d'] & _ & H). now injection H as _ <-.
    - unfold s_update in H. destruct (zdict z) as [q|] eqn:E.
      + destruct (Nat.eqb q _); [injection H as <-; exists []; rewrite app_nil_r; split; [easy|now left]|].
        apply bind_ok in H as ([fs b] & Hf & H). injection H as <-. apply freqs_prefix in Hf as (r & _ & ->). exists r. split; [easy|now right].
      + apply bind_ok in H as ([fs b] & Hf & H). injection H as <-. apply freqs_prefix in Hf as (r & _ & ->). exists r. split; [easy|now right].
  Qed.
End M.
