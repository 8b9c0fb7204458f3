(** Fit, transform and the calls of a stream in any order, on a loaded object. *)
From Verif Require Import ExpandProofs Base Spec FloatOps FloatLaws OrderProofs DictProofs GreedyProofs DpProofs WeightedProofs ModelDict Maps
  ModelCoder SpecCoder CoderProofs ModelStat ModelBuilder ModelStream ModelVGram SpecStat SpecBuilder StatProofs RunProofs
  ReduceProofs LearnProofs PropsStatLemmas BuilderProofs BuilderSafe BuilderOwn PropsBuilderLemmas StreamProofs PropsStreamLemmas VGramProofs PropsVGramLemmas
  SpecStream SpecVGram SpecMixed MixedProofs SpecLoadMixed.

Section M.
  Context (fl : fops) (L : flaws fl) (ws0 : list seq) (syms0 : list Z) (z0 : stream fl) (Size N T0 : Z).
  Context (Z0 : start_stream fl L ws0 syms0 z0 (kmax + N) Size T0) (HSz : (Size <= 2 ^ 49)%Z) (HT0 : (T0 <= 2 ^ 50)%Z).
  Notation syms calls := (symbols_of fl syms0 calls).
  Lemma T0_nonneg : (0 <= T0)%Z.
  Proof. pose proof (zsum_nonneg _ (ss_freqs _ _ _ _ _ _ _ _ Z0)). pose proof (proj2 (ss_total _ _ _ _ _ _ _ _ Z0)). lia. Qed.

  Record msim (calls : list (sop fl)) (z : stream fl) (bops : list (bop fl)) : Prop := {
    ms_hist : bhist fl (zb z0) bops (zb z);
    ms_acc : accepted fl bops = map (enc (syms calls)) (fed fl calls);
    ms_coder : coder_like (syms calls) (zcoder z);
    ms_proc : (processed fl bops <= handled fl calls)%Z;
    ms_env : forall e s, In (BAccept e s) bops -> exists s', In (SAccept e s') calls;
    ms_known : shared_known fl (fun w => In w ws0) bops;
    ms_dict : forall p, zdict z = Some p -> p < length (bheap (zb z));
    ms_freqs : Forall (fun f => 0 <= f)%Z (zfreqs z);
    ms_sum : (zsum (zfreqs z) <= T0 + handled fl calls + updates fl calls * (kmax + N))%Z;
    ms_total : (0 <= ztotal z <= T0 + handled fl calls + updates fl calls * (kmax + N))%Z
  }.

  Lemma ms_lengths calls z bops : msim calls z bops -> normal fl N calls -> lengths_ok fl N bops.
  Proof.
    intros S (_ & HN & Hf & Hh & _). split; [exact HN|]. split; [|pose proof (ms_proc _ _ _ S); lia].
    rewrite (ms_acc _ _ _ S). apply Forall_forall. intros q Hq. apply in_map_iff in Hq as (x & <- & Hx).
    unfold enc. rewrite map_length. exact (proj1 (Forall_forall _ _) Hf x Hx).
  Qed.
  Lemma ms_envs calls z bops : msim calls z bops -> normal fl N calls -> envs_ok fl bops.
  Proof. intros S (He & _) e s Hi. destruct (ms_env _ _ _ S e s Hi) as [s' Hs]. exact (He e s' Hs). Qed.
  Lemma ms_binv calls z bops : msim calls z bops -> normal fl N calls ->
    binv fl L (fun w => In w ws0) (accepted fl bops) (kmax + N) (Size + 2 * processed fl bops) (zb z).
  Proof.
    intros S Hn. pose proof Hn as (_ & HN & _). apply (hist_inv fl L _ _ Size N (zb z0) (ss_binv _ _ _ _ _ _ _ _ Z0)).
    - unfold kmax. lia.
    - lia.
    - apply S.
    - exact (ms_envs _ _ _ S Hn).
    - exact (ms_lengths _ _ _ S Hn).
    - apply S.
  Qed.
  Lemma syms_nodup calls : NoDup (syms calls).
  Proof. apply adds_nodup. exact (ss_nodup _ _ _ _ _ _ _ _ Z0). Qed.
  Lemma syms_in calls c : In c (syms calls) <-> In c (syms0 ++ seen fl calls).
  Proof. rewrite symbols_in, in_app_iff. tauto. Qed.
  Lemma syms_restrict calls s : restrict (syms calls) s = restrict (syms0 ++ seen fl calls) s.
  Proof. apply restrict_ext. intro c. apply syms_in. Qed.

  (** A call that accepts nothing. *)
  Lemma quiet_call calls op : op_fed fl op = [] -> syms (calls ++ [op]) = syms calls /\ fed fl (calls ++ [op]) = fed fl calls.
  Proof.
    intro H. rewrite fed_snoc, H, app_nil_r. split; [|easy]. unfold symbols_of. rewrite seen_snoc, H. cbn [concat]. now rewrite app_nil_r.
  Qed.
  Lemma msim_quiet calls z bops op : msim calls z bops -> (0 <= N)%Z -> op_fed fl op = [] -> msim (calls ++ [op]) z bops.
  Proof.
    intros S HN Ho. destruct (quiet_call calls op Ho) as [E1 E2].
    assert (Hh : (0 <= op_handled fl op)%Z) by (destruct op; cbn [op_handled]; lia).
    assert (Hu : (updates fl calls * (kmax + N) <= updates fl (calls ++ [op]) * (kmax + N))%Z).
    { rewrite updates_snoc. unfold kmax. destruct (is_update fl op); lia. }
    split; try apply S.
    - rewrite E1, E2. apply S.
    - rewrite E1. apply S.
    - rewrite handled_snoc. pose proof (ms_proc _ _ _ S). lia.
    - intros e s Hi. destruct (ms_env _ _ _ S e s Hi) as [s' Hs]. exists s'. apply in_or_app. now left.
    - rewrite handled_snoc. pose proof (ms_sum _ _ _ S). lia.
    - rewrite handled_snoc. pose proof (ms_total _ _ _ S). lia.
  Qed.
  Lemma msim_parses xs : forall calls z bops, msim calls z bops -> (0 <= N)%Z -> msim (calls ++ map SParse xs) z bops.
  Proof.
    induction xs as [|x xs IH]; intros calls z bops S HN; cbn [map]; [now rewrite app_nil_r|].
    change (SParse x :: map SParse xs) with ([SParse x] ++ map (@SParse fl) xs). rewrite app_assoc. apply IH; [|exact HN]. now apply msim_quiet.
  Qed.

  (** Reading the frequencies of the builder. *)
  Lemma msim_read calls z bops fs b : msim calls z bops -> normal fl N calls -> result_freqs fl (zb z) [] = Ok (fs, b) ->
    Forall (fun f => 0 <= f)%Z fs /\ (zsum fs <= kmax + N)%Z /\ length (bheap b) = length (bheap (zb z)) /\
    msim calls (mkStream (zsize z) b (zdict z) (zcoder z) (zfreqs z) (ztotal z) (zminp z)) (bops ++ [BFreqs]).
  Proof.
    intros S Hn H. pose proof Hn as (_ & ((HN & _) & _)).
    destruct (freqs_bound fl L ws0 (kmax + N) N eq_refl _ _ _ _ _ (ms_binv _ _ _ S Hn) H HN) as [H1 H2]. split; [exact H1|]. split; [exact H2|].
    assert (Hle : length (bheap b) = length (bheap (zb z))).
    { clear -H. unfold result_freqs in H. apply bind_ok in H as (d & _ & H). destruct (bres (zb z)); now injection H as _ <-. }
    split; [exact Hle|]. split; cbn [zb zcoder zdict zfreqs ztotal]; try apply S.
    - apply (bh_step fl _ bops (zb z)); [apply S|]. now exists fs.
    - rewrite accepted_snoc. cbn [op_accepted]. rewrite app_nil_r. apply S.
    - rewrite processed_snoc. cbn [op_length]. pose proof (ms_proc _ _ _ S). lia.
    - intros e s Hi. apply in_app_or in Hi as [Hi|[Hi|[]]]; [now apply (ms_env _ _ _ S e s)|discriminate Hi].
    - apply shared_known_snoc; [apply S|]. intros; discriminate.
    - rewrite Hle. apply S.
  Qed.
  (** Parsing with a dictionary of the builder. *)
  Lemma msim_shared calls z bops s q fs total p d ids n d' : msim calls z bops -> normal fl N calls ->
    q = enc (syms calls) (restrict (syms calls) s) -> zdict z = Some p -> hget fl (zb z) p = Ok d ->
    parse_weighted fl d q fs total [] = Ok (ids, n, d') ->
    msim (calls ++ [SParse s]) (mkStream (zsize z) (hput fl (zb z) p d') (zdict z) (zcoder z) (zfreqs z) (ztotal z) (zminp z))
      (bops ++ [BShared p q fs total]).
  Proof.
    intros S Hn Eq Ep Hd Hw. pose proof Hn as (_ & ((HN & _) & _)). destruct (quiet_call calls (SParse s) eq_refl) as [E1 E2].
    assert (Hql : length q <= length s) by (rewrite Eq; unfold enc; rewrite map_length; apply restrict_length).
    split; cbn [zb zcoder zdict zfreqs ztotal].
    - apply (bh_step fl _ bops (zb z)); [apply S|]. now exists d, ids, n, d'.
    - rewrite accepted_snoc, E1, E2. cbn [op_accepted]. rewrite app_nil_r. apply S.
    - rewrite E1. apply S.
    - rewrite processed_snoc, handled_snoc. cbn [op_length op_handled]. pose proof (ms_proc _ _ _ S). lia.
    - intros e1 s1 Hi. apply in_app_or in Hi as [Hi|[Hi|[]]]; [|discriminate Hi].
      destruct (ms_env _ _ _ S e1 s1 Hi) as [s2 Hs2]. exists s2. apply in_or_app. now left.
    - apply shared_known_snoc; [apply S|]. intros p2 s2 f2 t2 c [= <- <- <- <-] Hc. rewrite Eq in Hc.
      apply in_map_iff in Hc as (y & <- & Hy). apply restrict_in in Hy as [_ Hy].
      exact (code_origin fl L ws0 syms0 _ _ _ _ Z0 calls bops y (ms_acc _ _ _ S) Hy).
    - intros p2 Hp2. unfold hput. cbn [bheap]. rewrite upd_length. now apply (ms_dict _ _ _ S).
    - apply S.
    - rewrite handled_snoc, updates_snoc. cbn [is_update op_handled]. pose proof (ms_sum _ _ _ S). lia.
    - rewrite handled_snoc, updates_snoc. cbn [is_update op_handled]. pose proof (ms_total _ _ _ S). lia.
  Qed.

  Lemma msim_op calls z bops op z' : msim calls z bops -> normal fl N (calls ++ [op]) -> sstep fl z op z' ->
    exists bops', msim (calls ++ [op]) z' bops'.
  Proof.
    intros S Hn Hs. pose proof (normal_snoc _ _ _ _ Hn) as Hn0. pose proof Hn as (_ & ((HN & _) & _)).
    destruct op as [e s|s|]; cbn [sstep] in Hs.
    - unfold s_accept in Hs. destruct (like_encode s _ _ (syms_nodup calls) (ms_coder _ _ _ S)) as (c' & Ec & Hc'). rewrite Ec in Hs.
      apply bind_ok in Hs as (b' & Ha & Hs). injection Hs as <-.
      assert (ES : syms (calls ++ [SAccept e s]) = adds (syms calls) s).
      { unfold symbols_of. rewrite seen_snoc. cbn [op_fed concat]. now rewrite app_nil_r, adds_app. }
      set (q := enc (adds (syms calls) s) s) in *.
      assert (Hql : length q = length s) by (unfold q, enc; apply map_length).
      exists (bops ++ [BAccept e q]). split; cbn [zb zcoder zdict zfreqs ztotal].
      + apply (bh_step fl _ bops (zb z)); [apply S|exact Ha].
      + rewrite accepted_snoc, fed_snoc. cbn [op_accepted op_fed]. rewrite map_app, ES. cbn [map]. f_equal.
        rewrite (ms_acc _ _ _ S). apply map_ext_in. intros x Hx. destruct (adds_ext s (syms calls)) as [r ->].
        rewrite enc_ext; [easy|]. intros c Hc. now apply (fed_known fl syms0 calls x).
      + rewrite ES. exact Hc'.
      + rewrite processed_snoc, handled_snoc. cbn [op_length op_handled]. rewrite Hql. pose proof (ms_proc _ _ _ S). lia.
      + intros e1 s1 Hi. apply in_app_or in Hi as [Hi|[Hi|[]]].
        * destruct (ms_env _ _ _ S e1 s1 Hi) as [s2 Hs2]. exists s2. apply in_or_app. now left.
        * injection Hi as <- _. exists s. apply in_or_app. right. now left.
      + apply shared_known_snoc; [apply S|]. intros; discriminate.
      + intros p Hp. pose proof (ms_dict _ _ _ S p Hp) as Hlt. apply (accept_cases fl) in Ha as (d & i1 & n1 & d1 & st1 & Hd & _ & Hc).
        destruct Hc as [[_ ->]|(_ & ws & fs & mp & d4 & st4 & prob & best & turns & _ & _ & ->)]; unfold parsed; cbn [bheap];
          rewrite ?app_length, upd_length; lia.
      + apply S.
      + rewrite handled_snoc, updates_snoc. cbn [is_update op_handled]. pose proof (ms_sum _ _ _ S). lia.
      + rewrite handled_snoc, updates_snoc. cbn [is_update op_handled]. pose proof (ms_total _ _ _ S). lia.
    - destruct Hs as [ids Hs]. unfold s_parse in Hs. rewrite (like_immutable _ _ s (ms_coder _ _ _ S)) in Hs.
      apply bind_ok in Hs as (da & _ & Hs). apply bind_ok in Hs as ([p d] & Htd & Hs). apply bind_ok in Hs as ([[ids1 n] d'] & Hw & Hs).
      injection Hs as <- <-. unfold the_dict in Htd. destruct (zdict z) as [p'|] eqn:Ep; [|discriminate Htd].
      apply bind_ok in Htd as (d1 & Hd & Htd). injection Htd as -> ->. eexists. unfold put_dict. rewrite Ep.
      pose proof (msim_shared _ _ _ s _ _ _ _ _ _ _ _ S Hn0 eq_refl Ep Hd Hw) as G. rewrite Ep in G. exact G.
    - destruct (quiet_call calls SUpdate eq_refl) as [E1 E2].
      assert (G : forall fs b, result_freqs fl (zb z) (zfreqs z) = Ok (fs, b) -> forall mp,
        exists bops', msim (calls ++ [SUpdate]) (mkStream (zsize z) b (Some (result_ptr fl (zb z))) (zcoder z) fs (isum fs) mp) bops').
      { intros fs b Hf mp. apply freqs_prefix in Hf as (r & Hr & ->).
        destruct (msim_read _ _ _ _ _ S Hn0 Hr) as (Hr1 & Hr2 & Hle & S1).
        pose proof (msim_quiet _ _ _ SUpdate S1 HN eq_refl) as S2. exists (bops ++ [BFreqs]).
        assert (Hz : (zsum (zfreqs z ++ r) <= T0 + handled fl (calls ++ [SUpdate]) + updates fl (calls ++ [SUpdate]) * (kmax + N))%Z).
        { rewrite zsum_app, handled_snoc, updates_snoc. cbn [is_update op_handled]. pose proof (ms_sum _ _ _ S). unfold kmax in *. lia. }
        split; cbn [zb zcoder zdict zfreqs ztotal]; try apply S2.
        - intros p [= <-]. pose proof (bi_res _ _ _ _ _ _ _ (ms_binv _ _ _ S Hn0)). lia.
        - apply Forall_app. split; [apply S|exact Hr1].
        - exact Hz.
        - rewrite isum_zsum. split; [|exact Hz]. rewrite zsum_app. pose proof (zsum_nonneg _ (ms_freqs _ _ _ S)). pose proof (zsum_nonneg _ Hr1). lia. }
      unfold s_update in Hs. destruct (zdict z) as [q|] eqn:Eq.
      + destruct (Nat.eqb q (result_ptr fl (zb z))).
        * injection Hs as <-. exists bops. now apply msim_quiet.
        * apply bind_ok in Hs as ([fs b] & Hf & Hs). injection Hs as <-. now apply G.
      + apply bind_ok in Hs as ([fs b] & Hf & Hs). injection Hs as <-. now apply G.
  Qed.
  Lemma msim_hist : forall z ops z', shist fl z ops z' -> forall calls bops, msim calls z bops -> normal fl N (calls ++ ops) ->
    exists bops', msim (calls ++ ops) z' bops'.
  Proof.
    induction 1 as [|ops z1 op z2 H IH Hs]; intros calls bops S Hn; [exists bops; now rewrite app_nil_r|].
    rewrite app_assoc in *. destruct (IH calls bops S (normal_snoc _ _ _ _ Hn)) as [bops1 S1]. now apply (msim_op _ z1 bops1).
  Qed.

  (** What a parse with given frequencies does. *)
  Lemma parse_any calls z bops p s fs T : msim calls z bops -> normal fl N calls -> zdict z = Some p -> (Z.of_nat (length s) <= 2 ^ 40)%Z ->
    Forall (fun f => 0 <= f)%Z fs -> (zsum fs <= 2 ^ 52)%Z -> (0 <= T <= 2 ^ 52)%Z ->
    let q := enc (syms calls) (restrict (syms calls) s) in
    exists d ids d', hget fl (zb z) p = Ok d /\ parse_weighted fl d q fs (fofZ fl T) [] = Ok (ids, length ids, d') /\
      spells (seqs d') ids q /\ extends_by_symbols (seqs d) (seqs d') /\ length ids <= length s.
  Proof.
    intros S Hn Hp Hl Hf Hz HT q. destruct (nth_lt _ _ (ms_dict _ _ _ S p Hp)) as [d Hd].
    assert (Hin : In d (bheap (zb z))) by (now apply nth_error_In in Hd).
    pose proof (ms_binv _ _ _ S Hn) as I. destruct (proj1 (Forall_forall _ _) (bi_heap _ _ _ _ _ _ _ I) d Hin) as (Hwf & Hne & _).
    pose proof (proj1 (Forall_forall _ _) (bi_sizes _ _ _ _ _ _ _ I) d Hin) as Hsz. cbn beta in Hsz.
    assert (Hq : length q <= length s) by (unfold q, enc; rewrite map_length; apply restrict_length).
    pose proof Hn as (_ & ((HN0 & HN) & _ & Hh & Hu)). pose proof (ms_proc _ _ _ S) as Hpr.
    assert (Hle : forall f, In f fs -> (f <= zsum fs)%Z).
    { clear -Hf. induction fs as [|x l IH]; [easy|]. inversion_clear Hf as [|? ? Hx Hl]. cbn [zsum fold_right]. fold (zsum l).
      pose proof (zsum_nonneg l Hl). intros f [<-|Hf]; [lia|]. specialize (IH Hl f Hf). lia. }
    destruct (weighted_lossless fl L true false d q fs T Hwf Hne) as (ids & x & d' & E & Hsp & _ & Hne' & Hext & _).
    { split; [lia|]. apply Forall_forall. intros f Hfi. pose proof (proj1 (Forall_forall _ _) Hf f Hfi). cbn beta in *.
      specialize (Hle f Hfi). unfold maxcount. lia. }
    { unfold maxlen. lia. } { unfold maxcount. lia. }
    exists d, ids, d'. split; [now apply vget_some|]. split; [unfold parse_weighted; now rewrite E|]. split; [exact Hsp|]. split; [exact Hext|].
    pose proof (spells_le (seqs d') ids q Hne' Hsp). lia.
  Qed.

  (** Counting the data. *)
  Lemma recount_sim w fs : Forall (fun f => 0 <= f)%Z fs -> (zsum fs <= kmax + N)%Z -> forall xs calls t z acc bops stop t' z' acc',
    msim calls z bops -> normal fl N (calls ++ map SParse xs) ->
    (forall x, In x xs -> (Z.of_nat (length x) <= 2 ^ 40)%Z /\ forall c, In c x -> In c (syms0 ++ seen fl calls)) ->
    Forall (fun f => 0 <= f)%Z acc -> recount fl w fs xs t z acc = Ok (stop, t', z', acc') ->
    exists bops', msim (calls ++ map SParse xs) z' bops' /\ Forall (fun f => 0 <= f)%Z acc' /\ (zsum acc' <= zsum acc + total_symbols xs)%Z.
  Proof.
    intros Hf Hz. induction xs as [|x xs IH]; intros calls t z acc bops stop t' z' acc' S Hn Hx Ha H; cbn [recount] in H.
    - injection H as <- <- <- <-. exists bops. rewrite app_nil_r. split; [exact S|]. split; [exact Ha|]. unfold total_symbols. cbn. lia.
    - destruct (Hx x (or_introl eq_refl)) as [Hl Hk]. pose proof Hn as (_ & ((HN & HN') & _)).
      assert (Hk' : forall c, In c x -> In c (syms calls)) by (intros c Hc; apply syms_in; now apply Hk).
      rewrite (encode_known (syms calls) _ (ms_coder _ _ _ S) x Hk') in H.
      apply bind_ok in H as ([p d] & Htd & H). unfold the_dict in Htd. destruct (zdict z) as [p'|] eqn:Ep; [|discriminate Htd].
      apply bind_ok in Htd as (d1 & Hd & Htd). injection Htd as -> ->.
      apply bind_ok in H as ([[ids n] d'] & Hw & H). apply bind_ok in H as (acc1 & Hacc & H).
      change (map SParse (x :: xs)) with ([SParse x] ++ map (@SParse fl) xs) in *. rewrite app_assoc in *.
      assert (Hn1 : normal fl N (calls ++ [SParse x])) by exact (normal_app _ _ _ _ Hn).
      pose proof (normal_snoc _ _ _ _ Hn1) as Hn0.
      pose proof (zsum_nonneg fs Hf) as Hz0.
      destruct (parse_any calls z bops p x fs (isum fs) S Hn0 Ep Hl Hf) as (d2 & ids2 & d2' & Hd2 & Hw2 & _ & _ & Hle);
        [unfold kmax in Hz; lia|rewrite isum_zsum; unfold kmax in Hz; lia|].
      rewrite Hd in Hd2. injection Hd2 as <-. rewrite (restrict_all _ x Hk') in Hw2. rewrite Hw in Hw2. injection Hw2 as -> _ _.
      apply fold_sum in Hacc as [Es Hn1a]; [|exact Ha].
      assert (S1 : msim (calls ++ [SParse x]) (mkStream (zsize z) (hput fl (zb z) p d') (Some p) (zcoder z) (zfreqs z) (ztotal z) (zminp z))
        (bops ++ [BShared p (enc (syms calls) x) fs (fofZ fl (isum fs))])).
      { rewrite <- Ep. apply (msim_shared calls z bops x _ fs _ p d ids2 n d'); try assumption. now rewrite (restrict_all _ x Hk'). }
      assert (Ht : total_symbols (x :: xs) = (Z.of_nat (length x) + total_symbols xs)%Z) by reflexivity.
      destruct (w_term w t).
      + injection H as <- <- <- <-. exists (bops ++ [BShared p (enc (syms calls) x) fs (fofZ fl (isum fs))]).
        split; [now apply msim_parses|]. split; [exact Hn1a|]. pose proof (total_nonneg xs). lia.
      + assert (Hx1 : forall y, In y xs -> (Z.of_nat (length y) <= 2 ^ 40)%Z /\ forall c, In c y -> In c (syms0 ++ seen fl (calls ++ [SParse x]))).
        { intros y Hy. destruct (Hx y (or_intror Hy)) as [H1 H2]. split; [exact H1|]. intros c Hc. rewrite seen_snoc, app_assoc. apply in_or_app. left. now apply H2. }
        destruct (IH _ _ _ _ _ _ _ _ _ S1 Hn Hx1 Hn1a H) as (bops' & S' & Ha' & Hs').
        exists bops'. split; [exact S'|]. split; [exact Ha'|]. lia.
  Qed.

  Lemma recompute_sim w xs t z calls bops t' z' : msim calls z bops -> normal fl N (calls ++ map SParse xs) ->
    countable_from fl syms0 xs (calls ++ map SParse xs) -> recompute_freqs fl w xs t z = Ok (t', z') ->
    exists bops', msim (calls ++ map SParse xs) z' bops'.
  Proof.
    intros S Hn Hc H. pose proof (normal_app _ _ _ _ Hn) as Hn0. pose proof Hn as (_ & ((HN & _) & _)). unfold recompute_freqs in H.
    apply bind_ok in H as ([fs b] & Hf & H). apply bind_ok in H as ([[[stop t2] z2] acc] & Hr & H). injection H as _ <-.
    destruct (msim_read _ _ _ _ _ S Hn0 Hf) as (Hf1 & Hf2 & _ & S1).
    assert (Hx0 : forall x, In x xs -> (Z.of_nat (length x) <= 2 ^ 40)%Z /\ forall c, In c x -> In c (syms0 ++ seen fl calls)).
    { intros x Hx. destruct (Hc x Hx) as [H1 H2]. split; [exact H1|]. intros c Hcc. specialize (H2 c Hcc).
      now rewrite seen_app, seen_parses, app_nil_r in H2. }
    assert (Hr0 : Forall (fun f => 0 <= f)%Z (repeat 0%Z (length fs))) by (apply Forall_forall; intros f Hi; apply repeat_spec in Hi; lia).
    destruct (recount_sim w fs Hf1 Hf2 xs calls t _ _ _ stop t2 z2 acc S1 Hn Hx0 Hr0 Hr) as (bops' & S' & Ha & Hs).
    assert (Hz : (zsum acc <= T0 + handled fl (calls ++ map SParse xs) + updates fl (calls ++ map SParse xs) * (kmax + N))%Z).
    { rewrite handled_app, handled_parses.
      assert (E0 : zsum (repeat 0%Z (length fs)) = 0%Z) by (clear; induction (length fs) as [|n IH]; [easy|exact IH]).
      pose proof T0_nonneg. pose proof (handled_nonneg fl calls). pose proof (updates_nonneg fl (calls ++ map SParse xs)). unfold kmax. nia. }
    exists bops'. split; cbn [zb zcoder zdict zfreqs ztotal]; try apply S'; [exact Ha|exact Hz|].
    destruct stop; [apply S'|]. rewrite isum_zsum. pose proof (zsum_nonneg acc Ha). lia.
  Qed.

  Lemma transform_sim w : forall xs t z r z' calls bops, msim calls z bops -> normal fl N (calls ++ map SParse xs) ->
    transform_loop fl w xs t z = Ok (r, z') -> exists bops', msim (calls ++ map SParse xs) z' bops'.
  Proof.
    induction xs as [|x xs IH]; intros t z r z' calls bops S Hn H; cbn [transform_loop] in H.
    - injection H as <- <-. exists bops. now rewrite app_nil_r.
    - apply bind_ok in H as ([ids z1] & Hp & H). change (map SParse (x :: xs)) with ([SParse x] ++ map (@SParse fl) xs) in *. rewrite app_assoc in *.
      pose proof Hn as (_ & ((HN & _) & _)).
      destruct (msim_op calls z bops (SParse x) z1 S (normal_app _ _ _ _ Hn)) as [bops1 S1]; [now exists ids|].
      destruct (w_term w t).
      + injection H as <- <-. exists bops1. now apply msim_parses.
      + apply bind_ok in H as ([r2 z2] & H2 & H). injection H as <- <-. exact (IH _ _ _ _ _ _ S1 Hn H2).
  Qed.

  Lemma lstep_sim calls v bops op new v' : msim calls (vs v) bops -> normal fl N (calls ++ new) -> lstep fl syms0 calls v op new v' ->
    exists bops', msim (calls ++ new) (vs v') bops'.
  Proof.
    intros S Hn Hv. destruct op as [w xs|w xs|op]; cbn [lstep] in Hv.
    - destruct Hv as (ok & Hf & Hc & Hk). unfold fit in Hf. unfold fit_calls in Hc. destruct (vfitted v).
      + destruct (vcomputed v).
        * injection Hf as <- <-. subst new. rewrite app_nil_r. now exists bops.
        * apply bind_ok in Hf as ([t z] & Hr & Hf). injection Hf as <- <-. subst new. cbn [vs].
          exact (recompute_sim _ _ _ _ _ _ _ _ S Hn (Hk eq_refl) Hr).
      + apply bind_ok in Hf as ([[stop t] z] & Hr & Hf).
        pose proof (rounds_prefix fl w xs (Z.to_nat (viter v)) 0 (vs v) stop t z Hr) as G. cbn [Nat.add] in G.
        destruct G as [[-> Hs]|(-> & m & j & Hj & Hkt & Hkf & Hs)].
        * apply bind_ok in Hf as ([t2 z2] & Hr2 & Hf). injection Hf as <- <-. cbn [vs]. subst new. rewrite app_assoc in *.
          destruct (msim_hist _ _ _ Hs calls bops S (normal_app _ _ _ _ Hn)) as [bops1 S1].
          exact (recompute_sim _ _ _ _ _ _ _ _ S1 Hn (Hk eq_refl) Hr2).
        * injection Hf as <- <-. cbn [vs on_stream]. destruct Hc as (m' & j' & Hj' & Hkt' & Hkf' & ->).
          assert (Ek : m' * length xs + j' = m * length xs + j).
          { destruct (Nat.lt_trichotomy (m * length xs + j) (m' * length xs + j')) as [Hlt|[E|Hlt]]; [|easy|].
            - rewrite (Hkf' _ Hlt) in Hkt. discriminate.
            - rewrite (Hkf (m' * length xs + j')) in Hkt'; [discriminate|]. lia. }
          rewrite !(Nat.mul_comm _ (length xs)) in Ek. apply Nat.div_mod_unique in Ek as [-> ->]; [|exact Hj'|exact Hj].
          exact (msim_hist _ _ _ Hs calls bops S Hn).
    - destruct Hv as [[r Ht] ->]. unfold transform in Ht. apply bind_ok in Ht as ([r2 z] & Hl & Ht). injection Ht as <- <-. cbn [vs on_stream].
      exact (transform_sim _ _ _ _ _ _ _ _ S Hn Hl).
    - destruct Hv as (Hs & _ & ->). exact (msim_op _ _ _ _ _ S Hn Hs).
  Qed.

  Lemma lhist_sim v0 ops calls v : vs v0 = z0 -> lhist fl syms0 v0 ops calls v -> normal fl N calls -> exists bops, msim calls (vs v) bops.
  Proof.
    intro E0. induction 1 as [|ops calls v op new v' H IH Hs]; intro Hn.
    - exists []. pose proof Hn as (_ & ((HN & _) & _)). rewrite E0. destruct (ss_total _ _ _ _ _ _ _ _ Z0) as [Ht1 Ht2].
      pose proof (zsum_nonneg _ (ss_freqs _ _ _ _ _ _ _ _ Z0)). split.
      + constructor.
      + easy.
      + exact (ss_coder _ _ _ _ _ _ _ _ Z0).
      + cbn. lia.
      + intros e s [].
      + intros a p s freqs total b E. now destruct a.
      + exact (ss_dict _ _ _ _ _ _ _ _ Z0).
      + exact (ss_freqs _ _ _ _ _ _ _ _ Z0).
      + cbn. lia.
      + cbn. lia.
    - destruct (IH (normal_app _ _ _ _ Hn)) as [bops S]. exact (lstep_sim _ _ _ _ _ _ S Hn Hs).
  Qed.

  (** ** What holds in every such state *)
  Lemma ms_range calls z bops d w : msim calls z bops -> normal fl N calls -> In d (bheap (zb z)) -> In w (seqs d) ->
    w <> [] /\ in_range (syms calls) w /\ (In (decw (syms calls) w) (map (decw syms0) ws0) \/ occurs (fed fl calls) (decw (syms calls) w)).
  Proof.
    intros S Hn Hd Hw. destruct (proj1 (Forall_forall _ _) (bi_heap _ _ _ _ _ _ _ (ms_binv _ _ _ S Hn)) d Hd) as (_ & Hne & Hf).
    split; [exact (Hne w Hw)|].
    destruct (Hf w Hw) as [H|(x & Hx & a & b & E)].
    { pose proof (ss_range _ _ _ _ _ _ _ _ Z0 w H) as Hr. unfold symbols_of. destruct (adds_ext (seen fl calls) syms0) as [r ->]. split.
      - intros c Hc. specialize (Hr c Hc). rewrite app_length. lia.
      - left. apply in_map_iff. exists w. split; [|exact H]. unfold decw. apply map_ext_in. intros c Hc. specialize (Hr c Hc). now rewrite app_nth1 by lia. }
    rewrite (ms_acc _ _ _ S) in Hx. apply in_map_iff in Hx as (y & <- & Hy).
    assert (Hk : forall e, In e y -> In e (syms calls)) by (intros e He; now apply (fed_known fl syms0 calls y)). split.
    - intros c Hc. apply (enc_range _ y); [exact Hk|]. rewrite E. apply in_or_app. right. apply in_or_app. now left.
    - right. exists y. split; [exact Hy|]. exists (decw (syms calls) a), (decw (syms calls) b).
      rewrite <- (dec_enc _ y Hk) at 1. rewrite E. unfold decw. now rewrite !map_app.
  Qed.
  Lemma ms_alphabet calls z bops p d : msim calls z bops -> normal fl N calls -> zdict z = Some p -> hget fl (zb z) p = Ok d ->
    s_alphabet fl z = Ok (map (decw (syms calls)) (seqs d)).
  Proof.
    intros S Hn Hp Hd. unfold s_alphabet, the_dict. rewrite Hp, Hd. cbn [bind].
    apply like_decode_all; [exact (ms_coder _ _ _ S)|]. intros w Hw. apply (ms_range calls z bops d w S Hn); [|easy].
    now apply (hget_in fl _ _ _) in Hd.
  Qed.

  Lemma ms_parse calls z bops s : msim calls z bops -> normal fl N (calls ++ [SParse s]) -> zdict z <> None -> (Z.of_nat (length s) <= 2 ^ 40)%Z ->
    exists ids z' al al', s_parse fl z s = Ok (ids, z') /\ s_alphabet fl z = Ok al /\ s_alphabet fl z' = Ok al' /\
      spells al' ids (restrict (syms0 ++ seen fl calls) s) /\ extends_by_symbols al al'.
  Proof.
    intros S Hn' Hd Hl. pose proof (normal_snoc _ _ _ _ Hn') as Hn. destruct (zdict z) as [p|] eqn:Ep; [|congruence].
    pose proof Hn as (_ & ((HN0 & HN) & _ & Hh & Hu)). pose proof (ms_sum _ _ _ S) as Hsum. pose proof (ms_total _ _ _ S) as Htot. unfold kmax in Hsum, Htot.
    destruct (parse_any calls z bops p s (zfreqs z) (ztotal z) S Hn Ep Hl (ms_freqs _ _ _ S)) as (d & ids & d' & Hg & Epw & Hsp & Hext & _); [lia|lia|].
    assert (E : s_parse fl z s = Ok (ids, put_dict fl z p d')).
    { unfold s_parse. rewrite (like_immutable _ _ s (ms_coder _ _ _ S)).
      unfold alpha. destruct (nth_lt _ _ (bi_res _ _ _ _ _ _ _ (ms_binv _ _ _ S Hn))) as [dr Hdr]. unfold hget at 1. rewrite (vget_some _ _ _ Hdr). cbn [bind].
      destruct (mk_dict_spec (seqs dr)) as (dm & Em & _). rewrite Em. cbn [bind].
      unfold the_dict. rewrite Ep, Hg. cbn [bind]. now rewrite Epw. }
    exists ids, (put_dict fl z p d'), (map (decw (syms calls)) (seqs d)), (map (decw (syms calls)) (seqs d')).
    split; [exact E|]. split; [exact (ms_alphabet calls z bops p d S Hn Ep Hg)|].
    destruct (msim_op calls z bops (SParse s) (put_dict fl z p d') S Hn') as [bops' S']; [now exists ids|].
    destruct (quiet_call calls (SParse s) eq_refl) as [ES _].
    split.
    { rewrite <- ES. apply (ms_alphabet _ _ bops' p d' S' Hn'); [exact Ep|]. unfold put_dict, hput, hget. cbn [zb bheap].
      apply vget_some, upd_same. now apply (hget_in fl _ _ _) in Hg. }
    split.
    - rewrite <- syms_restrict. rewrite <- (dec_enc (syms calls) (restrict (syms calls) s)).
      + now apply spells_decw.
      + intros c Hc. now apply restrict_in in Hc.
    - destruct Hext as [cs ->]. exists (map (fun c => nth (Z.to_nat c) (syms calls) 0%Z) cs). rewrite map_app. f_equal.
      rewrite !map_map. reflexivity.
  Qed.

  Lemma ms_words calls z bops : msim calls z bops -> normal fl N calls -> zdict z <> None ->
    exists al, s_alphabet fl z = Ok al /\ forall w, In w al -> w <> [] /\ (In w (map (decw syms0) ws0) \/ occurs (fed fl calls) w).
  Proof.
    intros S Hn Hd. destruct (zdict z) as [p|] eqn:Ep; [|congruence]. destruct (nth_lt _ _ (ms_dict _ _ _ S p Ep)) as [d Hg].
    assert (Hin : In d (bheap (zb z))) by (now apply nth_error_In in Hg).
    exists (map (decw (syms calls)) (seqs d)). split; [exact (ms_alphabet calls z bops p d S Hn Ep (vget_some _ _ _ Hg))|].
    intros w Hw. apply in_map_iff in Hw as (k & <- & Hk). destruct (ms_range _ _ _ _ _ S Hn Hin Hk) as (H1 & _ & H2).
    split; [|exact H2]. now destruct k.
  Qed.

  (** An update that takes over another dictionary adds frequencies for all of its words. *)
  Lemma ms_update calls z bops : msim calls z bops -> normal fl N (calls ++ [SUpdate]) ->
    exists z', s_update fl z = Ok z' /\ zdict z' <> None /\
      (z' = z \/ exists r al, s_freqs fl z' = s_freqs fl z ++ r /\ s_alphabet fl z' = Ok al /\ length al <= length r).
  Proof.
    intros S Hn'. pose proof (normal_snoc _ _ _ _ Hn') as Hn.
    pose proof (ms_binv _ _ _ S Hn) as I. pose proof (bi_res _ _ _ _ _ _ _ I) as Hr. destruct (nth_lt _ _ Hr) as [dr Hdr].
    assert (G : exists r b, result_freqs fl (zb z) [] = Ok (r, b) /\ result_freqs fl (zb z) (zfreqs z) = Ok (zfreqs z ++ r, b) /\
      bheap b = bheap (zb z) /\ dsize dr <= length r).
    { unfold result_freqs, hget. rewrite (vget_some _ _ _ Hdr). cbn [bind].
      assert (Hp : forall l, dsize dr <= length (pad l (dsize dr))) by (intro l; unfold pad; rewrite app_length, repeat_length; lia).
      destruct (bres (zb z)); do 2 eexists; (split; [reflexivity|]); (split; [reflexivity|]); (split; [reflexivity|]); apply Hp. }
    destruct G as (r & b & E0 & E & Hh & Hlr).
    assert (G : forall z', z' = mkStream (zsize z) b (Some (result_ptr fl (zb z))) (zcoder z) (zfreqs z ++ r) (isum (zfreqs z ++ r)) (zminp z') ->
      s_update fl z = Ok z' ->
      exists r al, s_freqs fl z' = s_freqs fl z ++ r /\ s_alphabet fl z' = Ok al /\ length al <= length r).
    { intros z' Ez Hu. destruct (msim_op calls z bops SUpdate z' S Hn' Hu) as [bops' S'].
      exists r, (map (decw (syms (calls ++ [SUpdate]))) (seqs dr)). split; [now rewrite Ez|]. split; [|rewrite map_length; exact Hlr].
      apply (ms_alphabet _ _ bops' (result_ptr fl (zb z)) dr S' Hn'); rewrite Ez; [easy|]. cbn [zb]. unfold hget. rewrite Hh. now apply vget_some. }
    unfold s_update in *. rewrite E in *. cbn [bind] in *. destruct (zdict z) as [q|] eqn:Eq.
    - destruct (Nat.eqb q (result_ptr fl (zb z))).
      + exists z. split; [reflexivity|]. split; [now rewrite Eq|now left].
      + eexists. split; [reflexivity|]. split; [easy|]. right. now apply G.
    - eexists. split; [reflexivity|]. split; [easy|]. right. now apply G.
  Qed.
  Context (a0 : nat) (d00 : dict) (st00 : sstat fl).
  Context (S0 : sinv fl L ws0 a0 [] [] (zb z0) d00 d00 st00 []) (Hcl : symbol_closed ws0).
  Context (Hwl : Forall (fun w : seq => Z.of_nat (length w) <= 2 ^ 40)%Z ws0) (Ha : (Z.of_nat a0 <= bsize (zb z0))%Z).
  Lemma ms_safe calls z bops : msim calls z bops -> normal fl N calls -> has_room fl syms0 z0 calls -> safe_ops fl ws0 (zb z0) N bops.
  Proof.
    intros S Hn (Hdr & Hrm). split; [exact (ms_envs _ _ _ S Hn)|split; [|split; [exact (ms_lengths _ _ _ S Hn)|split; [exact (ms_known _ _ _ S)|split]]]].
    - intros e s Hi. destruct (ms_env _ _ _ S e s Hi) as [s' Hi']. now apply (Hdr e s').
    - rewrite (ms_acc _ _ _ S), enc_concat. exact (codes_fresh fl L ws0 syms0 _ _ _ _ Z0 a0 _).
    - pose proof (distinct_codes fl L ws0 syms0 _ _ _ _ Z0 a0 calls bops (ms_acc _ _ _ S)). lia.
  Qed.
  Lemma updated_safe calls z bops e s : msim calls z bops -> normal fl N (calls ++ [SAccept e s]) -> has_room fl syms0 z0 (calls ++ [SAccept e s]) ->
    exists z', s_accept fl e z s = Ok z'.
  Proof.
    intros S Hn' Hr'. pose proof (normal_snoc _ _ _ _ Hn') as Hn.
    destruct (like_encode s _ _ (syms_nodup calls) (ms_coder _ _ _ S)) as (c' & Ec & Hc'). unfold s_accept. rewrite Ec.
    set (q := enc (adds (syms calls) s) s).
    assert (ES : syms (calls ++ [SAccept e s]) = adds (syms calls) s).
    { unfold symbols_of. rewrite seen_snoc. cbn [op_fed concat]. now rewrite app_nil_r, adds_app. }
    assert (Hql : length q = length s) by (unfold q, enc; apply map_length).
    assert (Hr : has_room fl syms0 z0 calls).
    { destruct Hr' as [H1 H2]. split; [intros e1 s1 Hi; apply (H1 e1 s1), in_or_app; now left|].
      rewrite ES in H2. destruct (adds_ext s (syms calls)) as [r Er]. rewrite Er, app_length in H2. lia. }
    assert (Hacc : accepted fl (bops ++ [BAccept e q]) = map (enc (syms (calls ++ [SAccept e s]))) (fed fl (calls ++ [SAccept e s]))).
    { rewrite accepted_snoc, fed_snoc. cbn [op_accepted op_fed]. rewrite map_app, ES. cbn [map]. f_equal.
      rewrite (ms_acc _ _ _ S). apply map_ext_in. intros x Hx. destruct (adds_ext s (syms calls)) as [r ->].
      rewrite enc_ext; [easy|]. intros c Hc. now apply (fed_known fl syms0 calls x). }
    assert (Hsafe : safe_ops fl ws0 (zb z0) N (bops ++ [BAccept e q])).
    { destruct (ms_safe calls z bops S Hn Hr) as (H1 & H2 & H3 & H4 & H5 & H6). pose proof Hn' as (Hen & (HN & Hlf & Hh & Hup)).
      destruct Hr' as [Hdr Hrm]. rewrite handled_snoc in Hh. cbn [op_handled] in Hh.
      assert (Hlast : In (SAccept e s) (calls ++ [SAccept e s])) by (apply in_or_app; right; now left).
      split; [|split; [|split; [|split; [|split]]]].
      - intros e1 s1 Hi. apply in_app_or in Hi as [Hi|[Hi|[]]]; [now apply (H1 e1 s1)|]. injection Hi as <- _. now apply (Hen e s).
      - intros e1 s1 Hi. apply in_app_or in Hi as [Hi|[Hi|[]]]; [now apply (H2 e1 s1)|]. injection Hi as <- _. now apply (Hdr e s).
      - split; [easy|]. split.
        + rewrite Hacc. apply Forall_forall. intros y Hy. apply in_map_iff in Hy as (x & <- & Hx). unfold enc. rewrite map_length.
          exact (proj1 (Forall_forall _ _) Hlf x Hx).
        + rewrite processed_snoc. cbn [op_length]. rewrite Hql. pose proof (ms_proc _ _ _ S). lia.
      - apply shared_known_snoc; [exact H4|]. intros; discriminate.
      - rewrite Hacc, enc_concat. exact (codes_fresh fl L ws0 syms0 _ _ _ _ Z0 a0 _).
      - pose proof (distinct_codes fl L ws0 syms0 _ _ _ _ Z0 a0 _ _ Hacc). lia. }
    pose proof Hn as (_ & (HN & _)). destruct (uhist_exists fl 0 (zb z0) bops (zb z) (ms_hist _ _ _ S)) as [pre U].
    assert (HBb : (kmax + N <= kmax + N <= 2 ^ 52)%Z) by (unfold kmax; lia).
    destruct (safe_hist fl L ws0 a0 (zb z0) (kmax + N) Size N d00 st00 (ss_binv _ _ _ _ _ _ _ _ Z0) S0 Hcl Hwl HBb HSz Ha bops pre (zb z) U (ms_safe calls z bops S Hn Hr))
      as (I & Hb & d & d0 & st0 & log & SI).
    destruct (safe_next fl L ws0 a0 (zb z0) (kmax + N) Size N Hcl Hwl HBb HSz Ha pre bops (zb z) e q d d0 st0 log I SI Hb Hsafe) as (b' & E & _).
    rewrite E. cbn [bind]. now eexists.
  Qed.
End M.
