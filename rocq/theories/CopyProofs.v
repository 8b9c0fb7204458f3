(** Copies of an object: all use one builder, so what holds of one object that gets all of the calls (MixedProofs.v) holds of each. *)
From Verif Require Import ExpandProofs Base Spec FloatOps FloatLaws OrderProofs DictProofs GreedyProofs ModelDict Maps
  ModelCoder SpecCoder CoderProofs ModelStat ModelBuilder ModelStream ModelVGram ModelCopy SpecStat SpecBuilder StatProofs RunProofs
  BuilderProofs BuilderSafe BuilderOwn StreamProofs PropsStreamLemmas VGramProofs PropsVGramLemmas MixedProofs SpecStream SpecVGram SpecMixed SpecCopy.

Section C.
  Context (fl : fops).

  (** ** What the calls do to the builder *)
  Definition grows (b b' : builder fl) : Prop := exists ops, bhist fl b ops b'.
  Lemma grows_refl b : grows b b.
  Proof. exists []. constructor. Qed.
  Lemma bhist_app b0 : forall l2 b1 b2, bhist fl b1 l2 b2 -> forall l1, bhist fl b0 l1 b1 -> bhist fl b0 (l1 ++ l2) b2.
  Proof.
    induction 1 as [|ops b op b' H IH Hs]; intros l1 H1; [now rewrite app_nil_r|]. rewrite app_assoc. apply (bh_step fl b0 _ b); [now apply IH|exact Hs].
  Qed.
  Lemma grows_trans a b c : grows a b -> grows b c -> grows a c.
  Proof. intros [l1 H1] [l2 H2]. exists (l1 ++ l2). exact (bhist_app _ _ _ _ H2 _ H1). Qed.
  Lemma grows_one b op b' : bstep fl b op b' -> grows b b'.
  Proof. intro H. exists ([] ++ [op]). apply (bh_step fl b [] b); [constructor|exact H]. Qed.
  Lemma grows_freqs b f fs b' : result_freqs fl b f = Ok (fs, b') -> grows b b'.
  Proof. intro H. apply freqs_prefix in H as (r & H & _). apply (grows_one _ BFreqs). now exists r. Qed.
  Lemma grows_put b p d q fs T o n d' : hget fl b p = Ok d -> parse_weighted fl d q fs T [] = Ok (o, n, d') -> grows b (hput fl b p d').
  Proof. intros H1 H2. apply (grows_one _ (BShared p q fs T)). now exists d, o, n, d'. Qed.
  Lemma the_dict_get z p d : the_dict fl z = Ok (p, d) -> hget fl (zb z) p = Ok d.
  Proof. unfold the_dict. destruct (zdict z) as [q|]; [|discriminate]. intro H. apply bind_ok in H as (d1 & H1 & H). now injection H as -> ->. Qed.

  Lemma sstep_grows z op z' : sstep fl z op z' -> grows (zb z) (zb z').
  Proof.
    destruct op as [e s|s|]; cbn [sstep].
    - unfold s_accept. destruct (encode (zcoder z) s) as [q c]. intro H. apply bind_ok in H as (b & Ha & H). injection H as <-. now apply (grows_one _ (BAccept e q)).
    - intros [ids H]. unfold s_parse in H. apply bind_ok in H as (da & _ & H). apply bind_ok in H as ([p d] & Ht & H).
      apply bind_ok in H as ([[i n] d'] & Hw & H). injection H as _ <-. unfold put_dict. cbn [zb]. exact (grows_put _ _ _ _ _ _ _ _ _ (the_dict_get _ _ _ Ht) Hw).
    - unfold s_update. destruct (zdict z) as [q|].
      + destruct (Nat.eqb q (result_ptr fl (zb z))); [intros [= <-]; apply grows_refl|]. intro H. apply bind_ok in H as ([fs b] & Hf & H). injection H as <-. exact (grows_freqs _ _ _ _ Hf).
      + intro H. apply bind_ok in H as ([fs b] & Hf & H). injection H as <-. exact (grows_freqs _ _ _ _ Hf).
  Qed.
  Lemma shist_grows z ops z' : shist fl z ops z' -> grows (zb z) (zb z').
  Proof. induction 1 as [|ops z1 op z2 H IH Hs]; [apply grows_refl|]. exact (grows_trans _ _ _ IH (sstep_grows _ _ _ Hs)). Qed.
  Lemma recount_grows w fs : forall xs t z acc stop t' z' acc', recount fl w fs xs t z acc = Ok (stop, t', z', acc') -> grows (zb z) (zb z').
  Proof.
    induction xs as [|x xs IH]; intros t z acc stop t' z' acc' H; cbn [recount] in H; [injection H as _ _ <- _; apply grows_refl|].
    destruct (encode (zcoder z) x) as [q c]. apply bind_ok in H as ([p d] & Ht & H). apply bind_ok in H as ([[ids n] d'] & Hw & H).
    apply bind_ok in H as (acc1 & _ & H). pose proof (grows_put _ _ _ _ _ _ _ _ _ (the_dict_get _ _ _ Ht) Hw) as G.
    destruct (w_term w t); [injection H as _ _ <- _; exact G|]. exact (grows_trans _ _ _ G (IH _ _ _ _ _ _ _ H)).
  Qed.
  Lemma recompute_grows w xs t z t' z' : recompute_freqs fl w xs t z = Ok (t', z') -> grows (zb z) (zb z').
  Proof.
    unfold recompute_freqs. intro H. apply bind_ok in H as ([fs b] & Hf & H). apply bind_ok in H as ([[[stop t2] z2] acc] & Hr & H).
    injection H as _ <-. cbn [zb]. exact (grows_trans _ _ _ (grows_freqs _ _ _ _ Hf) (recount_grows _ _ _ _ _ _ _ _ _ _ Hr)).
  Qed.
  Lemma transform_grows w : forall xs t z r z', transform_loop fl w xs t z = Ok (r, z') -> grows (zb z) (zb z').
  Proof.
    induction xs as [|x xs IH]; intros t z r z' H; cbn [transform_loop] in H; [injection H as _ <-; apply grows_refl|].
    apply bind_ok in H as ([ids z1] & Hp & H). assert (G : grows (zb z) (zb z1)) by (apply (sstep_grows z (SParse x)); now exists ids).
    destruct (w_term w t); [injection H as _ <-; exact G|]. apply bind_ok in H as ([r2 z2] & H2 & H). injection H as _ <-. exact (grows_trans _ _ _ G (IH _ _ _ _ H2)).
  Qed.
  Lemma vstep_grows calls v op new v' : vstep fl calls v op new v' -> grows (zb (vs v)) (zb (vs v')).
  Proof.
    intro Hv. destruct op as [w xs|w xs|op]; cbn [vstep] in Hv.
    - destruct Hv as (ok & Hf & _). unfold fit in Hf. destruct (vfitted v).
      + destruct (vcomputed v); [injection Hf as _ <-; apply grows_refl|].
        apply bind_ok in Hf as ([t z] & Hr & Hf). injection Hf as _ <-. exact (recompute_grows _ _ _ _ _ _ Hr).
      + apply bind_ok in Hf as ([[stop t] z] & Hr & Hf).
        pose proof (rounds_prefix fl w xs (Z.to_nat (viter v)) 0 (vs v) stop t z Hr) as G. destruct G as [[-> Hs]|(-> & m & j & _ & _ & _ & Hs)]; apply shist_grows in Hs.
        * apply bind_ok in Hf as ([t2 z2] & Hr2 & Hf). injection Hf as _ <-. exact (grows_trans _ _ _ Hs (recompute_grows _ _ _ _ _ _ Hr2)).
        * injection Hf as _ <-. exact Hs.
    - destruct Hv as [[r Ht] _]. unfold transform in Ht. apply bind_ok in Ht as ([r2 z] & Hl & Ht). injection Ht as _ <-. exact (transform_grows _ _ _ _ _ _ Hl).
    - destruct Hv as (Hs & _). exact (sstep_grows _ _ _ Hs).
  Qed.

  Lemma grows_heap b b' : heap_wf fl b -> grows b b' -> heap_wf fl b' /\ forall p d, hget fl b p = Ok d -> exists d', hget fl b' p = Ok d' /\ extends_by_symbols (seqs d) (seqs d').
  Proof.
    intros W [ops H]. induction H as [|ops b1 op b2 H [IH1 IH2] Hs].
    - split; [exact W|]. intros p d Hd. exists d. split; [exact Hd|apply ext_refl].
    - split; [exact (heap_wf_step fl _ _ _ IH1 Hs)|]. intros p d Hd. destruct (IH2 p d Hd) as (d1 & H1 & E1).
      destruct (heap_step fl _ _ _ _ _ IH1 Hs H1) as (d2 & H2 & E2). exists d2. split; [exact H2|exact (ext_trans _ _ _ E1 E2)].
  Qed.
  Lemma new_wf size : heap_wf fl (new_builder fl size).
  Proof.
    split; [|cbn; lia]. constructor; [|constructor]. cbn. apply full_wf. pose proof (fresh_full fl size) as H. unfold hfull in H. cbn in H. now inversion_clear H.
  Qed.
End C.

Section P.
  Context (fl : fops) (L : flaws fl) (size N : Z).
  Notation msim := (msim fl size N).

  (** All the objects stand for one history of the builder. *)
  Definition pool (calls : list (sop fl)) (c : copies fl) : Prop :=
    (exists bops, forall o, In o (c_parts c) -> msim calls (vs (object fl c o)) bops) /\ c_parts c <> [].

  Lemma handled_mono calls new : (handled fl calls <= handled fl (calls ++ new))%Z.
  Proof. rewrite handled_app. pose proof (handled_nonneg fl new). lia. Qed.
  Lemma updates_mono calls new : (updates fl calls <= updates fl (calls ++ new))%Z.
  Proof. unfold updates. rewrite filter_app, app_length. lia. Qed.

  (** An object that is not called: its own part is as before. *)
  Lemma msim_other calls new z bops z' bops' : msim calls z bops -> msim (calls ++ new) z' bops' -> (0 <= N)%Z -> length (bheap (zb z)) <= length (bheap (zb z')) ->
    msim (calls ++ new) (mkStream (zsize z) (zb z') (zdict z) (zcoder z') (zfreqs z) (ztotal z) (zminp z)) bops'.
  Proof.
    intros S S' HN Hh. pose proof (handled_mono calls new). pose proof (updates_mono calls new).
    assert (Hu : (updates fl calls * (kmax + N) <= updates fl (calls ++ new) * (kmax + N))%Z) by (apply Z.mul_le_mono_nonneg_r; [unfold kmax; lia|assumption]).
    split; cbn [zb zcoder zdict zfreqs ztotal]; try apply S'.
    - intros p Hp. pose proof (ms_dict _ _ _ _ _ _ S p Hp). lia.
    - apply S.
    - pose proof (ms_sum _ _ _ _ _ _ S). lia.
    - pose proof (ms_total _ _ _ _ _ _ S). lia.
  Qed.
  Lemma upd_in {A} (l : list A) i a x : In x (upd l i a) -> x = a \/ In x l.
  Proof.
    revert i. induction l as [|y l IH]; intros [|i] H; cbn [upd] in H; try easy.
    - destruct H as [<-|H]; [now left|right; now right].
    - destruct H as [<-|H]; [right; now left|]. destruct (IH i H) as [->|H']; [now left|right; now right].
  Qed.
  Lemma upd_nonempty {A} (l : list A) i a : l <> [] -> upd l i a <> [].
  Proof. intros H E. apply H. apply length_zero_iff_nil. rewrite <- (upd_length l i a), E. reflexivity. Qed.
  Lemma grows_length b b' : heap_wf fl b -> grows fl b b' -> length (bheap b) <= length (bheap b').
  Proof.
    intros W G. destruct (grows_heap fl _ _ W G) as [_ Hg]. destruct (Nat.le_gt_cases (length (bheap b)) (length (bheap b'))) as [|Hlt]; [easy|].
    destruct (nth_lt _ _ Hlt) as [d Hd]. destruct (Hg _ d (vget_some _ _ _ Hd)) as (d' & Hd' & _). unfold hget in Hd'. apply vget_ok in Hd'. apply nth_some_lt in Hd'. lia.
  Qed.

  Lemma pool_step calls c op new c' : pool calls c -> heap_wf fl (c_builder c) -> normal fl N (calls ++ new) -> cstep fl calls c op new c' ->
    pool (calls ++ new) c' /\ grows fl (c_builder c) (c_builder c').
  Proof.
    intros [[bops S] Hne] W Hn Hs. pose proof Hn as (_ & ((HN & _) & _)). destruct op as [i|i j|i op]; cbn [cstep] in Hs.
    - destruct Hs as [Hs ->]. rewrite app_nil_r. unfold copy in Hs. apply bind_ok in Hs as (o & Ho & Hs). injection Hs as <-. split; [|apply grows_refl].
      split; [|cbn [c_parts]; intro E; apply app_eq_nil in E as [_ E]; discriminate E]. exists bops. cbn [c_parts]. intros o' Hi. apply (S o'). apply in_app_or in Hi as [Hi|[<-|[]]]; [exact Hi|].
      apply vget_ok in Ho. now apply nth_error_In in Ho.
    - destruct Hs as [Hs ->]. rewrite app_nil_r. unfold assign in Hs. apply bind_ok in Hs as (o1 & _ & Hs). apply bind_ok in Hs as (o & Ho & Hs). injection Hs as <-. split; [|apply grows_refl].
      split; [|now apply upd_nonempty]. exists bops. cbn [c_parts]. intros o' Hi. apply (S o'). apply upd_in in Hi as [->|Hi]; [|exact Hi].
      apply vget_ok in Ho. now apply nth_error_In in Ho.
    - destruct Hs as (o & v & Ho & Hv & ->). pose proof (S o (nth_error_In _ _ Ho)) as So.
      pose proof (vstep_grows fl _ _ _ _ _ Hv) as G. split; [|exact G].
      destruct (vstep_sim fl L size N _ _ _ _ _ _ So Hn Hv) as [bops' S']. split; [|now apply upd_nonempty]. exists bops'. cbn [after_call c_parts]. intros o' Hi.
      apply upd_in in Hi as [->|Hi].
      + destruct v as [z it f g]. destruct z. exact S'.
      + exact (msim_other _ _ _ _ _ _ (S o' Hi) S' HN (grows_length _ _ W G)).
  Qed.

  Lemma pool_hist iter ops calls c : chist fl (alone fl (new_vgram fl size iter)) ops calls c -> normal fl N calls ->
    pool calls c /\ heap_wf fl (c_builder c).
  Proof.
    induction 1 as [|ops calls c op new c' H IH Hs]; intro Hn.
    - split; [|apply new_wf]. split; [|discriminate]. destruct (vhist_sim fl L size N iter [] [] (new_vgram fl size iter) (vh_nil _ _) Hn) as [bops S]. exists bops.
      intros o [<-|[]]. exact S.
    - destruct (IH (normal_app fl N _ _ Hn)) as [P W]. destruct (pool_step _ _ _ _ _ P W Hn Hs) as [P' G]. split; [exact P'|].
      now destruct (grows_heap fl _ _ W G).
  Qed.

  (** ** What holds of each object *)
  Lemma alphabet_dict c i al : c_alphabet fl c i = Ok al -> exists o, nth_error (c_parts c) i = Some o /\ s_alphabet fl (vs (object fl c o)) = Ok al /\ zdict (vs (object fl c o)) <> None.
  Proof.
    unfold c_alphabet. intro H. apply bind_ok in H as (o & Ho & H). exists o. split; [now apply vget_ok|]. split; [exact H|].
    intro E. unfold s_alphabet, the_dict in H. rewrite E in H. discriminate H.
  Qed.
  Lemma after_alphabet c i o z : nth_error (c_parts c) i = Some o -> c_alphabet fl (after_call fl c i (on_stream fl (object fl c o) z)) i = s_alphabet fl z.
  Proof.
    intro Ho. unfold c_alphabet, after_call. cbn [c_parts]. rewrite (vget_some _ _ _ (upd_same _ _ _ (nth_some_lt _ _ _ Ho))). cbn [bind]. now destruct z.
  Qed.
  Lemma after_freqs c i o z : nth_error (c_parts c) i = Some o -> c_freqs fl (after_call fl c i (on_stream fl (object fl c o) z)) i = Ok (s_freqs fl z).
  Proof.
    intro Ho. unfold c_freqs, after_call. cbn [c_parts]. rewrite (vget_some _ _ _ (upd_same _ _ _ (nth_some_lt _ _ _ Ho))). cbn [bind]. now destruct z.
  Qed.

  Lemma copies_parse iter ops calls c i s al : chist fl (alone fl (new_vgram fl size iter)) ops calls c -> normal fl N (calls ++ [SParse s]) ->
    (Z.of_nat (length s) <= 2 ^ 40)%Z -> c_alphabet fl c i = Ok al ->
    exists ids c' al', c_parse fl c i s = Ok (ids, c') /\ c_alphabet fl c' i = Ok al' /\ spells al' ids (restrict (seen fl calls) s) /\ extends_by_symbols al al'.
  Proof.
    intros H Hn Hl Ha. destruct (pool_hist _ _ _ _ H (normal_snoc _ _ _ _ Hn)) as [[[bops S] _] _]. destruct (alphabet_dict _ _ _ Ha) as (o & Ho & Hal & Hd).
    destruct (ms_parse fl L size N _ _ _ s (S o (nth_error_In _ _ Ho)) Hn Hd Hl) as (ids & z' & al1 & al' & Hp & Ha1 & Ha2 & Hsp & Hx).
    rewrite Hal in Ha1. injection Ha1 as <-. exists ids, (after_call fl c i (on_stream fl (object fl c o) z')), al'.
    split; [unfold c_parse; rewrite (vget_some _ _ _ Ho); cbn [bind]; now rewrite Hp|]. split; [now rewrite after_alphabet|]. now split.
  Qed.
  Lemma copies_words iter ops calls c i al : chist fl (alone fl (new_vgram fl size iter)) ops calls c -> normal fl N calls -> c_alphabet fl c i = Ok al ->
    forall w, In w al -> w <> [] /\ occurs (fed fl calls) w.
  Proof.
    intros H Hn Ha. destruct (pool_hist _ _ _ _ H Hn) as [[[bops S] _] _]. destruct (alphabet_dict _ _ _ Ha) as (o & Ho & Hal & Hd).
    destruct (ms_words fl L size N _ _ _ (S o (nth_error_In _ _ Ho)) Hn Hd) as (al1 & Ha1 & G). rewrite Hal in Ha1. now injection Ha1 as <-.
  Qed.
  Lemma copies_train iter ops calls c i o : chist fl (alone fl (new_vgram fl size iter)) ops calls c -> nth_error (c_parts c) i = Some o ->
    (forall e s, normal fl N (calls ++ [SAccept e s]) -> roomy fl size (calls ++ [SAccept e s]) -> exists c', c_accept fl e c i s = Ok c') /\
    (normal fl N (calls ++ [SUpdate]) -> exists c' al, c_update fl c i = Ok c' /\ c_alphabet fl c' i = Ok al).
  Proof.
    intros H Ho. split.
    - intros e s Hn Hr. destruct (pool_hist _ _ _ _ H (normal_snoc _ _ _ _ Hn)) as [[[bops S] _] _].
      destruct (updated_safe fl L size N _ _ _ _ _ (S o (nth_error_In _ _ Ho)) Hn Hr) as [z' E]. unfold c_accept. rewrite (vget_some _ _ _ Ho). cbn [bind]. rewrite E. now eexists.
    - intro Hn. destruct (pool_hist _ _ _ _ H (normal_snoc _ _ _ _ Hn)) as [[[bops S] _] _]. pose proof (S o (nth_error_In _ _ Ho)) as So.
      destruct (ms_update fl L size N _ _ _ So Hn) as (z' & E & Hd & _).
      destruct (msim_op fl L size N _ _ _ SUpdate z' So Hn E) as [bops' S'].
      destruct (ms_words fl L size N _ _ _ S' Hn Hd) as (al & Hal & _).
      exists (after_call fl c i (on_stream fl (object fl c o) z')), al. split; [unfold c_update; rewrite (vget_some _ _ _ Ho); cbn [bind]; now rewrite E|]. now rewrite after_alphabet.
  Qed.

  (** The words of a dictionary that only gained symbols, decoded by a coder that only learned symbols. *)
  Lemma decw_prefix S r w : in_range S w -> decw (S ++ r) w = decw S w.
  Proof.
    intro H. apply map_ext_in. intros k Hk. specialize (H k Hk). apply app_nth1. lia.
  Qed.
  Lemma symbols_prefix calls new : exists r, symbols_of fl [] (calls ++ new) = symbols_of fl [] calls ++ r.
  Proof. unfold symbols_of. rewrite seen_app, adds_app. apply adds_ext. Qed.

  Lemma copies_others iter ops calls c op new c' i o : chist fl (alone fl (new_vgram fl size iter)) ops calls c -> cstep fl calls c op new c' -> normal fl N (calls ++ new) ->
    nth_error (c_parts c) i = Some o -> ~ changes fl op i ->
    c_freqs fl c' i = c_freqs fl c i /\
    (forall al, c_alphabet fl c i = Ok al -> exists al', c_alphabet fl c' i = Ok al' /\ extends_by_symbols al al').
  Proof.
    intros H Hs Hn Ho Hc. destruct (pool_hist _ _ _ _ H (normal_app fl N _ _ Hn)) as [P W]. destruct (pool_step _ _ _ _ _ P W Hn Hs) as [[[bops' S'] _] G].
    destruct P as [[bops S] _]. pose proof (S o (nth_error_In _ _ Ho)) as So.
    assert (Ho' : nth_error (c_parts c') i = Some o).
    { destruct op as [k|k j|k op]; cbn [cstep changes] in *.
      - destruct Hs as [Hs _]. unfold copy in Hs. apply bind_ok in Hs as (o1 & _ & Hs). injection Hs as <-. cbn [c_parts]. rewrite nth_error_app1; [exact Ho|now apply nth_some_lt in Ho].
      - destruct Hs as [Hs _]. unfold assign in Hs. apply bind_ok in Hs as (o1 & _ & Hs). apply bind_ok in Hs as (o2 & _ & Hs). injection Hs as <-. cbn [c_parts]. now rewrite upd_other.
      - destruct Hs as (o1 & v & _ & _ & ->). cbn [after_call c_parts]. now rewrite upd_other. }
    split; [unfold c_freqs; rewrite (vget_some _ _ _ Ho), (vget_some _ _ _ Ho'); reflexivity|]. intros al Ha.
    destruct (alphabet_dict _ _ _ Ha) as (o1 & Ho1 & Hal & Hd). rewrite Ho in Ho1. injection Ho1 as <-.
    pose proof (S' o (nth_error_In _ _ Ho')) as So'. unfold c_alphabet. rewrite (vget_some _ _ _ Ho'). cbn [bind].
    destruct (zdict (vs (object fl c o))) as [p|] eqn:Ep; [|congruence]. cbn [object vs zdict] in Ep.
    destruct (nth_lt _ _ (ms_dict _ _ _ _ _ _ So p Ep)) as [d Hg]. destruct (grows_heap fl _ _ W G) as [_ Hgr].
    destruct (Hgr p d (vget_some _ _ _ Hg)) as (d' & Hg' & [cs Hx]).
    rewrite (ms_alphabet fl L size N _ _ _ p d So (normal_app fl N _ _ Hn) Ep (vget_some _ _ _ Hg)) in Hal. injection Hal as <-.
    exists (map (decw (symbols_of fl [] (calls ++ new))) (seqs d')). split; [exact (ms_alphabet fl L size N _ _ _ p d' So' Hn Ep Hg')|].
    destruct (symbols_prefix calls new) as [r Er]. rewrite Hx, map_app.
    exists (map (fun k => nth (Z.to_nat k) (symbols_of fl [] (calls ++ new)) 0%Z) cs). f_equal; [|now rewrite !map_map].
    apply map_ext_in. intros w Hw. rewrite Er. apply decw_prefix.
    now destruct (ms_range fl L size N _ _ _ d w So (normal_app fl N _ _ Hn) (nth_error_In _ _ Hg) Hw) as (_ & Hr & _).
  Qed.
End P.

(** Objects updated at the same moment get the same words: what was learned is common. *)
Lemma update_result fl z z' : s_update fl z = Ok z' -> zdict z' = Some (result_ptr fl (zb z)) /\ bheap (zb z') = bheap (zb z) /\ zcoder z' = zcoder z.
Proof.
  assert (G : forall f fs b, result_freqs fl (zb z) f = Ok (fs, b) -> bheap b = bheap (zb z)).
  { intros f fs b H. unfold result_freqs in H. apply bind_ok in H as (d & _ & H). destruct (bres (zb z)); now injection H as _ <-. }
  unfold s_update. destruct (zdict z) as [q|] eqn:E.
  - destruct (Nat.eqb_spec q (result_ptr fl (zb z))) as [->|_]; [intros [= <-]; now rewrite E|]. intro H. apply bind_ok in H as ([fs b] & Hf & H). injection H as <-. split; [easy|]. split; [exact (G _ _ _ Hf)|easy].
  - intro H. apply bind_ok in H as ([fs b] & Hf & H). injection H as <-. split; [easy|]. split; [exact (G _ _ _ Hf)|easy].
Qed.
Lemma copies_same fl (c : copies fl) i j c1 c2 : c_update fl c i = Ok c1 -> c_update fl c j = Ok c2 -> c_alphabet fl c1 i = c_alphabet fl c2 j.
Proof.
  assert (G : forall i c1, c_update fl c i = Ok c1 -> c_alphabet fl c1 i = (d <- vget (bheap (c_builder c)) (result_ptr fl (c_builder c)) ;; decode_all (c_coder c) (seqs d))).
  { clear. intros i c1 H. unfold c_update in H. apply bind_ok in H as (o & Ho & H). apply bind_ok in H as (z & Hz & H). injection H as <-. apply vget_ok in Ho.
    rewrite after_alphabet by exact Ho. apply update_result in Hz as (E1 & E2 & E3). unfold s_alphabet, the_dict, hget. rewrite E1, E2, E3. cbn [object vs zb zcoder].
    now destruct (vget (bheap (c_builder c)) (result_ptr fl (c_builder c))). }
  intros H1 H2. now rewrite (G _ _ H1), (G _ _ H2).
Qed.
