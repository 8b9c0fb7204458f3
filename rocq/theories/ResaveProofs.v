(** ResaveProofs: lemmas behind C69 (update twice), C70 (files of loaded models), C71 (training a loaded model). *)
From Coq Require Import Ascii String.
From Verif Require Import Base Spec FloatOps FloatLaws ModelDict ModelCoder ModelTok Maps ModelStat ModelBuilder ModelStream ModelVGram ModelString ModelJson ModelPersist
  DictProofs CoderProofs TokProofs SpecStat SpecBuilder StatProofs RunProofs LearnProofs BuilderProofs BuilderSafe BuilderOwn PropsDictLemmas PropsStatLemmas ReachProofs PropsBuilderLemmas StreamProofs VGramProofs PropsStreamLemmas PropsVGramLemmas
  PersistProofs PropsPersistLemmas TextPersist SpecTok SpecJson SpecStream SpecVGram SpecString SpecPersist SpecResave.
Local Open Scope list_scope.

(** ** C69 *)
Section U.
  Context (fl : fops).
  Lemma freqs_result (b : builder fl) fs fs' b' : result_freqs fl b fs = Ok (fs', b') -> result_ptr fl b' = result_ptr fl b /\ length (bheap b') = length (bheap b).
  Proof.
    unfold result_freqs. intro H. apply bind_ok in H as (d & _ & H). unfold result_ptr.
    destruct (bres b) as [| |p st]; injection H as _ <-; now cbn [bres bptr bheap].
  Qed.
  Lemma update_points z z' : s_update fl z = Ok z' -> zdict z' = Some (result_ptr fl (zb z')) /\ length (bheap (zb z')) = length (bheap (zb z)).
  Proof.
    unfold s_update. intro H. destruct (zdict z) as [q|] eqn:Eq.
    - destruct (Nat.eqb_spec q (result_ptr fl (zb z))) as [E|_].
      + injection H as <-. split; [now rewrite Eq, E|reflexivity].
      + apply bind_ok in H as ([fs b] & E & [= <-]). destruct (freqs_result _ _ _ _ E) as [E1 E2]. cbn [zdict zb]. now rewrite E1, E2.
    - apply bind_ok in H as ([fs b] & E & [= <-]). destruct (freqs_result _ _ _ _ E) as [E1 E2]. cbn [zdict zb]. now rewrite E1, E2.
  Qed.
  Lemma pointing_update z : zdict z = Some (result_ptr fl (zb z)) -> s_update fl z = Ok z.
  Proof. intro H. unfold s_update. now rewrite H, Nat.eqb_refl. Qed.
  Lemma update_twice z z' : s_update fl z = Ok z' -> s_update fl z' = Ok z'.
  Proof. intro H. apply pointing_update. exact (proj1 (update_points z z' H)). Qed.
  Lemma update_same_dict z z' : s_update fl z = Ok z' -> zdict z' = zdict z -> z' = z.
  Proof.
    intros H E. pose proof (update_points z z' H) as [P _]. unfold s_update in H. rewrite <- E, P in H.
    destruct (zdict z) as [q|] eqn:Eq; [|congruence]. destruct (Nat.eqb_spec (result_ptr fl (zb z')) (result_ptr fl (zb z))) as [G|G].
    - now injection H as <-.
    - exfalso. apply bind_ok in H as ([fs b] & R & H). destruct (freqs_result _ _ _ _ R) as [E1 _]. injection H as H. subst z'. cbn [zb] in G. congruence.
  Qed.
  (** A step that makes no dictionary keeps the result of the builder. *)
  Lemma step_keeps z op z' : sstep fl z op z' -> (length (bheap (zb z)) <= length (bheap (zb z')))%nat /\
    (length (bheap (zb z')) = length (bheap (zb z)) -> result_ptr fl (zb z') = result_ptr fl (zb z)).
  Proof.
    destruct op as [e s|s|]; cbn [sstep].
    - unfold s_accept. destruct (encode (zcoder z) s) as [q c]. intro H. apply bind_ok in H as (b & H & [= <-]). cbn [zb].
      apply (accept_cases fl) in H as (d2 & ids2 & n & d3 & st3 & Hd & Hp2 & Hc).
      destruct Hc as [[_ ->]|(_ & ws & fs & mp & d4 & st4 & prob & best & turns & _ & _ & ->)].
      + unfold parsed, result_ptr. cbn [bheap bres bptr]. rewrite upd_length. split; [lia|reflexivity].
      + cbn [bheap]. unfold parsed. cbn [bheap]. rewrite app_length, upd_length. cbn [length]. split; [lia|]. intro E. exfalso. lia.
    - intros (ids & H). unfold s_parse in H. apply bind_ok in H as (a & _ & H). apply bind_ok in H as ([p d] & _ & H).
      apply bind_ok in H as ([[i n] d'] & _ & [= _ <-]). unfold put_dict, hput, result_ptr. cbn [zb bheap bres bptr]. rewrite upd_length. split; [lia|reflexivity].
    - intro H. pose proof (update_points z z' H) as [_ E]. split; [lia|]. intros _. unfold s_update in H. destruct (zdict z) as [q|].
      + destruct (Nat.eqb q (result_ptr fl (zb z))); [now injection H as <-|]. apply bind_ok in H as ([fs b] & R & [= <-]). exact (proj1 (freqs_result _ _ _ _ R)).
      + apply bind_ok in H as ([fs b] & R & [= <-]). exact (proj1 (freqs_result _ _ _ _ R)).
  Qed.
  Lemma step_stale z op z' : sstep fl z op z' -> zdict z = Some (result_ptr fl (zb z)) -> zdict z' = zdict z /\ s_freqs fl z' = s_freqs fl z.
  Proof.
    destruct op as [e s|s|]; cbn [sstep].
    - unfold s_accept. destruct (encode (zcoder z) s) as [q c]. intro H. apply bind_ok in H as (b & H & [= <-]). now cbn.
    - intros (ids & H) _. unfold s_parse in H. apply bind_ok in H as (a & _ & H). apply bind_ok in H as ([p d] & _ & H).
      apply bind_ok in H as ([[i n] d'] & _ & [= _ <-]). now cbn.
    - intros H P. rewrite (pointing_update z P) in H. now injection H as <-.
  Qed.
  Lemma hist_heap z0 ops z : shist fl z0 ops z -> (length (bheap (zb z0)) <= length (bheap (zb z)))%nat.
  Proof. induction 1 as [|ops z op z' H IH Hs]; [lia|]. pose proof (proj1 (step_keeps _ _ _ Hs)). lia. Qed.
  Lemma stale z z1 ops z2 : s_update fl z = Ok z1 -> shist fl z1 ops z2 -> length (bheap (zb z2)) = length (bheap (zb z1)) ->
    s_update fl z2 = Ok z2 /\ s_freqs fl z2 = s_freqs fl z1 /\ zdict z2 = zdict z1.
  Proof.
    intros Hu H. pose proof (proj1 (update_points z z1 Hu)) as P. intro E.
    assert (G : zdict z2 = Some (result_ptr fl (zb z2)) /\ s_freqs fl z2 = s_freqs fl z1 /\ zdict z2 = zdict z1).
    { induction H as [|ops z2 op z3 H IH Hs]; [easy|]. pose proof (hist_heap _ _ _ H) as L1. pose proof (step_keeps _ _ _ Hs) as [L2 K].
      destruct IH as (P2 & F2 & D2); [lia|]. destruct (step_stale _ _ _ Hs P2) as [D3 F3]. rewrite D3, P2, F3, K by lia. split; [reflexivity|]. split; [exact F2|congruence]. }
    split; [exact (pointing_update z2 (proj1 G))|exact (proj2 G)].
  Qed.
End U.

(** ** C70 *)
Section R.
  Context (fl : fops) (L : flaws fl) (io : float_io (F fl)).
  Lemma codes_cover S ws s : NoDup S -> (forall w, In w ws -> in_range S w) -> covers (map (decw S) ws) s -> covers ws (enc S s).
  Proof.
    intros Hn Hr H. intros k Hk. apply in_map_iff in Hk as (c & <- & Hc). specialize (H c Hc). apply in_map_iff in H as (w & E & Hw). pose proof (Hr w Hw) as Hrw.
    destruct w as [|k [|k' w]]; try discriminate E. cbn in E. injection E as E. pose proof (Hrw k ltac:(now left)) as Hk.
    assert (Hnth : nth_error S (Z.to_nat k) = Some c) by (rewrite <- E; apply nth_error_nth'; lia).
    rewrite (pos_of_unique S c (Z.to_nat k) Hn Hnth), Z2Nat.id by lia. exact Hw.
  Qed.
  Lemma parse_keeps S z p d s ids z' : coder_like S (zcoder z) -> zdict z = Some p -> hget fl (zb z) p = Ok d -> full_dict d ->
    covers (seqs d) (enc S (restrict S s)) -> s_parse fl z s = Ok (ids, z') -> z' = z.
  Proof.
    intros C Ep Hg Hf Hc H. unfold s_parse, the_dict in H. rewrite (like_immutable S _ s C), Ep, Hg in H. apply bind_ok in H as (a & _ & H). cbn [bind] in H.
    apply bind_ok in H as ([[i n] d'] & Hp & [= _ <-]). rewrite (parse_known fl d _ _ _ [] i n d' Hf Hc Hp). now apply put_same.
  Qed.
  Lemma int_copies size N ops z al : shist fl (new_stream fl size) ops z -> normal fl N ops -> roomy fl size ops ->
    calm fl [] (new_stream fl size) ops -> s_alphabet fl z = Ok al -> length (s_freqs fl z) = length al ->
    int32 size -> Forall int32 (seen fl ops) -> Forall int32 (s_freqs fl z) -> minp_exact fl io z ->
    exists file, forall z', copies fl io (seen fl ops) al z z' -> save_stream fl io true z' = Ok file /\ same_stream fl z z'.
  Proof.
    intros H Hn Hr Hc Hal Hl Hs Hsy Hf Hm. destruct (fresh_tidy fl L size N ops z al H Hn Hr Hc Hal) as (p & d & x & T & Ea).
    destruct (fresh_stream_back fl L io size N ops z al H Hn Hr Hc Hal Hl Hs Hsy Hf Hm) as (file & z' & Hsv & Hld & Hsame & Hali).
    set (S := adds [] (seen fl ops)) in *.
    assert (Hsv' : save_stream fl io true z' = Ok file).
    { rewrite <- Hsv, !save_stream_any. pose proof Hsame as (S1 & S2 & _).
      exact (alike_save fl io S z z' None None None al (td_nodup _ _ _ _ _ _ T) Hali S1 S2 Hal I). }
    exists file. assert (G : forall z1, copies fl io (seen fl ops) al z z1 -> z1 = z \/ z1 = z').
    { induction 1 as [|z1 s ids z2 _ IH Hcov Hp|z1 f z2 _ IH Hs1 Hl1]; [now left| |].
      - assert (Er : restrict (seen fl ops) s = restrict S s).
        { apply restrict_ext. intro c. unfold S. rewrite adds_in. split; [now right|now intros [[]|]]. }
        rewrite Er in Hcov. rewrite Ea in Hcov. pose proof (codes_cover S (seqs d) _ (td_nodup _ _ _ _ _ _ T) (td_range _ _ _ _ _ _ T) Hcov) as Hcd.
        destruct IH as [->| ->].
        + left. exact (parse_keeps S z p d s ids z2 (td_coder _ _ _ _ _ _ T) (td_dict _ _ _ _ _ _ T) (td_get _ _ _ _ _ _ T) (td_full _ _ _ _ _ _ T) Hcd Hp).
        + right. destruct (ak_dict _ _ _ _ Hali) as (q & q' & e & D1 & D2 & G1 & G2).
          assert (e = d). { rewrite (td_dict _ _ _ _ _ _ T) in D1. injection D1 as <-. rewrite (td_get _ _ _ _ _ _ T) in G1. now injection G1 as <-. } subst e.
          exact (parse_keeps S z' q' d s ids z2 (ak_coder' _ _ _ _ Hali) D2 G2 (td_full _ _ _ _ _ _ T) Hcd Hp).
      - right. assert (E : f = file) by (destruct IH as [->| ->]; congruence). subst f. congruence. }
    intros z1 H1. destruct (G z1 H1) as [->| ->]; [|now split]. split; [exact Hsv|].
    unfold same_stream. repeat split; reflexivity.
  Qed.

  Lemma loop_freqs w : forall xs t z r z', transform_loop fl w xs t z = Ok (r, z') -> zfreqs z' = zfreqs z.
  Proof.
    induction xs as [|x xs IH]; intros t z r z' H; cbn [transform_loop] in H; [now injection H as _ <-|]. apply bind_ok in H as ([ids z1] & Hp & H).
    assert (E : zfreqs z1 = zfreqs z).
    { unfold s_parse in Hp. apply bind_ok in Hp as (a & _ & Hp). apply bind_ok in Hp as ([p d] & _ & Hp). apply bind_ok in Hp as ([[i n] d'] & _ & [= _ <-]). reflexivity. }
    destruct (w_term w t); [now injection H as _ <-|]. apply bind_ok in H as ([r1 z2] & Hr & H). injection H as _ <-. now rewrite (IH _ _ _ _ Hr).
  Qed.
  Lemma transform_freqs w v xs r v' : tv_transform fl true w v xs = Ok (r, v') -> s_freqs fl (vs (tv v')) = s_freqs fl (vs (tv v)).
  Proof.
    unfold tv_transform. intro H. apply bind_ok in H as ([ids tk] & _ & H). apply bind_ok in H as ([l v1] & Ht & H).
    unfold transform in Ht. apply bind_ok in Ht as ([l' z] & Hl & Ht). injection Ht as _ <-. unfold s_freqs. rewrite <- (loop_freqs _ _ _ _ _ _ Hl).
    repeat match goal with H : bind _ _ = Ok _ |- _ => apply bind_ok in H as (? & _ & H) end. now injection H as _ <-.
  Qed.
  Lemma copied_text size N iter w texts data tk ops al : tok_transform_all true (new_tok CharTok) texts = Ok (data, tk) ->
    good_fit fl size N [] w (new_vgram fl size iter) data ops al -> int32 size ->
    exists v, tv_fit fl true w (new_tvgram fl size iter) texts = Ok v /\
    (Forall int32 (tv_freqs fl v) -> minp_exact fl io (vs (tv v)) ->
    exists file words, forall v', text_copies fl io v v' ->
      save_tvgram fl io true v' = Ok file /\ tv_alphabet fl v' = Ok words /\ tv_freqs fl v' = tv_freqs fl v /\
      forall w' ys, (forall y, In y ys -> ascii_text y /\ (Z.of_nat (length y) <= 2 ^ 40)%Z) ->
        exists outs v1 v1', tv_transform fl true w' v ys = Ok (outs, v1) /\ tv_transform fl true w' v' ys = Ok (outs, v1')).
  Proof.
    intros Et G Hsz. destruct (text_again fl L io size N iter w texts data tk ops al Et G Hsz) as (v & Hf & H). exists v. split; [exact Hf|]. intros H2 H3.
    destruct (H v (tf_refl _ _) H2 H3) as (file & w1 & Hsv & Hld & Hfr & _ & _ & K). exists file.
    destruct (K v w1 (tf_refl _ _) (tf_refl _ _)) as (_ & (words & Wv & Ww) & Tr). exists words.
    assert (Q : forall v', text_copies fl io v v' -> (transformed fl v v' \/ transformed fl w1 v') /\ tv_freqs fl v' = tv_freqs fl v).
    { induction 1 as [|v1 w2 xs r v2 _ [IH E] Hx Ht|v1 f v2 _ [IH E] Hs Hl].
      - split; [left; constructor|reflexivity].
      - split; [destruct IH as [IH|IH]; [left|right]; exact (tf_step _ _ _ _ _ _ _ IH Hx Ht)|].
        rewrite <- E. unfold tv_freqs. exact (transform_freqs w2 v1 xs r v2 Ht).
      - assert (f = file). { destruct IH as [IH|IH]; [destruct (K v1 w1 IH (tf_refl _ _)) as ((A & _) & _)|destruct (K v v1 (tf_refl _ _) IH) as ((_ & A) & _)]; congruence. }
        subst f. assert (v2 = w1) by congruence. subst v2. split; [right; constructor|exact Hfr]. }
    intros v' Hv'. destruct (Q v' Hv') as [[T|T] E].
    - destruct (K v' w1 T (tf_refl _ _)) as ((A & _) & (ws & W1 & W2) & Tr1). split; [exact A|]. split; [congruence|]. split; [exact E|].
      intros w' ys Hys. destruct (Tr w' ys Hys) as (o & a & b & O1 & O2), (Tr1 w' ys Hys) as (o' & a' & b' & O1' & O2').
      rewrite O2 in O2'. injection O2' as <- _. now exists o, a, a'.
    - destruct (K v v' (tf_refl _ _) T) as ((_ & A) & (ws & W1 & W2) & Tr1). split; [exact A|]. split; [congruence|]. split; [exact E|]. exact Tr1.
  Qed.
End R.

(** ** C71 *)
Section T.
  Context (fl : fops) (io : float_io (F fl)).
  Lemma recount_ext w w' fs : (forall k, w_term w k = w_term w' k) -> forall xs t z acc, recount fl w fs xs t z acc = recount fl w' fs xs t z acc.
  Proof.
    intro Hw. induction xs as [|x xs IH]; intros t z acc; [reflexivity|]. cbn [recount]. destruct (encode (zcoder z) x) as [q c].
    destruct (the_dict fl z) as [[p d]| | |]; try reflexivity. cbn [bind]. destruct (parse_weighted fl d q fs (fofZ fl (isum fs)) []) as [[[ids n] d']| | |]; try reflexivity.
    cbn [bind]. destruct (foldM _ ids acc) as [acc'| | |]; try reflexivity. cbn [bind]. now rewrite Hw, IH.
  Qed.
  Lemma recompute_ext w w' xs t z : (forall k, w_term w k = w_term w' k) -> recompute_freqs fl w xs t z = recompute_freqs fl w' xs t z.
  Proof.
    intro Hw. unfold recompute_freqs. destruct (result_freqs fl (zb z) []) as [[fs b]| | |]; try reflexivity. cbn [bind]. now rewrite (recount_ext w w' fs Hw).
  Qed.
  Lemma no_rounds v w w' xs : viter v = 0%Z -> (forall k, w_term w k = w_term w' k) -> fit fl w v xs = fit fl w' v xs.
  Proof.
    intros Hi Hw. unfold fit. rewrite Hi. cbn [Z.to_nat rounds bind]. destruct (vfitted v); [destruct (vcomputed v); [reflexivity|]|]; now rewrite (recompute_ext w w' xs _ _ Hw).
  Qed.
  Lemma loaded_iter file v : load_vgram fl io file = Ok v -> viter v = 0%Z.
  Proof.
    unfold load_vgram, loaded_vgram. intro H. repeat (apply bind_ok in H as (? & _ & H)). now injection H as <-.
  Qed.
  Lemma loaded_no_draws file v w w' xs : load_vgram fl io file = Ok v -> (forall k, w_term w k = w_term w' k) -> fit fl w v xs = fit fl w' v xs.
  Proof. intro H. exact (no_rounds v w w' xs (loaded_iter file v H)). Qed.
  Lemma loaded_text_no_draws file v w w' xs : load_tvgram fl io file = Ok v -> (forall k, w_term w k = w_term w' k) -> tv_fit fl true w v xs = tv_fit fl true w' v xs.
  Proof.
    unfold load_tvgram. intros H Hw. apply bind_ok in H as (v0 & H & H'). apply bind_ok in H' as (tk & _ & [= <-]). unfold tv_fit. cbn [tv tvtok].
    destruct (tok_transform_all true tk xs) as [[ids tk']| | |]; try reflexivity. cbn [bind]. now rewrite (loaded_no_draws file v0 w w' ids H Hw).
  Qed.
End T.
