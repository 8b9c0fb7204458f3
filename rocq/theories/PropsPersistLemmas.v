(** PropsPersistLemmas: lemmas behind C42, C51-C54, C59 and the save part of C40. *)
From Coq Require Import Ascii String Permutation Sorted.
From Verif Require Import Base Spec FloatOps FloatLaws FloatIEEE FloatExample ModelDict ModelCoder ModelTok Maps ModelStat ModelBuilder ModelStream ModelVGram ModelString ModelJson ModelPersist
  OrderProofs DictProofs CoderProofs TokProofs SpecStat SpecBuilder StatProofs RunProofs LearnProofs BuilderProofs BuilderSafe BuilderOwn PropsDictLemmas PropsStatLemmas BuilderRuns ReachProofs PropsBuilderLemmas StreamProofs VGramProofs PropsStreamLemmas PropsVGramLemmas StringProofs PropsStringLemmas
  PersistProofs SpecTok SpecJson SpecStream SpecVGram SpecString SpecPersist.
Local Open Scope Z_scope.
Local Open Scope list_scope.

(** ** Streams that parse alike *)
Section A.
  Context (fl : fops).
  Record alike (S : list Z) (z z' : stream fl) : Prop := {
    ak_coder : coder_like S (zcoder z);
    ak_coder' : coder_like S (zcoder z');
    ak_freqs : zfreqs z' = zfreqs z;
    ak_total : ztotal z' = ztotal z;
    ak_res : (result_ptr fl (zb z) < length (bheap (zb z)))%nat;
    ak_res' : (result_ptr fl (zb z') < length (bheap (zb z')))%nat;
    ak_dict : exists p p' d, zdict z = Some p /\ zdict z' = Some p' /\ hget fl (zb z) p = Ok d /\ hget fl (zb z') p' = Ok d
  }.
  Lemma alpha_total (b : builder fl) : (result_ptr fl b < length (bheap b))%nat -> exists d, alpha fl b = Ok d.
  Proof.
    intro H. unfold alpha, hget. destruct (nth_lt _ _ H) as [d Hd]. rewrite (vget_some _ _ _ Hd). cbn [bind].
    destruct (mk_dict_spec (seqs d)) as (d' & -> & _). now exists d'.
  Qed.
  Lemma put_get (b : builder fl) p d d' : hget fl b p = Ok d -> hget fl (hput fl b p d') p = Ok d'.
  Proof.
    intro H. unfold hget, hput in *. cbn [bheap]. apply vget_some. apply upd_same. apply vget_ok in H. apply nth_error_Some. congruence.
  Qed.
  Lemma put_res (b : builder fl) p d : (result_ptr fl b < length (bheap b))%nat -> (result_ptr fl (hput fl b p d) < length (bheap (hput fl b p d)))%nat.
  Proof. unfold hput, result_ptr. cbn [bheap bres bptr]. now rewrite upd_length. Qed.
  Lemma alike_parse S z z' s : alike S z z' ->
    (exists ids z1 z1', s_parse fl z s = Ok (ids, z1) /\ s_parse fl z' s = Ok (ids, z1') /\ alike S z1 z1') \/
    (exists k, s_parse fl z s = UB k /\ s_parse fl z' s = UB k) \/ (exists e, s_parse fl z s = Throw e /\ s_parse fl z' s = Throw e) \/
    (s_parse fl z s = NoTerm /\ s_parse fl z' s = NoTerm).
  Proof.
    intros [C C' Ef Et R R' (p & p' & d & Ep & Ep' & Hd & Hd')]. unfold s_parse, the_dict. rewrite (like_immutable S _ s C), (like_immutable S _ s C').
    destruct (alpha_total _ R) as (a & ->), (alpha_total _ R') as (a' & ->). cbn [bind]. rewrite Ep, Ep', Hd, Hd'. cbn [bind]. rewrite Ef, Et.
    destruct (parse_weighted fl d (enc S (restrict S s)) (zfreqs z) (fofZ fl (ztotal z)) []) as [[[ids n] d1]|k|e|]; cbn [bind].
    - left. do 3 eexists. split; [reflexivity|]. split; [reflexivity|]. split; cbn [put_dict zcoder zfreqs ztotal zb zdict]; try assumption; try (now apply put_res).
      exists p, p', d1. do 2 (split; [assumption|]). split; eapply put_get; eassumption.
    - right. left. now exists k.
    - right. right. left. now exists e.
    - right. right. now right.
  Qed.
  Lemma alike_parses S ss : forall z z', alike S z z' -> parses fl z' ss = parses fl z ss.
  Proof.
    induction ss as [|s ss IH]; intros z z' H; [reflexivity|]. cbn [parses].
    destruct (alike_parse S z z' s H) as [(ids & z1 & z1' & -> & -> & H1)|[(k & -> & ->)|[(e & -> & ->)|(-> & ->)]]]; try reflexivity.
    cbn [bind]. now rewrite (IH z1 z1' H1).
  Qed.
  Lemma like_code S c i : coder_like S c -> mfind Z.eqb (bwd c) i = if (0 <=? i) && (i <? Z.of_nat (length S)) then nth_error S (Z.to_nat i) else None.
  Proof.
    intro H. destruct (Z.leb_spec 0 i), (Z.ltb_spec i (Z.of_nat (length S))); cbn [andb]; try (apply (cl_none _ _ H); lia).
    destruct (nth_lt S (Z.to_nat i)) as [x Hx]; [lia|]. rewrite Hx. pose proof (cl_code _ _ H _ _ Hx) as E. now rewrite Z2Nat.id in E by lia.
  Qed.
  Lemma like_decode_eq S c c' v : coder_like S c -> coder_like S c' -> decode c' v = decode c v.
  Proof. intros H H'. induction v as [|i v IH]; [reflexivity|]. cbn [decode]. now rewrite (like_code S c i H), (like_code S c' i H'), IH. Qed.
  Lemma like_decode_all_eq S c c' ws : coder_like S c -> coder_like S c' -> decode_all c' ws = decode_all c ws.
  Proof. intros H H'. induction ws as [|w ws IH]; [reflexivity|]. cbn [decode_all]. now rewrite (like_decode_eq S c c' w H H'), IH. Qed.

  (** A stream in good order. *)
  Record tidy (S : list Z) (z : stream fl) (p : nat) (d : dict) (x : F fl) : Prop := {
    td_nodup : NoDup S;
    td_coder : coder_like S (zcoder z);
    td_dict : zdict z = Some p;
    td_get : hget fl (zb z) p = Ok d;
    td_full : full_dict d;
    td_range : forall w, In w (seqs d) -> in_range S w;
    td_total : ztotal z = isum (zfreqs z);
    td_minp : zminp z = Some x;
    td_res : (result_ptr fl (zb z) < length (bheap (zb z)))%nat
  }.
  Lemma tidy_the_dict S z p d x : tidy S z p d x -> the_dict fl z = Ok (p, d).
  Proof. intro H. unfold the_dict. now rewrite (td_dict _ _ _ _ _ H), (td_get _ _ _ _ _ H). Qed.
  Lemma tidy_loaded S z p d x c : tidy S z p d x -> coder_like S c ->
    exists z', loaded_stream fl c (zfreqs z) (seqs d) (zsize z) x = Ok z' /\ zcoder z' = c /\ same_stream fl z z' /\ alike S z z' /\ zdict z' <> None.
  Proof.
    intros T Hc. unfold loaded_stream. rewrite (mk_dict_same d (td_full _ _ _ _ _ T)). cbn [bind]. unfold new_builder_loaded.
    destruct (mk_stat_ok fl (seqs d) x (Some (zfreqs z))) as (d' & st & -> & _). cbn [bind]. eexists. split; [reflexivity|]. cbn [bheap length app].
    split; [reflexivity|]. pose proof (td_coder _ _ _ _ _ T) as Hz.
    assert (Hal : alike S z (mkStream (zsize z) (mkBuilder [d'; d] (Z.of_nat (dsize d)) (seqs d) 0 st RSame true (flit fl 1 10) (fofZ fl 1) 0) (Some 1%nat) c (zfreqs z) (isum (zfreqs z)) (Some x))).
    { split; cbn [zcoder zfreqs ztotal zb zdict result_ptr bres bptr bheap length].
      - exact Hz.
      - exact Hc.
      - reflexivity.
      - symmetry. exact (td_total _ _ _ _ _ T).
      - exact (td_res _ _ _ _ _ T).
      - lia.
      - exists p, 1%nat, d. split; [exact (td_dict _ _ _ _ _ T)|]. split; [reflexivity|]. split; [exact (td_get _ _ _ _ _ T)|reflexivity]. }
    split; [|split; [exact Hal|discriminate]]. unfold same_stream, s_freqs. cbn [zsize zminp zfreqs zcoder].
    split; [reflexivity|]. split; [symmetry; exact (td_minp _ _ _ _ _ T)|]. split; [reflexivity|]. split; [|split; [|split]].
    - unfold s_alphabet. rewrite (tidy_the_dict _ _ _ _ _ T). cbn. exact (like_decode_all_eq S _ _ _ Hz Hc).
    - intro s. now rewrite (like_immutable S _ s Hc), (like_immutable S _ s Hz).
    - intro v. exact (like_decode_eq S _ _ v Hz Hc).
    - intro ss. exact (alike_parses S ss _ _ Hal).
  Qed.

  Lemma fwd_symbols S c : coder_like S c -> Forall (fun p => In (fst p) S) (fwd c).
  Proof.
    intro H. apply Forall_forall. intros [x k] Hi. cbn [fst]. destruct (in_dec Z.eq_dec x S) as [Hx|Hx]; [exact Hx|]. exfalso.
    pose proof (cl_out _ _ H x Hx) as E. apply (proj1 (mfind_none_in Z.eqb Zeqb_iff _ _)) in E. apply E. now apply (in_map fst) in Hi.
  Qed.
  Lemma tidy_int S z p d x : tidy S z p d x -> int32 (zsize z) -> Forall int32 (zfreqs z) -> Forall int32 S -> Z.of_nat (length S) <= 2 ^ 31 -> int_stream fl z.
  Proof.
    intros T H1 H2 H3 H4. split; [exact H1|]. split; [exact H2|]. split.
    - eapply Forall_impl; [|exact (fwd_symbols _ _ (td_coder _ _ _ _ _ T))]. intros q Hq. exact (proj1 (Forall_forall _ _) H3 _ Hq).
    - intros q e Hq He. rewrite (td_dict _ _ _ _ _ T) in Hq. injection Hq as <-. rewrite (td_get _ _ _ _ _ T) in He. injection He as <-.
      apply Forall_forall. intros w Hw. apply Forall_forall. intros k Hk. pose proof (td_range _ _ _ _ _ T w Hw k Hk). unfold int32. lia.
  Qed.

  Section IO.
    Context (io : float_io (F fl)).
    (** Saving and loading what is in good order. *)
    Lemma tidy_read S z p d x tok ex file : tidy S z p d x -> int_stream fl z -> io_ok io x -> length (zfreqs z) = dsize d -> tok_chars tok ->
      save_any fl io true tok ex z = Ok file ->
      exists es c, entries_of fl tok z d es /\ Forall (fits_entry) es /\ coder_like S c /\ parse io file = Ok (JObj (file_obj fl io z es ex)) /\
        read_dict fl (JObj (file_obj fl io z es ex)) = Ok (mkData c (zfreqs z) (seqs d) (zsize z) x).
    Proof.
      intros T Hi Hx Hl Ht Hs. assert (Hm : minp_file fl io z) by (intros y Hy; rewrite (td_minp _ _ _ _ _ T) in Hy; injection Hy as <-; now right).
      destruct (saved fl io tok ex z file Hs Hi Ht Hm) as (p' & d' & es & t & Hd & He & Hf & Hdu & Hp & ->).
      rewrite (tidy_the_dict _ _ _ _ _ T) in Hd. injection Hd as <- <-.
      destruct (read_dict_of fl io S z es ex x (td_nodup _ _ _ _ _ T) (td_coder _ _ _ _ _ T) Hi Hf (td_minp _ _ _ _ _ T) Hx) as (c & Hc & Hr).
      exists es, c. split; [exact He|]. split; [exact Hf|]. split; [exact Hc|]. split; [exact (proj1 (JsonRoundTrip.file_back Hdu Hp))|]. rewrite Hr.
      destruct He as (E1 & E2 & _ & _). rewrite E1, E2, firstn_all2 by lia. reflexivity.
    Qed.
    Lemma stream_back_alike S z p d x : tidy S z p d x -> int_stream fl z -> io_ok io x -> length (zfreqs z) = dsize d ->
      exists file z', save_stream fl io true z = Ok file /\ load_stream fl io file = Ok z' /\ same_stream fl z z' /\ alike S z z'.
    Proof.
      intros T Hi Hx Hl. destruct (save_stream_ok fl io z p d (tidy_the_dict _ _ _ _ _ T)) as (file & Hs); [lia|]. exists file. rewrite Hs.
      rewrite save_stream_any in Hs. destruct (tidy_read S z p d x None None file T Hi Hx Hl I Hs) as (es & c & He & Hf & Hc & Hp & Hr).
      destruct (tidy_loaded S z p d x c T Hc) as (z' & E & _ & Hz & Ha & _). exists z'. split; [reflexivity|]. split; [|split; [exact Hz|exact Ha]].
      unfold load_stream, read_dict_json. rewrite Hp. cbn [bind]. rewrite Hr. cbn [bind md_coder md_freqs md_words md_size md_minp]. exact E.
    Qed.
    Lemma stream_back S z p d x : tidy S z p d x -> int_stream fl z -> io_ok io x -> length (zfreqs z) = dsize d ->
      exists file z', save_stream fl io true z = Ok file /\ load_stream fl io file = Ok z' /\ same_stream fl z z'.
    Proof. intros T Hi Hx Hl. destruct (stream_back_alike S z p d x T Hi Hx Hl) as (file & z' & A & B & C & _). exists file, z'. now split. Qed.
  End IO.
End A.

(** ** Streams with a history *)
Section H.
  Context (fl : fops) (L : flaws fl) (io : float_io (F fl)).

  Lemma minp_step z op z' : sstep fl z op z' -> (zdict z <> None -> zminp z <> None) -> (zdict z' <> None -> zminp z' <> None).
  Proof.
    destruct op as [e s|s|]; cbn [sstep].
    - unfold s_accept. destruct (encode (zcoder z) s) as [q c]. intro H. apply bind_ok in H as (b & _ & [= <-]). exact (fun H => H).
    - intros (ids & H). unfold s_parse in H. apply bind_ok in H as (a & _ & H). apply bind_ok in H as ([p d] & _ & H).
      apply bind_ok in H as ([[i n] d'] & _ & [= _ <-]). exact (fun H => H).
    - unfold s_update. intros H HI. destruct (zdict z) as [q|] eqn:Eq.
      + destruct (Nat.eqb q (result_ptr fl (zb z))); [injection H as <-; intros _; apply HI; discriminate|].
        apply bind_ok in H as ([fs b] & _ & [= <-]). discriminate.
      + apply bind_ok in H as ([fs b] & _ & [= <-]). discriminate.
  Qed.
  Lemma minp_set z0 ops z : shist fl z0 ops z -> (zdict z0 <> None -> zminp z0 <> None) -> zdict z <> None -> zminp z <> None.
  Proof. intros H H0. induction H as [|ops z op z' H IH Hs]; [exact H0|]. exact (minp_step z op z' Hs IH). Qed.
  Lemma size_kept z0 ops z : shist fl z0 ops z -> zsize z = zsize z0.
  Proof.
    induction 1 as [|ops z op z' H IH Hs]; [reflexivity|]. rewrite <- IH. destruct op as [e s|s|]; cbn [sstep] in Hs.
    - unfold s_accept in Hs. destruct (encode (zcoder z) s) as [q c]. apply bind_ok in Hs as (b & _ & [= <-]). reflexivity.
    - destruct Hs as (ids & Hs). unfold s_parse in Hs. apply bind_ok in Hs as (a & _ & Hs). apply bind_ok in Hs as ([p d] & _ & Hs).
      apply bind_ok in Hs as ([[i n] d'] & _ & [= _ <-]). reflexivity.
    - unfold s_update in Hs. destruct (zdict z) as [q|].
      + destruct (Nat.eqb q (result_ptr fl (zb z))); [now injection Hs as <-|]. apply bind_ok in Hs as ([fs b] & _ & [= <-]). reflexivity.
      + apply bind_ok in Hs as ([fs b] & _ & [= <-]). reflexivity.
  Qed.

  Section Start.
    Context (ws0 : list seq) (syms0 : list Z) (z0 : stream fl) (B Size N T0 : Z) (Z0 : start_stream fl L ws0 syms0 z0 B Size T0) (HB : B = kmax + N) (HSz : Size <= 2 ^ 49).
    Context (a0 : nat) (d00 : dict) (st00 : sstat fl) (S0 : sinv fl L ws0 a0 [] [] (zb z0) d00 d00 st00 []) (Hcl : symbol_closed ws0).
    Context (Hwl : Forall (fun w : seq => Z.of_nat (length w) <= 2 ^ 40) ws0) (Ha : Z.of_nat a0 <= bsize (zb z0)).
    Context (F0 : hfull fl (zb z0)) (O0 : own_inv fl (0%nat, 0%nat, phase_of fl (zb z0)) [] (zb z0)) (M0 : zdict z0 <> None -> zminp z0 <> None).

    Lemma hist_tidy ops z al : shist fl z0 ops z -> normal fl N ops -> has_room fl syms0 z0 ops -> calm fl syms0 z0 ops -> s_alphabet fl z = Ok al ->
      exists p d x, tidy fl (symbols_of fl syms0 ops) z p d x /\ al = map (decw (symbols_of fl syms0 ops)) (seqs d).
    Proof.
      intros H Hn Hr Hc Hal. destruct (sim_exists fl L ws0 syms0 z0 B Size N T0 Z0 HB HSz ops z H Hn) as [bops S].
      pose proof (calm_full fl L ws0 syms0 z0 B Size N T0 Z0 HB HSz a0 d00 st00 S0 Hcl Hwl Ha F0 O0 ops z bops S Hn Hr Hc) as F.
      destruct (zdict z) as [p|] eqn:Ep; [|unfold s_alphabet, the_dict in Hal; rewrite Ep in Hal; discriminate Hal].
      destruct (nth_lt _ _ (sm_dict _ _ _ _ _ _ _ _ _ _ _ _ S p Ep)) as [d Hd].
      assert (Hg : hget fl (zb z) p = Ok d) by (unfold hget; now apply vget_some).
      assert (Hin : In d (bheap (zb z))) by (now apply nth_error_In in Hd).
      assert (Hx : exists x, zminp z = Some x).
      { destruct (zminp z) as [x|] eqn:Ex; [now exists x|]. exfalso. refine (minp_set _ _ _ H M0 _ Ex). congruence. }
      destruct Hx as (x & Hx). exists p, d, x.
      rewrite (alphabet_is fl L ws0 syms0 z0 B Size N T0 Z0 ops z bops p d S Ep Hg) in Hal. injection Hal as <-. split; [|reflexivity]. split.
      - exact (symbols_nodup fl L ws0 syms0 z0 B Size T0 Z0 ops).
      - exact (sm_coder _ _ _ _ _ _ _ _ _ _ _ _ S).
      - exact Ep.
      - exact Hg.
      - exact (proj1 (proj1 (Forall_forall _ _) F d Hin)).
      - intros w Hw. exact (words_range fl L ws0 syms0 z0 B Size N T0 Z0 ops z bops d w S Hin Hw).
      - rewrite isum_zsum. exact (sm_total _ _ _ _ _ _ _ _ _ _ _ _ S).
      - exact Hx.
      - exact (bi_res _ _ _ _ _ _ _ (sm_binv _ _ _ _ _ _ _ _ _ _ _ _ S)).
    Qed.
    Lemma hist_dict ops z : shist fl z0 ops z -> normal fl N ops -> zdict z <> None ->
      exists p d al, the_dict fl z = Ok (p, d) /\ s_alphabet fl z = Ok al /\ length al = dsize d /\ coder_like (symbols_of fl syms0 ops) (zcoder z) /\
        forall w, In w (seqs d) -> in_range (symbols_of fl syms0 ops) w.
    Proof.
      intros H Hn Hz. destruct (sim_exists fl L ws0 syms0 z0 B Size N T0 Z0 HB HSz ops z H Hn) as [bops S].
      destruct (zdict z) as [p|] eqn:Ep; [|now elim Hz]. destruct (nth_lt _ _ (sm_dict _ _ _ _ _ _ _ _ _ _ _ _ S p Ep)) as [d Hd].
      assert (Hg : hget fl (zb z) p = Ok d) by (unfold hget; now apply vget_some).
      assert (Hin : In d (bheap (zb z))) by (now apply nth_error_In in Hd). exists p, d, (map (decw (symbols_of fl syms0 ops)) (seqs d)).
      split; [unfold the_dict; now rewrite Ep, Hg|]. split; [exact (alphabet_is fl L ws0 syms0 z0 B Size N T0 Z0 ops z bops p d S Ep Hg)|].
      split; [now rewrite map_length|]. split; [exact (sm_coder _ _ _ _ _ _ _ _ _ _ _ _ S)|].
      intros w Hw. exact (words_range fl L ws0 syms0 z0 B Size N T0 Z0 ops z bops d w S Hin Hw).
    Qed.
  End Start.
  Lemma fresh_tidy size N ops z al : shist fl (new_stream fl size) ops z -> normal fl N ops -> roomy fl size ops ->
    calm fl [] (new_stream fl size) ops -> s_alphabet fl z = Ok al ->
    exists p d x, tidy fl (adds [] (seen fl ops)) z p d x /\ al = map (decw (adds [] (seen fl ops))) (seqs d).
  Proof.
    intros H Hn Hr Hc Hal. pose proof Hr as (_ & H1 & _).
    refine (hist_tidy [] [] (new_stream fl size) (kmax + N) 0 N 0 (fresh_start fl L size N (normal_N _ _ _ Hn)) eq_refl size0 0 empty_dict _ (fresh_sinv fl L (size - 1)) no_symbols
      (Forall_nil _) _ (fresh_full fl _) (fresh_own fl _) _ ops z al H Hn (fresh_room fl _ _ Hr) Hc Hal).
    - cbn. lia.
    - intro E. now elim E.
  Qed.
  Lemma fresh_dict size N ops z : shist fl (new_stream fl size) ops z -> normal fl N ops -> In SUpdate ops ->
    exists p d al, the_dict fl z = Ok (p, d) /\ s_alphabet fl z = Ok al /\ length al = dsize d /\ coder_like (adds [] (seen fl ops)) (zcoder z) /\
        forall w, In w (seqs d) -> in_range (adds [] (seen fl ops)) w.
  Proof.
    intros H Hn Hu. exact (hist_dict [] [] (new_stream fl size) (kmax + N) 0 N 0 (fresh_start fl L size N (normal_N _ _ _ Hn)) eq_refl size0 ops z H Hn
      (updated_dict fl _ _ _ H (or_introl Hu))).
  Qed.

  (** ** C51 *)
  Lemma fresh_stream_back size N ops z al : shist fl (new_stream fl size) ops z -> normal fl N ops -> roomy fl size ops ->
    calm fl [] (new_stream fl size) ops -> s_alphabet fl z = Ok al -> length (s_freqs fl z) = length al ->
    int32 size -> Forall int32 (seen fl ops) -> Forall int32 (s_freqs fl z) -> minp_exact fl io z ->
    exists file z', save_stream fl io true z = Ok file /\ load_stream fl io file = Ok z' /\ same_stream fl z z' /\ alike fl (adds [] (seen fl ops)) z z'.
  Proof.
    intros H Hn Hr Hc Hal Hl Hs Hsy Hf Hm. destruct (fresh_tidy size N ops z al H Hn Hr Hc Hal) as (p & d & x & T & Ea).
    set (S := adds [] (seen fl ops)) in *. apply (stream_back_alike fl io S z p d x T).
    - apply (tidy_int fl S z p d x T).
      + rewrite (size_kept _ _ _ H). exact Hs.
      + exact Hf.
      + apply Forall_forall. intros y Hy. apply (proj1 (adds_in _ _ _)) in Hy as [[]|Hy]. exact (proj1 (Forall_forall _ _) Hsy y Hy).
      + unfold S. rewrite adds_length. destruct Hr as (_ & _ & Hr). unfold distinct in Hr. fold (seen fl ops) in Hr. unfold int32 in Hs. lia.
    - apply Hm. exact (td_minp _ _ _ _ _ _ T).
    - unfold s_freqs in Hl. rewrite Hl, Ea, map_length. reflexivity.
  Qed.

  Lemma fresh_back size N ops z al : shist fl (new_stream fl size) ops z -> normal fl N ops -> roomy fl size ops ->
    calm fl [] (new_stream fl size) ops -> s_alphabet fl z = Ok al -> length (s_freqs fl z) = length al ->
    int32 size -> Forall int32 (seen fl ops) -> Forall int32 (s_freqs fl z) -> minp_exact fl io z ->
    exists file z', save_stream fl io true z = Ok file /\ load_stream fl io file = Ok z' /\ same_stream fl z z'.
  Proof.
    intros H Hn Hr Hc Hal Hl Hs Hsy Hf Hm. destruct (fresh_stream_back size N ops z al H Hn Hr Hc Hal Hl Hs Hsy Hf Hm) as (file & z' & A & B & C & _).
    exists file, z'. now split.
  Qed.

  (** ** C42 *)
  Lemma save_exact size N ops z : shist fl (new_stream fl size) ops z -> normal fl N ops -> In SUpdate ops ->
    exists al, s_alphabet fl z = Ok al /\
      ((length al <= length (s_freqs fl z))%nat -> exists file, save_stream fl io true z = Ok file) /\
      ((length (s_freqs fl z) < length al)%nat -> save_stream fl io true z = UB OobRead).
  Proof.
    intros H Hn Hu. destruct (fresh_dict size N ops z H Hn Hu) as (p & d & al & Hd & Hal & Hl & _). exists al. split; [exact Hal|]. unfold s_freqs. split; intro E.
    - apply (save_stream_ok fl io z p d Hd). lia.
    - rewrite save_stream_any. apply (save_past_end fl io None None z p d Hd); [lia|discriminate].
  Qed.
  Lemma save_first size N ops z z' : shist fl (new_stream fl size) ops z -> normal fl N (ops ++ [SUpdate]) -> roomy fl size ops ->
    ~ In SUpdate ops -> s_update fl z = Ok z' -> exists file, save_stream fl io true z' = Ok file.
  Proof.
    intros H Hn Hr Hi Hu. destruct (windows fl size ops z H) as (w & W). destruct (first_update fl L size N ops w z z' W Hn Hr Hi Hu) as (al & Hal & Hc).
    assert (H' : shist fl (new_stream fl size) (ops ++ [SUpdate]) z') by (now apply sh_step with z).
    destruct (save_exact size N _ z' H' Hn) as (al' & Hal' & Hs & _); [apply in_app_iff; right; now left|]. apply Hs. rewrite Hal in Hal'. injection Hal' as <-.
    destruct w as [[i j] ph]. destruct Hc as (_ & log & _ & _ & El & _). lia.
  Qed.
  (** ** C40 *)
  Lemma save_before size ops z : shist fl (new_stream fl size) ops z -> ~ In SUpdate ops -> save_stream fl io true z = UB NullDeref.
  Proof.
    intros H Hi. destruct (no_update fl _ _ _ H eq_refl Hi) as (Hd & _ & _). rewrite save_stream_any, save_any_eq. unfold alphabet_to_json, the_dict. now rewrite Hd.
  Qed.
End H.

(** ** C53, C54, C59 *)
Section C.
  Context (fl : fops) (io : float_io (F fl)).

  Lemma saved_any file : saved_file fl io file -> exists tok ex z, save_any fl io true tok ex z = Ok file /\ int_stream fl z /\ tok_chars tok /\ minp_file fl io z.
  Proof.
    intros [z f H1 H2 H|v f H1 H2 H|z f H1 H2 H3 H|v f H1 H2 H3 H].
    - exists None, None, z. now rewrite <- save_stream_any.
    - exists None, None, (vs v). now rewrite <- save_stream_any.
    - exists (Some (ttok z)), None, (tst z). now rewrite <- save_tstream_any.
    - exists (Some (tvtok v)), (Some (vfitted (tv v), vcomputed (tv v))), (vs (tv v)). now rewrite <- save_tvgram_any.
  Qed.
  Lemma cut_fails file p u : saved_file fl io file -> file = p ++ u -> (2 <= length u)%nat ->
    load_stream fl io p = Throw JsonParse /\ load_vgram fl io p = Throw JsonParse /\ load_tstream fl io p = Throw JsonParse /\ load_tvgram fl io p = Throw JsonParse.
  Proof.
    intros Hs E Hu. destruct (saved_any _ Hs) as (tok & ex & z & H & Hi & Ht & Hm). pose proof (saved_cut fl io tok ex z file p u H Hi Ht Hm E Hu) as Hp.
    unfold load_tstream, load_tvgram, load_stream, load_vgram, read_dict_json. rewrite Hp. easy.
  Qed.
  Lemma cut_newline file p c : saved_file fl io file -> file = p ++ [c] ->
    load_stream fl io p = load_stream fl io file /\ load_vgram fl io p = load_vgram fl io file /\
    load_tstream fl io p = load_tstream fl io file /\ load_tvgram fl io p = load_tvgram fl io file.
  Proof.
    intros Hs E. destruct (saved_any _ Hs) as (tok & ex & z & H & Hi & Ht & Hm). pose proof (saved_newline fl io tok ex z file p c H Hi Ht Hm E) as Hp.
    unfold load_tstream, load_tvgram, load_stream, load_vgram, load_tokenizer, read_dict_json. rewrite Hp. easy.
  Qed.

  Lemma read_coder_any j syms : jfield fl j (txt "coder"%string) = Ok (pushed fl (map JInt syms)) -> exists c, read_coder fl j = Ok c.
  Proof.
    intros Hj. unfold read_coder. rewrite Hj. cbn [bind]. rewrite items_pushed. clear Hj. generalize new_coder. induction syms as [|x l IH]; intro c; [now exists c|].
    cbn [map foldM get_int bind]. apply IH.
  Qed.
  Lemma vgram_file_bad v file : save_vgram fl io true v = Ok file -> int_stream fl (vs v) -> minp_file fl io (vs v) ->
    load_vgram fl io file = Throw JsonType.
  Proof.
    intros H Hi Hm. change (save_any fl io true None None (vs v) = Ok file) in H.
    destruct (saved fl io None None (vs v) file H Hi I Hm) as (p & d & es & t & Hd & He & Hf & Hdu & Hp & ->).
    unfold load_vgram, read_dict_json. rewrite (proj1 (JsonRoundTrip.file_back Hdu Hp)). cbn [bind]. clear Hdu Hp. unfold file_obj. set (o := full_obj _ _ _ _ _ _).
    assert (Hc : exists c, read_coder fl (JObj o) = Ok c).
    { apply (read_coder_any _ (map fst (sort_codes (fwd (zcoder (vs v)))))). unfold o. rewrite field_coder. unfold coder_json. now rewrite map_map. }
    destruct Hc as (c & Hc). unfold read_dict. rewrite Hc, (read_alphabet_of fl (JObj o) es (field_alphabet _ _ _ _ _ _) Hf). unfold o. rewrite field_size, field_minp, field_fitted. cbn [bind get_int].
    unfold minp_written. destruct (zminp (vs v)) as [y|]; [|reflexivity]. destruct (io_show io y); reflexivity.
  Qed.
  Lemma words_lost file z : load_tstream fl io file = Ok z -> tkind (ttok z) = CharTok /\ twords z = false /\ tinner z = false.
  Proof.
    unfold load_tstream. intro H. apply bind_ok in H as (z1 & _ & H). apply bind_ok in H as (tk & Hk & H).
    unfold load_tokenizer in Hk. apply bind_ok in Hk as (j & _ & Hk). apply bind_ok in Hk as (a & _ & Hk). apply bind_ok in Hk as (m & _ & [= <-]).
    injection H as <-. easy.
  Qed.
End C.

Section V.
  Context (fl : fops) (L : flaws fl) (io : float_io (F fl)).
  Lemma fit_tidy size N ops0 w v xs ops al : good_fit fl size N ops0 w v xs ops al ->
    exists v' p d x, fit fl w v xs = Ok (true, v') /\ tidy fl (symbols_of fl [] ops) (vs v') p d x /\ length (zfreqs (vs v')) = dsize d /\ zsize (vs v') = size /\
      al = map (decw (symbols_of fl [] ops)) (seqs d).
  Proof.
    intro G. destruct (good_start fl L _ _ _ _ _ _ _ _ G) as (z & d & fs & b & acc & E & Rd & Eal & Hcr & _ & Hz). cbv zeta in E, Rd. set (v' := mkVGram _ _ _ _) in *.
    destruct (ready_the _ _ _ _ Rd) as (p & Ep & Hg & Hthe).
    assert (Hx : exists x, zminp (vs v') = Some x).
    { cbn [v' vs zminp zdict] in *. destruct (zminp z) as [x|] eqn:Ex; [now exists x|]. exfalso. refine (minp_set fl _ _ _ Hz _ _ Ex); [intro C; now elim C|congruence]. }
    destruct Hx as (x & Hx). exists v', p, d, x. split; [exact E|]. split; [|split; [|split; [|exact Eal]]].
    - split; try assumption.
      + exact (rd_nodup _ _ _ _ Rd).
      + exact (rd_coder _ _ _ _ Rd).
      + exact (rd_full _ _ _ _ Rd).
      + exact (rd_range _ _ _ _ Rd).
      + cbn [v' vs ztotal zfreqs]. symmetry. apply isum_zsum.
      + destruct (rd_res _ _ _ _ Rd) as (da & Hda). unfold hget in Hda. apply vget_ok in Hda. apply nth_error_Some. congruence.
    - cbn [v' vs zfreqs]. destruct Hcr as (rd & _ & Hl & _). rewrite Hl, Eal, map_length. reflexivity.
    - cbn [v' vs zsize]. exact (size_kept fl _ _ _ Hz).
  Qed.
  Lemma fit_saved size N ops0 w v xs ops al : good_fit fl size N ops0 w v xs ops al -> int32 size -> Forall int32 (seen fl ops) ->
    exists v', fit fl w v xs = Ok (true, v') /\ (Forall int32 (s_freqs fl (vs v')) -> minp_exact fl io (vs v') ->
      exists file z', save_vgram fl io true v' = Ok file /\ load_vgram fl io file = Throw JsonType /\ load_stream fl io file = Ok z' /\ same_stream fl (vs v') z').
  Proof.
    intros G Hsz Hsy. destruct (fit_tidy _ _ _ _ _ _ _ _ G) as (v' & p & d & x & E & T & Hl & Es & _). exists v'. split; [exact E|]. intros Hf Hm.
    assert (Hi : int_stream fl (vs v')).
    { apply (tidy_int fl _ (vs v') p d x T); [now rewrite Es|exact Hf| |].
      - apply Forall_forall. intros y Hy. unfold symbols_of in Hy. apply (proj1 (adds_in _ _ _)) in Hy as [[]|Hy]. exact (proj1 (Forall_forall _ _) Hsy y Hy).
      - destruct G as (_ & _ & _ & _ & _ & _ & (_ & _ & Hr) & _). unfold symbols_of. rewrite adds_length. unfold distinct in Hr. fold (seen fl ops) in Hr. unfold int32 in Hsz. lia. }
    destruct (stream_back fl io _ _ p d x T Hi (Hm x (td_minp _ _ _ _ _ _ T)) Hl) as (file & z' & H1 & H2 & H3). exists file, z'. split; [exact H1|]. split; [|now split].
    apply (vgram_file_bad fl io v' file H1 Hi). intros y Hy. right. now apply Hm.
  Qed.
  (** The files of C51 are saved files. *)
  Lemma fresh_saved size N ops z al : shist fl (new_stream fl size) ops z -> normal fl N ops -> roomy fl size ops ->
    calm fl [] (new_stream fl size) ops -> s_alphabet fl z = Ok al -> length (s_freqs fl z) = length al ->
    int32 size -> Forall int32 (seen fl ops) -> Forall int32 (s_freqs fl z) -> minp_exact fl io z ->
    exists file, saved_file fl io file /\ save_stream fl io true z = Ok file.
  Proof.
    intros H Hn Hr Hc Hal Hl Hs Hsy Hf Hm. destruct (fresh_tidy fl L size N ops z al H Hn Hr Hc Hal) as (p & d & x & T & Ea).
    destruct (fresh_back fl L io size N ops z al H Hn Hr Hc Hal Hl Hs Hsy Hf Hm) as (file & z' & Hsv & _). exists file. split; [|exact Hsv].
    apply sf_stream with z; [|intros y Hy; right; now apply Hm|exact Hsv]. apply (tidy_int fl _ z p d x T).
    - rewrite (size_kept _ _ _ _ H). exact Hs.
    - exact Hf.
    - apply Forall_forall. intros y Hy. apply (proj1 (adds_in _ _ _)) in Hy as [[]|Hy]. exact (proj1 (Forall_forall _ _) Hsy y Hy).
    - rewrite adds_length. destruct Hr as (_ & _ & Hr). unfold distinct in Hr. fold (seen fl ops) in Hr. unfold int32 in Hs. lia.
  Qed.
End V.
