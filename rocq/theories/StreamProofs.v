(** A stream drives its builder with coded sequences. *)
From Verif Require Import ExpandProofs Base Spec FloatOps FloatLaws OrderProofs DictProofs GreedyProofs DpProofs WeightedProofs ModelDict Maps
  ModelCoder SpecCoder CoderProofs ModelStat ModelBuilder ModelStream SpecStat SpecBuilder SpecStream StatProofs RunProofs
  ReduceProofs LearnProofs BuilderProofs BuilderSafe BuilderOwn.

(** ** Coding *)
Definition enc (S : list Z) (x : seq) : seq := map (fun c => Z.of_nat (pos_of S c)) x.
Definition decw (S : list Z) (w : seq) : seq := map (fun c => nth (Z.to_nat c) S 0%Z) w.

Lemma enc_app S a b : enc S (a ++ b) = enc S a ++ enc S b.
Proof. apply map_app. Qed.
Lemma enc_ext S R x : (forall c, In c x -> In c S) -> enc (S ++ R) x = enc S x.
Proof. intro H. apply map_ext_in. intros c Hc. now rewrite pos_of_app by now apply H. Qed.
Lemma enc_concat S xs : concat (map (enc S) xs) = enc S (concat xs).
Proof. unfold enc. now rewrite concat_map. Qed.
Lemma dec_enc S x : (forall c, In c x -> In c S) -> decw S (enc S x) = x.
Proof.
  intro H. unfold decw, enc. rewrite map_map. rewrite <- (map_id x) at 2. apply map_ext_in. intros c Hc.
  rewrite Nat2Z.id. exact (nth_error_nth S _ 0%Z (pos_of_nth S c (H c Hc))).
Qed.
Lemma enc_range S x c : (forall c, In c x -> In c S) -> In c (enc S x) -> (0 <= c < Z.of_nat (length S))%Z.
Proof.
  intros H Hc. apply in_map_iff in Hc as (y & <- & Hy). pose proof (pos_of_lt S y (H y Hy)). lia.
Qed.
Lemma enc_inj S a b : (forall c, In c a -> In c S) -> (forall c, In c b -> In c S) -> enc S a = enc S b -> a = b.
Proof. intros Ha Hb E. rewrite <- (dec_enc S a Ha), <- (dec_enc S b Hb). now rewrite E. Qed.

(** A coder that numbers the symbols [S]. *)
Record coder_like (S : list Z) (c : coder) : Prop := {
  cl_in : forall x, In x S -> mfind Z.eqb (fwd c) x = Some (Z.of_nat (pos_of S x));
  cl_out : forall x, ~ In x S -> mfind Z.eqb (fwd c) x = None;
  cl_code : forall i x, nth_error S i = Some x -> mfind Z.eqb (bwd c) (Z.of_nat i) = Some x;
  cl_none : forall k, (k < 0 \/ Z.of_nat (length S) <= k)%Z -> mfind Z.eqb (bwd c) k = None;
  cl_len : length (fwd c) = length S
}.
Lemma numbers_like S c : NoDup S -> numbers S c -> coder_like S c.
Proof.
  intros Hn (H1 & H2 & H3 & H4). split; [|exact H2| |exact H3|exact H4].
  - intros x Hx. apply H1. now apply pos_of_nth.
  - intros i x Hi. now apply H1.
Qed.
Lemma like_refl S : NoDup S -> coder_like S (coder_of S).
Proof.
  intro Hn. split.
  - intros x Hx. apply fwd_some; [easy|]. now apply pos_of_nth.
  - apply fwd_none.
  - intros i x. apply bwd_some.
  - apply bwd_none.
  - cbn. rewrite combine_length, codes_length. lia.
Qed.
Lemma mfind_mset (m : list (Z * Z)) k v x : mfind Z.eqb (mset Z.eqb m k v) x = if Z.eqb x k then Some v else mfind Z.eqb m x.
Proof.
  induction m as [|[k' v'] m IH]; cbn [mset mfind]; [easy|]. destruct (Z.eqb_spec k k') as [<-|Hn]; cbn [mfind].
  - now destruct (Z.eqb x k).
  - rewrite IH. destruct (Z.eqb_spec x k') as [->|Hx]; [|easy]. destruct (Z.eqb_spec k' k); [congruence|easy].
Qed.

Lemma like_symbol S c x : NoDup S -> coder_like S c ->
  exists c', encode_symbol c x = (Z.of_nat (pos_of (add1 S x) x), c') /\ coder_like (add1 S x) c'.
Proof.
  intros Hn H. unfold encode_symbol. unfold add1. destruct (in_dec Z.eq_dec x S) as [Hi|Hi].
  - rewrite (cl_in _ _ H x Hi), (cl_in _ _ H x Hi). now exists c.
  - rewrite (cl_out _ _ H x Hi). cbn [fwd bwd]. rewrite mfind_mset, Z.eqb_refl, (cl_len _ _ H). eexists. split.
    { f_equal. f_equal. symmetry. apply pos_of_unique.
      - pose proof (add1_nodup S x Hn) as Hd. unfold add1 in Hd. now destruct (in_dec Z.eq_dec x S).
      - rewrite nth_error_app2, Nat.sub_diag by lia. easy. }
    split; cbn [fwd bwd].
    + intros y Hy. rewrite mfind_mset. destruct (Z.eqb_spec y x) as [->|Hyx].
      * f_equal. f_equal. symmetry. apply pos_of_unique.
        -- pose proof (add1_nodup S x Hn) as Hd. unfold add1 in Hd. now destruct (in_dec Z.eq_dec x S).
        -- rewrite nth_error_app2, Nat.sub_diag by lia. easy.
      * apply in_app_or in Hy as [Hy|[Hy|[]]]; [|congruence]. rewrite pos_of_app by easy. now apply (cl_in _ _ H).
    + intros y Hy. rewrite mfind_mset. destruct (Z.eqb_spec y x) as [->|Hyx].
      * exfalso. apply Hy. apply in_or_app. right. now left.
      * apply (cl_out _ _ H). intro. apply Hy. apply in_or_app. now left.
    + intros i y Hy. rewrite mfind_mset. destruct (Z.eqb_spec (Z.of_nat i) (Z.of_nat (length S))) as [E|E].
      * apply Nat2Z.inj in E. subst i. rewrite nth_error_app2, Nat.sub_diag in Hy by lia. cbn in Hy. congruence.
      * assert (i < length S).
        { assert (i < length (S ++ [x])) by (apply nth_error_Some; congruence). rewrite app_length in *. cbn in *. lia. }
        rewrite nth_error_app1 in Hy by easy. now apply (cl_code _ _ H).
    + intros k Hk. rewrite app_length in Hk. cbn [length] in Hk. rewrite mfind_mset.
      destruct (Z.eqb_spec k (Z.of_nat (length S))); [lia|]. apply (cl_none _ _ H). lia.
    + rewrite mset_absent by (now apply (cl_out _ _ H)). rewrite !app_length, (cl_len _ _ H). easy.
Qed.
Lemma like_encode s : forall S c, NoDup S -> coder_like S c ->
  exists c', encode c s = (enc (adds S s) s, c') /\ coder_like (adds S s) c'.
Proof.
  induction s as [|x s IH]; intros S c Hn H; cbn [encode enc map adds fold_left]; [now exists c|].
  destruct (like_symbol S c x Hn H) as (c1 & E1 & H1). rewrite E1.
  destruct (IH (add1 S x) c1 (add1_nodup S x Hn) H1) as (c2 & E2 & H2). rewrite E2. exists c2. split; [|exact H2].
  f_equal. f_equal. destruct (adds_ext s (add1 S x)) as [r Hr]. unfold adds in Hr. rewrite Hr.
  rewrite pos_of_app; [easy|]. apply add1_in. now right.
Qed.
Lemma like_immutable S c s : coder_like S c -> encode_immutable c s = enc S (restrict S s).
Proof.
  intro H. induction s as [|x s IH]; [easy|]. cbn [encode_immutable restrict filter].
  destruct (in_dec Z.eq_dec x S) as [Hi|Hi].
  - rewrite (cl_in _ _ H x Hi). cbn [enc map]. f_equal. exact IH.
  - rewrite (cl_out _ _ H x Hi). exact IH.
Qed.
Definition in_range (S : list Z) (w : seq) : Prop := forall c, In c w -> (0 <= c < Z.of_nat (length S))%Z.
Lemma like_decode S c w : coder_like S c -> in_range S w -> decode c w = Ok (decw S w).
Proof.
  intro H. induction w as [|x w IH]; intro Hr; [easy|]. cbn [decode decw map].
  assert (Hx : (0 <= x < Z.of_nat (length S))%Z) by (apply Hr; now left).
  destruct (nth_lt S (Z.to_nat x) ltac:(lia)) as [y Hy].
  pose proof (cl_code _ _ H _ _ Hy) as E. rewrite Z2Nat.id in E by lia. rewrite E, IH by (intros z Hz; apply Hr; now right).
  cbn [bind]. now rewrite (nth_error_nth S _ 0%Z Hy).
Qed.
Lemma like_decode_all S c ws : coder_like S c -> (forall w, In w ws -> in_range S w) -> decode_all c ws = Ok (map (decw S) ws).
Proof.
  intro H. induction ws as [|w ws IH]; intro Hr; [easy|]. cbn [decode_all map].
  rewrite (like_decode S c w H) by (apply Hr; now left). cbn [bind]. rewrite IH by (intros; apply Hr; now right). easy.
Qed.
Lemma restrict_in S s c : In c (restrict S s) <-> In c s /\ In c S.
Proof. unfold restrict. rewrite filter_In. destruct (in_dec Z.eq_dec c S); intuition discriminate. Qed.
Lemma restrict_ext S S' s : (forall c, In c S <-> In c S') -> restrict S s = restrict S' s.
Proof.
  intro H. unfold restrict. apply filter_ext. intro c. destruct (in_dec Z.eq_dec c S), (in_dec Z.eq_dec c S'); firstorder.
Qed.
Lemma restrict_length S s : length (restrict S s) <= length s.
Proof. unfold restrict. induction s as [|x s IH]; [easy|]. cbn [filter]. destruct (in_dec _ _ _); cbn [length]; lia. Qed.
Lemma spells_decw S ws ids s : spells ws ids s -> spells (map (decw S) ws) ids (decw S s).
Proof.
  intros (vs & H & <-). exists (map (decw S) vs). split; [|unfold decw; now rewrite concat_map].
  induction H as [|i w ids vs Hw H IH]; [constructor|]. cbn [map]. constructor; [|exact IH].
  unfold word_at in *. now rewrite nth_error_map, Hw.
Qed.

Section Stream.
  Context (fl : fops) (L : flaws fl).

  Lemma freqs_prefix (b : builder fl) f fs b' : result_freqs fl b f = Ok (fs, b') ->
    exists r, result_freqs fl b [] = Ok (r, b') /\ fs = f ++ r.
  Proof.
    unfold result_freqs. intro H. apply bind_ok in H as (d & Hd & H). rewrite Hd. cbn [bind].
    destruct (bres b); injection H as <- <-; now eexists.
  Qed.
  Lemma bstep_det (b : builder fl) op b1 b2 : bstep fl b op b1 -> bstep fl b op b2 -> b1 = b2.
  Proof.
    destruct op as [e s| |p s freqs total]; cbn [bstep].
    - congruence.
    - intros (f1 & H1) (f2 & H2). congruence.
    - intros (d1 & o1 & n1 & e1 & A1 & B1 & ->) (d2 & o2 & n2 & e2 & A2 & B2 & ->). congruence.
  Qed.
  Lemma bhist_det (b0 : builder fl) ops b1 : bhist fl b0 ops b1 -> forall b2, bhist fl b0 ops b2 -> b1 = b2.
  Proof.
    induction 1 as [|ops b op b' H IH Hs]; intros b2 H2.
    - inversion H2 as [|ops' b' op' b'' H' Hs' E]; [easy|]. now destruct ops'.
    - inversion H2 as [E|ops' b3 op' b4 H' Hs' E]; [now destruct ops|].
      apply app_inj_tail in E as [-> ->]. subst. rewrite (IH b3 H') in Hs. exact (bstep_det _ _ _ _ Hs Hs').
  Qed.
  Lemma shared_known_snoc W0 ops (op : bop fl) : shared_known fl W0 ops ->
    (forall p s freqs total c, op = BShared p s freqs total -> In c s -> W0 [c] \/ In c (concat (accepted fl ops))) ->
    shared_known fl W0 (ops ++ [op]).
  Proof.
    intros H Ho a p s freqs total b E c Hc. destruct b as [|x b] using rev_ind.
    - apply app_inj_tail in E as [-> ->]. now apply (Ho p s freqs total).
    - clear IHb. change (a ++ BShared p s freqs total :: b ++ [x]) with (a ++ (BShared p s freqs total :: b) ++ [x]) in E.
      rewrite app_assoc in E. apply app_inj_tail in E as [-> _]. now apply (H a p s freqs total b).
  Qed.
  Lemma covered_add b0 ops (op : bop fl) b : shared_covered fl b0 ops -> bhist fl b0 ops b ->
    (forall p s freqs total d, op = BShared p s freqs total -> hget fl b p = Ok d -> covers (seqs d) s) ->
    shared_covered fl b0 (ops ++ [op]).
  Proof.
    intros H Hb Ho a p s freqs total c b1 d E H1 Hg. destruct c as [|x c] using rev_ind.
    - apply app_inj_tail in E as [<- ->]. rewrite <- (bhist_det _ _ _ Hb _ H1) in Hg. now apply (Ho p s freqs total).
    - clear IHc. change (a ++ BShared p s freqs total :: c ++ [x]) with (a ++ (BShared p s freqs total :: c) ++ [x]) in E.
      rewrite app_assoc in E. apply app_inj_tail in E as [-> _]. now apply (H a p s freqs total c b1).
  Qed.
  Lemma isum_zsum l : isum l = zsum l.
  Proof.
    unfold isum. assert (G : forall l a, fold_left Z.add l a = (a + zsum l)%Z).
    { clear. induction l as [|x l IH]; intro a; cbn [fold_left zsum fold_right]; [lia|]. rewrite IH. fold (zsum l). lia. }
    rewrite G. lia.
  Qed.

  (** *** Histories of calls *)
  Lemma fed_snoc ops (op : sop fl) : fed fl (ops ++ [op]) = fed fl ops ++ op_fed fl op.
  Proof. unfold fed. rewrite flat_map_app. cbn [flat_map]. now rewrite app_nil_r. Qed.
  Lemma seen_snoc ops (op : sop fl) : seen fl (ops ++ [op]) = seen fl ops ++ concat (op_fed fl op).
  Proof. unfold seen. now rewrite fed_snoc, concat_app. Qed.
  Lemma handled_snoc ops (op : sop fl) : handled fl (ops ++ [op]) = (handled fl ops + op_handled fl op)%Z.
  Proof. unfold handled. rewrite map_app. cbn [map]. apply zsum_snoc. Qed.
  Lemma updates_snoc ops (op : sop fl) : updates fl (ops ++ [op]) = (updates fl ops + if is_update fl op then 1 else 0)%Z.
  Proof. unfold updates. rewrite filter_app, app_length. cbn [filter]. destruct (is_update fl op); cbn [length]; lia. Qed.
  Lemma handled_nonneg ops : (0 <= handled fl ops)%Z.
  Proof.
    unfold handled. induction ops as [|op ops IH]; cbn [map zsum fold_right]; [lia|]. fold (zsum (map (op_handled fl) ops)).
    destruct op; cbn [op_handled]; lia.
  Qed.
  Lemma updates_nonneg ops : (0 <= updates fl ops)%Z.
  Proof. unfold updates. lia. Qed.
  Lemma slengths_snoc N ops (op : sop fl) : slengths_ok fl N (ops ++ [op]) -> slengths_ok fl N ops.
  Proof.
    intros (HN & Hf & Hh & Hu). rewrite fed_snoc in Hf. rewrite handled_snoc in Hh. rewrite updates_snoc in Hu.
    apply Forall_app in Hf as [Hf _]. split; [easy|]. split; [easy|].
    split; [destruct op; cbn [op_handled] in Hh; lia|]. destruct (is_update fl op); lia.
  Qed.
  Lemma senvs_snoc ops (op : sop fl) : senvs_ok fl (ops ++ [op]) -> senvs_ok fl ops.
  Proof. intros H e s Hi. apply (H e s). apply in_or_app. now left. Qed.
  Lemma normal_snoc N ops op : normal fl N (ops ++ [op]) -> normal fl N ops.
  Proof. intros [H1 H2]. split; [now apply senvs_snoc in H1|now apply slengths_snoc in H2]. Qed.
  Lemma calm_snoc known0 z0 ops op : calm fl known0 z0 (ops ++ [op]) -> calm fl known0 z0 ops.
  Proof. intros H a s b z al ->. apply (H a s (b ++ [op]) z al). now rewrite <- app_assoc. Qed.

  (** *** The simulation *)
  Section Sim.
    Context (ws0 : list seq) (syms0 : list Z) (z0 : stream fl) (B Size N T0 : Z).

    (** Starting points: the builder's words use the codes of known symbols, and every known symbol is a word. *)
    Record start_stream : Prop := {
      ss_nodup : NoDup syms0;
      ss_coder : coder_like syms0 (zcoder z0);
      ss_known : forall i, i < length syms0 -> In [Z.of_nat i] ws0;
      ss_range : forall w, In w ws0 -> in_range syms0 w;
      ss_binv : binv fl L (fun w => In w ws0) [] B Size (zb z0);
      ss_dict : forall p, zdict z0 = Some p -> p < length (bheap (zb z0));
      ss_freqs : Forall (fun f => 0 <= f)%Z (zfreqs z0);
      ss_total : ztotal z0 = zsum (zfreqs z0) /\ (zsum (zfreqs z0) <= T0)%Z
    }.
    Context (Z0 : start_stream) (HB : (B = kmax + N)%Z) (HSz : (Size <= 2 ^ 49)%Z).

    Definition symbols_of (ops : list (sop fl)) : list Z := adds syms0 (seen fl ops).

    Record sim (ops : list (sop fl)) (z : stream fl) (bops : list (bop fl)) : Prop := {
      sm_hist : bhist fl (zb z0) bops (zb z);
      sm_acc : accepted fl bops = map (enc (symbols_of ops)) (fed fl ops);
      sm_coder : coder_like (symbols_of ops) (zcoder z);
      sm_proc : (processed fl bops <= handled fl ops)%Z;
      sm_env : forall e s, In (BAccept e s) bops -> exists s', In (SAccept e s') ops;
      sm_known : shared_known fl (fun w => In w ws0) bops;
      sm_calm : calm fl syms0 z0 ops -> shared_covered fl (zb z0) bops;
      sm_dict : forall p, zdict z = Some p -> p < length (bheap (zb z));
      sm_freqs : Forall (fun f => 0 <= f)%Z (zfreqs z);
      sm_total : ztotal z = zsum (zfreqs z);
      sm_sum : (zsum (zfreqs z) <= T0 + updates fl ops * (kmax + N))%Z;
      sm_binv : binv fl L (fun w => In w ws0) (accepted fl bops) B (Size + 2 * processed fl bops) (zb z)
    }.

    Lemma symbols_nodup ops : NoDup (symbols_of ops).
    Proof. apply adds_nodup. exact (ss_nodup Z0). Qed.
    Lemma symbols_in ops c : In c (symbols_of ops) <-> In c syms0 \/ In c (seen fl ops).
    Proof. apply adds_in. Qed.
    Lemma fed_known ops x c : In x (fed fl ops) -> In c x -> In c (symbols_of ops).
    Proof. intros Hx Hc. apply symbols_in. right. unfold seen. apply in_concat. now exists x. Qed.

    Lemma code_origin ops bops c : accepted fl bops = map (enc (symbols_of ops)) (fed fl ops) ->
      In c (symbols_of ops) -> In [Z.of_nat (pos_of (symbols_of ops) c)] ws0 \/ In (Z.of_nat (pos_of (symbols_of ops) c)) (concat (accepted fl bops)).
    Proof.
      intros E Hc. destruct (in_dec Z.eq_dec c syms0) as [Hi|Hi].
      - left. unfold symbols_of. destruct (adds_ext (seen fl ops) syms0) as [r ->]. rewrite pos_of_app by easy.
        apply (ss_known Z0). now apply pos_of_lt.
      - right. rewrite E, enc_concat. apply in_map_iff. exists c. split; [easy|].
        apply symbols_in in Hc as [Hc|Hc]; [contradiction|exact Hc].
    Qed.

    (** Words of the dictionaries use known codes only. *)
    Lemma words_range ops z bops d w : sim ops z bops -> In d (bheap (zb z)) -> In w (seqs d) -> in_range (symbols_of ops) w.
    Proof.
      intros S Hd Hw. destruct (proj1 (Forall_forall _ _) (bi_heap _ _ _ _ _ _ _ (sm_binv _ _ _ S)) d Hd) as (_ & _ & Hf).
      destruct (Hf w Hw) as [H|(x & Hx & a & b & E)].
      - intros c Hc. pose proof (ss_range Z0 w H c Hc). unfold symbols_of. destruct (adds_ext (seen fl ops) syms0) as [r ->].
        rewrite app_length. lia.
      - rewrite (sm_acc _ _ _ S) in Hx. apply in_map_iff in Hx as (y & <- & Hy). intros c Hc.
        apply (enc_range _ y). { intros e He. now apply (fed_known ops y). }
        rewrite E. apply in_or_app. right. apply in_or_app. now left.
    Qed.
    Lemma alphabet_is ops z bops p d : sim ops z bops -> zdict z = Some p -> hget fl (zb z) p = Ok d ->
      s_alphabet fl z = Ok (map (decw (symbols_of ops)) (seqs d)).
    Proof.
      intros S Hp Hd. unfold s_alphabet, the_dict. rewrite Hp, Hd. cbn [bind].
      apply like_decode_all; [exact (sm_coder _ _ _ S)|]. intros w Hw. apply (words_range ops z bops d w S); [|easy].
      now apply (hget_in fl _ _ _) in Hd.
    Qed.
    (** A symbol is in the alphabet iff its code is a word. *)
    Lemma decw_symbol ops w c : in_range (symbols_of ops) w -> decw (symbols_of ops) w = [c] ->
      w = [Z.of_nat (pos_of (symbols_of ops) c)].
    Proof.
      intros Hr E. destruct w as [|k [|k' w]]; try discriminate E. cbn in E. injection E as <-.
      pose proof (Hr k ltac:(now left)) as Hk. f_equal.
      rewrite (pos_of_unique (symbols_of ops) _ (Z.to_nat k)); [lia|apply symbols_nodup|].
      apply nth_error_nth'. lia.
    Qed.
    Lemma covers_codes ops z bops d s : sim ops z bops -> In d (bheap (zb z)) -> (forall c, In c s -> In c (symbols_of ops)) ->
      covers (map (decw (symbols_of ops)) (seqs d)) s <-> covers (seqs d) (enc (symbols_of ops) s).
    Proof.
      intros S Hd Hs. split; intros H c Hc.
      - apply in_map_iff in Hc as (y & <- & Hy). specialize (H y Hy). apply in_map_iff in H as (w & E & Hw).
        rewrite <- (decw_symbol ops w y); [easy| |easy]. now apply (words_range ops z bops d w S).
      - apply in_map_iff. exists [Z.of_nat (pos_of (symbols_of ops) c)]. split.
        + change ([Z.of_nat (pos_of (symbols_of ops) c)]) with (enc (symbols_of ops) [c]). apply dec_enc.
          intros e [<-|[]]. now apply Hs.
        + apply H. apply in_map_iff. now exists c.
    Qed.

    Lemma freqs_bound b xs Sz fs b' : binv fl L (fun w => In w ws0) xs B Sz b -> result_freqs fl b [] = Ok (fs, b') ->
      (0 <= N)%Z -> Forall (fun f => 0 <= f)%Z fs /\ (zsum fs <= kmax + N)%Z.
    Proof.
      intros I H HN. unfold result_freqs in H. apply bind_ok in H as (d & Hd & H).
      destruct (bi_cur _ _ _ _ _ _ _ I) as (dc & P & _ & HP & SI).
      assert (G : forall l, (forall j, (0 <= at0 l j)%Z) -> (zsum l <= kmax + N)%Z ->
        Forall (fun f => 0 <= f)%Z (pad l (dsize d)) /\ (zsum (pad l (dsize d)) <= kmax + N)%Z).
      { intros l Hl Hz. rewrite zsum_pad. split; [|easy]. apply (forall_at0 (fun f => (0 <= f)%Z)); [lia|]. intro j. now rewrite at0_pad. }
      destruct (bres b) as [| |p st] eqn:Er; injection H as <- _; unfold grow_freqs; cbn [sfreqs app].
      1, 2: (apply G; [intro j; apply SI|rewrite (si_sum _ _ _ _ _ _ _ _ _ SI); lia]).
      destruct (bi_own _ _ _ _ _ _ _ I p st Er) as (_ & _ & O1 & O2). apply G; [exact O1|lia].
    Qed.

    Lemma swindow_shist ph0 ops w z : swhist fl z0 ph0 ops w z -> shist fl z0 ops z.
    Proof. induction 1; [constructor|now apply (sh_step fl z0 ops z)]. Qed.
    Lemma swindow_exists ph0 ops z : shist fl z0 ops z -> exists w, swhist fl z0 ph0 ops w z.
    Proof. induction 1 as [|ops z op z' H [w IH] Hs]; [eexists; constructor|]. eexists. now apply (sw_step fl z0 ph0 ops w z). Qed.

    Lemma sim_window ph0 ops w z : swhist fl z0 ph0 ops w z -> normal fl N ops ->
      exists bops, sim ops z bops /\ whist fl (zb z0) ph0 bops w (zb z).
    Proof.
      induction 1 as [|ops w z op z' HW IH Hs]; intros Hn.
      - exists []. split; [|constructor]. pose proof Hn as (_ & (HN & _)). split; try easy; try apply Z0.
        + constructor.
        + intros a p s freqs total b E. now destruct a.
        + intros _ a p s freqs total c b d E. now destruct a.
        + unfold updates. cbn [filter length]. pose proof (ss_total Z0). lia.
        + unfold processed, accepted. cbn. rewrite Z.add_0_r. apply Z0.
      - destruct (IH (normal_snoc _ _ _ Hn)) as (bops & S & W). pose proof (swindow_shist _ _ _ _ HW) as H.
        pose proof Hn as (Hen & (HN & Hlf & Hh & Hup)). rewrite fed_snoc in Hlf. rewrite handled_snoc in Hh. apply Forall_app in Hlf as [Hlf Hlo].
        pose proof (processed_nonneg fl bops) as Hpn.
        assert (HBb : (kmax + N <= B <= 2 ^ 52)%Z) by (rewrite HB; unfold kmax; lia).
        destruct op as [e s|s|]; cbn [sstep op_fed op_handled] in *.
        + (* accept *)
          unfold s_accept in Hs. destruct (like_encode s _ _ (symbols_nodup ops) (sm_coder _ _ _ S)) as (c' & Ec & Hc'). rewrite Ec in Hs.
          apply bind_ok in Hs as (b' & Ha & Hs). injection Hs as <-.
          assert (ES : symbols_of (ops ++ [SAccept e s]) = adds (symbols_of ops) s).
          { unfold symbols_of. rewrite seen_snoc. cbn [op_fed concat]. now rewrite app_nil_r, adds_app. }
          set (q := enc (adds (symbols_of ops) s) s) in *.
          assert (Hql : length q = length s) by (unfold q, enc; apply map_length).
          inversion_clear Hlo as [|? ? Hls _].
          pose proof (sm_proc _ _ _ S) as Hpr.
          destruct (accept_inv fl L (fun w => In w ws0) (accepted fl bops) B _ N e (zb z) q b'
            (Hen e s ltac:(apply in_or_app; right; now left)) (sm_binv _ _ _ S) HBb) as [I' _]; try easy; try lia.
          assert (Hacc : accepted fl (bops ++ [BAccept e q]) = map (enc (symbols_of (ops ++ [SAccept e s]))) (fed fl (ops ++ [SAccept e s]))).
          { rewrite accepted_snoc, fed_snoc. cbn [op_accepted op_fed]. rewrite map_app, ES. cbn [map]. f_equal.
            rewrite (sm_acc _ _ _ S). apply map_ext_in. intros x Hx. destruct (adds_ext s (symbols_of ops)) as [r ->].
            rewrite enc_ext; [easy|]. intros c Hc. now apply (fed_known ops x). }
          exists (bops ++ [BAccept e q]). split.
          2:{ cbn [zb]. replace (swindow_step _ _ _ _ _ _) with (window_step fl bops (zb z) (BAccept e q) b' w).
              - apply (wh_step fl (zb z0) ph0 bops w (zb z)); [exact W|exact Ha].
              - unfold window_step, swindow_step. cbn [zb]. rewrite (sm_acc _ _ _ S), map_length. reflexivity. }
          split; cbn [zb zcoder zdict zfreqs ztotal].
          * apply (bh_step fl (zb z0) bops (zb z)); [exact (sm_hist _ _ _ S)|exact Ha].
          * exact Hacc.
          * rewrite ES. exact Hc'.
          * rewrite processed_snoc, handled_snoc. cbn [op_length op_handled]. rewrite Hql. lia.
          * intros e1 s1 Hi. apply in_app_or in Hi as [Hi|[Hi|[]]].
            -- destruct (sm_env _ _ _ S e1 s1 Hi) as [s2 Hs2]. exists s2. apply in_or_app. now left.
            -- injection Hi as <- _. exists s. apply in_or_app. right. now left.
          * apply shared_known_snoc; [exact (sm_known _ _ _ S)|]. intros; discriminate.
          * intro Hc. apply (covered_add _ _ _ (zb z)); [apply (sm_calm _ _ _ S); now apply calm_snoc in Hc|exact (sm_hist _ _ _ S)|]. intros; discriminate.
          * intros p Hp. pose proof (sm_dict _ _ _ S p Hp) as Hlt. apply (accept_cases fl) in Ha as (d & i1 & n1 & d1 & st1 & Hd & _ & Hc).
            destruct Hc as [[_ ->]|(_ & ws & fs & mp & d4 & st4 & prob & best & turns & _ & _ & ->)]; unfold parsed; cbn [bheap];
              rewrite ?app_length, upd_length; lia.
          * exact (sm_freqs _ _ _ S).
          * exact (sm_total _ _ _ S).
          * rewrite updates_snoc. cbn [is_update]. rewrite Z.add_0_r. exact (sm_sum _ _ _ S).
          * rewrite accepted_snoc, processed_snoc. cbn [op_accepted op_length].
            replace (Size + 2 * (processed fl bops + Z.of_nat (length q)))%Z with (Size + 2 * processed fl bops + 2 * Z.of_nat (length q))%Z by lia.
            exact I'.
        + (* parse *)
          destruct Hs as [ids Hs]. unfold s_parse in Hs. rewrite (like_immutable _ _ s (sm_coder _ _ _ S)) in Hs.
          set (q := enc (symbols_of ops) (restrict (symbols_of ops) s)) in *.
          apply bind_ok in Hs as (da & _ & Hs). apply bind_ok in Hs as ([p d] & Htd & Hs). apply bind_ok in Hs as ([[ids1 n] d'] & Hw & Hs).
          injection Hs as <- <-. unfold the_dict in Htd. destruct (zdict z) as [p'|] eqn:Ep; [|discriminate Htd].
          apply bind_ok in Htd as (d1 & Hd & Htd). injection Htd as -> ->.
          assert (ES : symbols_of (ops ++ [SParse s]) = symbols_of ops).
          { unfold symbols_of. rewrite seen_snoc. cbn [op_fed concat]. now rewrite app_nil_r. }
          assert (EF : fed fl (ops ++ [SParse s]) = fed fl ops) by (rewrite fed_snoc; apply app_nil_r).
          assert (Hql : length q <= length s) by (unfold q, enc; rewrite map_length; apply restrict_length).
          set (bop := BShared p q (zfreqs z) (fofZ fl (ztotal z))).
          assert (Hkn : forall c, In c q -> In [c] ws0 \/ In c (concat (accepted fl bops))).
          { intros c Hc. unfold q in Hc. apply in_map_iff in Hc as (y & <- & Hy). apply restrict_in in Hy as [_ Hy].
            apply (code_origin ops bops y (sm_acc _ _ _ S) Hy). }
          exists (bops ++ [bop]). split.
          2:{ unfold put_dict. cbn [zb swindow_step]. apply (wh_step fl (zb z0) ph0 bops w (zb z) bop); [exact W|]. now exists d, ids1, n, d'. }
          split; unfold put_dict; cbn [zb zcoder zdict zfreqs ztotal].
          * apply (bh_step fl (zb z0) bops (zb z)); [exact (sm_hist _ _ _ S)|]. now exists d, ids1, n, d'.
          * rewrite accepted_snoc, EF, ES. cbn [op_accepted bop]. rewrite app_nil_r. exact (sm_acc _ _ _ S).
          * rewrite ES. exact (sm_coder _ _ _ S).
          * rewrite processed_snoc, handled_snoc. cbn [op_length op_handled bop]. pose proof (sm_proc _ _ _ S). lia.
          * intros e1 s1 Hi. apply in_app_or in Hi as [Hi|[Hi|[]]]; [|discriminate Hi].
            destruct (sm_env _ _ _ S e1 s1 Hi) as [s2 Hs2]. exists s2. apply in_or_app. now left.
          * apply shared_known_snoc; [exact (sm_known _ _ _ S)|]. unfold bop. intros p2 s2 f2 t2 c [= <- <- <- <-] Hc. now apply Hkn.
          * intro Hc. apply (covered_add _ _ _ (zb z)); [apply (sm_calm _ _ _ S); now apply calm_snoc in Hc|exact (sm_hist _ _ _ S)|].
            unfold bop. intros p2 s2 f2 t2 d2 [= <- <- <- <-] Hd2. rewrite Hd in Hd2. injection Hd2 as <-.
            assert (Hin : In d (bheap (zb z))) by (now apply (hget_in fl _ _ _) in Hd).
            apply (covers_codes ops z bops d _ S Hin). { intros c Hcc. now apply restrict_in in Hcc. }
            pose proof (Hc ops s [] z _ eq_refl H (alphabet_is ops z bops p d S Ep Hd)) as Hcv.
            intros c Hcc. apply Hcv. apply restrict_in in Hcc as [H1 H2]. apply restrict_in. split; [easy|].
            apply symbols_in in H2. apply in_or_app. exact H2.
          * intros p2 Hp2. unfold hput. cbn [bheap]. rewrite upd_length. now apply (sm_dict _ _ _ S).
          * exact (sm_freqs _ _ _ S).
          * exact (sm_total _ _ _ S).
          * rewrite updates_snoc. cbn [is_update]. rewrite Z.add_0_r. exact (sm_sum _ _ _ S).
          * rewrite accepted_snoc, processed_snoc. cbn [op_accepted op_length bop]. rewrite app_nil_r.
            replace (Size + 2 * (processed fl bops + Z.of_nat (length q)))%Z with (Size + 2 * processed fl bops + 2 * Z.of_nat (length q))%Z by lia.
            exact (shared_inv fl L _ _ B _ (zb z) p q _ _ d ids1 n d' (sm_binv _ _ _ S) Hkn Hd Hw).
        + (* update *)
          assert (ES : symbols_of (ops ++ [SUpdate]) = symbols_of ops).
          { unfold symbols_of. rewrite seen_snoc. cbn [op_fed concat]. now rewrite app_nil_r. }
          assert (EF : fed fl (ops ++ [SUpdate]) = fed fl ops) by (rewrite fed_snoc; apply app_nil_r).
          assert (G : forall fs b, result_freqs fl (zb z) (zfreqs z) = Ok (fs, b) -> forall mp,
            exists bops', sim (ops ++ [SUpdate]) (mkStream (zsize z) b (Some (result_ptr fl (zb z))) (zcoder z) fs (isum fs) mp) bops' /\
              whist fl (zb z0) ph0 bops' w b).
          { intros fs b Hf mp. apply freqs_prefix in Hf as (r & Hr & ->).
            destruct (freqs_inv fl L _ _ _ _ _ _ _ (sm_binv _ _ _ S) Hr) as [I' _].
            destruct (freqs_bound _ _ _ _ _ (sm_binv _ _ _ S) Hr) as [Hr1 Hr2]; [lia|].
            exists (bops ++ [BFreqs]). split.
            2:{ apply (wh_step fl (zb z0) ph0 bops w (zb z) BFreqs); [exact W|]. now exists r. }
            split; cbn [zb zcoder zdict zfreqs ztotal].
            - apply (bh_step fl (zb z0) bops (zb z)); [exact (sm_hist _ _ _ S)|]. now exists r.
            - rewrite accepted_snoc, EF, ES. cbn [op_accepted]. rewrite app_nil_r. exact (sm_acc _ _ _ S).
            - rewrite ES. exact (sm_coder _ _ _ S).
            - rewrite processed_snoc, handled_snoc. cbn [op_length op_handled]. pose proof (sm_proc _ _ _ S). lia.
            - intros e1 s1 Hi. apply in_app_or in Hi as [Hi|[Hi|[]]]; [|discriminate Hi].
              destruct (sm_env _ _ _ S e1 s1 Hi) as [s2 Hs2]. exists s2. apply in_or_app. now left.
            - apply shared_known_snoc; [exact (sm_known _ _ _ S)|]. intros; discriminate.
            - intro Hc. apply (covered_add _ _ _ (zb z)); [apply (sm_calm _ _ _ S); now apply calm_snoc in Hc|exact (sm_hist _ _ _ S)|]. intros; discriminate.
            - intros p [= <-]. pose proof (bi_res _ _ _ _ _ _ _ (sm_binv _ _ _ S)) as Hb.
              assert (Hle : length (bheap b) = length (bheap (zb z))); [|lia].
              clear -Hr. unfold result_freqs in Hr. apply bind_ok in Hr as (d & _ & Hr). destruct (bres (zb z)); now injection Hr as _ <-.
            - apply Forall_app. split; [exact (sm_freqs _ _ _ S)|exact Hr1].
            - apply isum_zsum.
            - rewrite updates_snoc. cbn [is_update]. rewrite zsum_app. pose proof (sm_sum _ _ _ S). unfold kmax in *. lia.
            - rewrite accepted_snoc, processed_snoc. cbn [op_accepted op_length]. rewrite app_nil_r, Z.add_0_r. exact I'. }
          unfold s_update in Hs. destruct (zdict z) as [q|] eqn:Eq.
          * destruct (Nat.eqb q (result_ptr fl (zb z))).
            -- injection Hs as <-. exists bops. split; [|exact W]. split.
               ++ exact (sm_hist _ _ _ S).
               ++ rewrite EF, ES. exact (sm_acc _ _ _ S).
               ++ rewrite ES. exact (sm_coder _ _ _ S).
               ++ rewrite handled_snoc. cbn [op_handled]. pose proof (sm_proc _ _ _ S). lia.
               ++ intros e1 s1 Hi. destruct (sm_env _ _ _ S e1 s1 Hi) as [s2 Hs2]. exists s2. apply in_or_app. now left.
               ++ exact (sm_known _ _ _ S).
               ++ intro Hc. apply (sm_calm _ _ _ S). now apply calm_snoc in Hc.
               ++ exact (sm_dict _ _ _ S).
               ++ exact (sm_freqs _ _ _ S).
               ++ exact (sm_total _ _ _ S).
               ++ rewrite updates_snoc. cbn [is_update]. pose proof (sm_sum _ _ _ S). unfold kmax in *. lia.
               ++ exact (sm_binv _ _ _ S).
            -- apply bind_ok in Hs as ([fs b] & Hf & Hs). injection Hs as <-. now apply G.
          * apply bind_ok in Hs as ([fs b] & Hf & Hs). injection Hs as <-. now apply G.
    Qed.

    Lemma sim_exists ops z : shist fl z0 ops z -> normal fl N ops -> exists bops, sim ops z bops.
    Proof.
      intros H Hn. destruct (swindow_exists First ops z H) as [w W]. destruct (sim_window First ops w z W Hn) as (bops & S & _). now exists bops.
    Qed.

    Lemma symbols_ext ops op : exists r, symbols_of (ops ++ [op]) = symbols_of ops ++ r.
    Proof. unfold symbols_of. rewrite seen_snoc, adds_app. apply adds_ext. Qed.
    Lemma restrict_symbols ops s : restrict (symbols_of ops) s = restrict (syms0 ++ seen fl ops) s.
    Proof. apply restrict_ext. intro c. rewrite symbols_in, in_app_iff. easy. Qed.

    Definition room : Prop := (T0 <= 2 ^ 50)%Z.

    (** What one parse does. *)
    Lemma parse_spec ops z bops p s : sim ops z bops -> normal fl N ops -> room -> zdict z = Some p ->
      (Z.of_nat (length s) <= 2 ^ 40)%Z ->
      exists d ids d', hget fl (zb z) p = Ok d /\ s_parse fl z s = Ok (ids, put_dict fl z p d') /\
        parse_weighted fl d (enc (symbols_of ops) (restrict (symbols_of ops) s)) (zfreqs z) (fofZ fl (ztotal z)) [] = Ok (ids, length ids, d') /\
        spells (seqs d') ids (enc (symbols_of ops) (restrict (symbols_of ops) s)) /\ extends_by_symbols (seqs d) (seqs d').
    Proof.
      intros S Hn HR Hp Hl. destruct (nth_lt _ _ (sm_dict _ _ _ S p Hp)) as [d Hd].
      assert (Hin : In d (bheap (zb z))) by (now apply nth_error_In in Hd).
      pose proof (sm_binv _ _ _ S) as I. destruct (proj1 (Forall_forall _ _) (bi_heap _ _ _ _ _ _ _ I) d Hin) as (Hwf & Hne & _).
      pose proof (proj1 (Forall_forall _ _) (bi_sizes _ _ _ _ _ _ _ I) d Hin) as Hsz. cbn beta in Hsz.
      set (q := enc (symbols_of ops) (restrict (symbols_of ops) s)).
      assert (Hq : length q <= length s) by (unfold q, enc; rewrite map_length; apply restrict_length).
      pose proof Hn as (_ & ((HN0 & HN) & _ & Hh & Hu)). pose proof (sm_proc _ _ _ S) as Hpr. pose proof (sm_sum _ _ _ S) as Hsum.
      pose proof (sm_freqs _ _ _ S) as Hf. pose proof (sm_total _ _ _ S) as Ht. unfold room in HR. unfold kmax in Hsum.
      assert (Hz : (0 <= zsum (zfreqs z))%Z) by (apply zsum_nonneg; exact Hf).
      assert (Hle : forall f, In f (zfreqs z) -> (f <= zsum (zfreqs z))%Z).
      { clear -Hf. induction (zfreqs z) as [|x l IH]; [easy|]. inversion_clear Hf as [|? ? Hx Hl]. cbn [zsum fold_right]. fold (zsum l).
        pose proof (zsum_nonneg l Hl). intros f [<-|Hf]; [lia|]. specialize (IH Hl f Hf). lia. }
      destruct (weighted_lossless fl L true false d q (zfreqs z) (ztotal z) Hwf Hne) as (ids & x & d' & E & Hsp & _ & _ & Hext & _).
      { split; [rewrite Ht; exact Hz|]. apply Forall_forall. intros f Hfi. pose proof (proj1 (Forall_forall _ _) Hf f Hfi). cbn beta in *.
        specialize (Hle f Hfi). unfold maxcount. lia. }
      { unfold maxlen. lia. } { rewrite Ht. unfold maxcount. lia. }
      exists d, ids, d'. split; [now apply vget_some|].
      assert (Epw : parse_weighted fl d q (zfreqs z) (fofZ fl (ztotal z)) [] = Ok (ids, length ids, d')).
      { unfold parse_weighted. rewrite E. reflexivity. }
      split; [|split; [exact Epw|now split]].
      unfold s_parse. rewrite (like_immutable _ _ s (sm_coder _ _ _ S)). fold q.
      unfold alpha. destruct (nth_lt _ _ (bi_res _ _ _ _ _ _ _ I)) as [dr Hdr]. unfold hget at 1. rewrite (vget_some _ _ _ Hdr). cbn [bind].
      destruct (mk_dict_spec (seqs dr)) as (dm & Em & _). rewrite Em. cbn [bind].
      unfold the_dict. rewrite Hp. unfold hget. rewrite (vget_some _ _ _ Hd). cbn [bind]. now rewrite Epw.
    Qed.

    (** C37 *)
    Lemma parse_lossless ops z s : shist fl z0 ops z -> normal fl N ops -> room -> zdict z <> None ->
      (handled fl ops + Z.of_nat (length s) <= 2 ^ 48)%Z -> (Z.of_nat (length s) <= 2 ^ 40)%Z ->
      exists ids z' al al', s_parse fl z s = Ok (ids, z') /\ s_alphabet fl z = Ok al /\ s_alphabet fl z' = Ok al' /\
        spells al' ids (restrict (syms0 ++ seen fl ops) s) /\ extends_by_symbols al al'.
    Proof.
      intros H Hn HR Hd Hh Hl. destruct (sim_exists ops z H Hn) as [bops S].
      destruct (zdict z) as [p|] eqn:Ep; [|congruence].
      destruct (parse_spec ops z bops p s S Hn HR Ep Hl) as (d & ids & d' & Hg & E & Epw & Hsp & Hext).
      exists ids, (put_dict fl z p d'), (map (decw (symbols_of ops)) (seqs d)), (map (decw (symbols_of ops)) (seqs d')).
      split; [exact E|]. split; [exact (alphabet_is ops z bops p d S Ep Hg)|].
      assert (Hn' : normal fl N (ops ++ [SParse s])).
      { destruct Hn as (H1 & H2 & H3 & H4 & H5). split.
        - intros e t Hi. apply in_app_or in Hi as [Hi|[Hi|[]]]; [now apply (H1 e t)|discriminate].
        - split; [easy|]. rewrite fed_snoc, handled_snoc, updates_snoc. cbn [op_fed op_handled is_update]. rewrite app_nil_r, Z.add_0_r. easy. }
      destruct (sim_exists (ops ++ [SParse s]) (put_dict fl z p d')) as [bops' S']; [|exact Hn'|].
      { apply (sh_step fl z0 ops z); [exact H|]. now exists ids. }
      assert (ES : symbols_of (ops ++ [SParse s]) = symbols_of ops).
      { unfold symbols_of. rewrite seen_snoc. cbn [op_fed concat]. now rewrite app_nil_r. }
      split.
      { rewrite <- ES. apply (alphabet_is _ _ bops' p d' S'); [exact Ep|]. unfold put_dict, hput, hget. cbn [zb bheap].
        apply vget_some, upd_same. now apply (hget_in fl _ _ _) in Hg. }
      split.
      - rewrite <- restrict_symbols. rewrite <- (dec_enc (symbols_of ops) (restrict (symbols_of ops) s)).
        + now apply spells_decw.
        + intros c Hc. now apply restrict_in in Hc.
      - destruct Hext as [cs ->]. exists (map (fun c => nth (Z.to_nat c) (symbols_of ops) 0%Z) cs). rewrite map_app. f_equal.
        rewrite !map_map. reflexivity.
    Qed.

    (** C41 *)
    Lemma alphabet_total ops z : shist fl z0 ops z -> normal fl N ops -> zdict z <> None -> exists al, s_alphabet fl z = Ok al.
    Proof.
      intros H Hn Hd. destruct (sim_exists ops z H Hn) as [bops S]. destruct (zdict z) as [p|] eqn:Ep; [|congruence].
      destruct (nth_lt _ _ (sm_dict _ _ _ S p Ep)) as [d Hg]. exists (map (decw (symbols_of ops)) (seqs d)).
      apply (alphabet_is ops z bops p d S Ep). now apply vget_some.
    Qed.
    Lemma update_total ops z : shist fl z0 ops z -> normal fl N ops -> exists z', s_update fl z = Ok z' /\ zdict z' <> None.
    Proof.
      intros H Hn. destruct (sim_exists ops z H Hn) as [bops S]. pose proof (bi_res _ _ _ _ _ _ _ (sm_binv _ _ _ S)) as Hr.
      destruct (nth_lt _ _ Hr) as [dr Hdr]. unfold s_update.
      assert (G : forall f, exists fs b, result_freqs fl (zb z) f = Ok (fs, b)).
      { intro f. unfold result_freqs, hget. rewrite (vget_some _ _ _ Hdr). cbn [bind]. destruct (bres (zb z)); now do 2 eexists. }
      destruct (G (zfreqs z)) as (fs & b & ->). cbn [bind]. destruct (zdict z) as [q|] eqn:Eq.
      - destruct (Nat.eqb q _); eexists; (split; [reflexivity|]); [now rewrite Eq|easy].
      - eexists. split; [reflexivity|easy].
    Qed.

    (** ** Adequate size *)
    Context (a0 : nat) (d00 : dict) (st00 : sstat fl).
    Context (S0 : sinv fl L ws0 a0 [] [] (zb z0) d00 d00 st00 []) (Hcl : symbol_closed ws0).
    Context (Hwl : Forall (fun w : seq => Z.of_nat (length w) <= 2 ^ 40)%Z ws0) (Ha : (Z.of_nat a0 <= bsize (zb z0))%Z).
    Context (F0 : hfull fl (zb z0)) (O0 : own_inv fl (0, 0, phase_of fl (zb z0)) [] (zb z0)).

    Definition has_room (ops : list (sop fl)) : Prop :=
      sdraws_fine fl ops /\ (Z.of_nat (pred (length (symbols_of ops))) <= bsize (zb z0))%Z.

    Lemma codes_fresh h : fresh_ascending ws0 (enc (adds syms0 h) h).
    Proof.
      intros a c b E Hc Hna x Hx. unfold enc in E at 1. apply map_eq_app in E as (ha & hb & -> & Ea & Eb).
      destruct hb as [|y hb]; [discriminate Eb|]. cbn [map] in Eb. injection Eb as Ec _.
      change (ha ++ y :: hb) with (ha ++ [y] ++ hb) in *. rewrite app_assoc in *.
      set (S := adds syms0 ((ha ++ [y]) ++ hb)) in *.
      assert (ES : exists r, S = adds syms0 (ha ++ [y]) ++ r) by (unfold S; rewrite adds_app; apply adds_ext).
      destruct ES as [r ES].
      assert (Hy0 : ~ In y syms0).
      { intro Hy. apply Hc. rewrite <- Ec. unfold S. destruct (adds_ext ((ha ++ [y]) ++ hb) syms0) as [r' ->].
        rewrite pos_of_app by easy. apply (ss_known Z0). now apply pos_of_lt. }
      assert (Hya : ~ In y ha).
      { intro Hy. apply Hna. rewrite <- Ea. apply in_map_iff. exists y. now split. }
      assert (E1 : adds syms0 (ha ++ [y]) = adds syms0 ha ++ [y]).
      { rewrite adds_app. cbn [adds fold_left]. unfold add1. destruct (in_dec Z.eq_dec y (adds syms0 ha)) as [Hi|Hi]; [|easy].
        exfalso. apply adds_in in Hi as [Hi|Hi]; contradiction. }
      assert (HNS : NoDup S) by (apply adds_nodup; exact (ss_nodup Z0)).
      assert (Ecl : c = Z.of_nat (length (adds syms0 ha))).
      { rewrite <- Ec. f_equal. apply pos_of_unique; [exact HNS|]. rewrite ES, E1, <- app_assoc, nth_error_app2, Nat.sub_diag by lia. easy. }
      rewrite Ecl. destruct Hx as [Hx|Hx].
      - pose proof (ss_range Z0 [x] Hx x ltac:(now left)). destruct (adds_ext ha syms0) as [r' ->]. rewrite app_length. lia.
      - rewrite <- Ea in Hx. apply in_map_iff in Hx as (x' & <- & Hx').
        assert (Hi : In x' (adds syms0 ha)) by (apply adds_in; now right).
        rewrite ES, E1, <- app_assoc, pos_of_app by easy. pose proof (pos_of_lt _ _ Hi). lia.
    Qed.
    Lemma distinct_codes ops bops : accepted fl bops = map (enc (symbols_of ops)) (fed fl ops) ->
      distinct (ws0 ++ accepted fl bops) <= length (symbols_of ops).
    Proof.
      intro E. unfold distinct. rewrite <- (codes_length 0 (length (symbols_of ops))). apply NoDup_incl_length; [apply NoDup_nodup|].
      intros c Hc. apply nodup_In in Hc. rewrite concat_app in Hc.
      assert (Hr : (0 <= c < Z.of_nat (length (symbols_of ops)))%Z).
      { apply in_app_or in Hc as [Hc|Hc].
        - apply in_concat in Hc as (w & Hw & Hc). pose proof (ss_range Z0 w Hw c Hc). unfold symbols_of.
          destruct (adds_ext (seen fl ops) syms0) as [r ->]. rewrite app_length. lia.
        - rewrite E, enc_concat in Hc. apply (enc_range _ (concat (fed fl ops))); [|exact Hc].
          intros e He. apply symbols_in. now right. }
      unfold codes. apply in_map_iff. exists (Z.to_nat c). split; [lia|]. apply in_seq. lia.
    Qed.
    Lemma sim_safe ops z bops : sim ops z bops -> normal fl N ops -> has_room ops -> safe_ops fl ws0 (zb z0) N bops.
    Proof.
      intros S (Hen & (HN & Hlf & Hh & Hup)) (Hdr & Hrm). split; [|split; [|split; [|split; [exact (sm_known _ _ _ S)|split]]]].
      - intros e s Hi. destruct (sm_env _ _ _ S e s Hi) as [s' Hi']. now apply (Hen e s').
      - intros e s Hi. destruct (sm_env _ _ _ S e s Hi) as [s' Hi']. now apply (Hdr e s').
      - split; [easy|]. split; [|pose proof (sm_proc _ _ _ S); lia]. rewrite (sm_acc _ _ _ S). apply Forall_forall. intros q Hq.
        apply in_map_iff in Hq as (x & <- & Hx). unfold enc. rewrite map_length. exact (proj1 (Forall_forall _ _) Hlf x Hx).
      - rewrite (sm_acc _ _ _ S), enc_concat. apply codes_fresh.
      - pose proof (distinct_codes ops bops (sm_acc _ _ _ S)). lia.
    Qed.

    Lemma HBb : (0 <= N <= 2 ^ 40)%Z -> (kmax + N <= B <= 2 ^ 52)%Z.
    Proof. rewrite HB. unfold kmax. lia. Qed.

    Lemma calm_full ops z bops : sim ops z bops -> normal fl N ops -> has_room ops -> calm fl syms0 z0 ops -> hfull fl (zb z).
    Proof.
      intros S Hn Hr Hc. pose proof (sim_safe ops z bops S Hn Hr) as Hs. pose proof Hn as (_ & (HN & _)).
      destruct (window_exists fl (zb z0) (phase_of fl (zb z0)) bops (zb z) (sm_hist _ _ _ S)) as [w W].
      exact (proj1 (own_hist fl L ws0 a0 (zb z0) B Size N d00 st00 (ss_binv Z0) S0 Hcl Hwl (HBb HN) HSz Ha F0 O0 bops w (zb z)
        W Hs (sm_calm _ _ _ S Hc))).
    Qed.

    (** C38 *)
    Lemma put_same (z : stream fl) p d : hget fl (zb z) p = Ok d -> put_dict fl z p d = z.
    Proof.
      intro Hg. assert (Hlt : p < length (bheap (zb z))) by (unfold hget in Hg; apply vget_ok in Hg; apply nth_error_Some; congruence).
      assert (E : upd (bheap (zb z)) p d = bheap (zb z)).
      { apply nth_error_ext'. intro i. destruct (Nat.eq_dec p i) as [<-|Hi].
        - rewrite upd_same by exact Hlt. unfold hget in Hg. apply vget_ok in Hg. now rewrite Hg.
        - now rewrite upd_other. }
      unfold put_dict, hput. rewrite E. clear. destruct z as [zs b zd zc zf zt zm]. cbn [zsize zb zdict zcoder zfreqs ztotal zminp].
      f_equal. now destruct b.
    Qed.
    Lemma parse_pure ops z s al : shist fl z0 ops z -> normal fl N ops -> room -> has_room ops -> calm fl syms0 z0 ops ->
      s_alphabet fl z = Ok al -> covers al (restrict (syms0 ++ seen fl ops) s) -> (Z.of_nat (length s) <= 2 ^ 40)%Z ->
      exists ids, s_parse fl z s = Ok (ids, z) /\ spells al ids (restrict (syms0 ++ seen fl ops) s).
    Proof.
      intros H Hn HR Hr Hc Hal Hcov Hl. destruct (sim_exists ops z H Hn) as [bops S].
      pose proof (calm_full ops z bops S Hn Hr Hc) as F.
      destruct (zdict z) as [p|] eqn:Ep; [|unfold s_alphabet, the_dict in Hal; rewrite Ep in Hal; discriminate Hal].
      destruct (parse_spec ops z bops p s S Hn HR Ep Hl) as (d & ids & d' & Hg & E & Epw & Hsp & Hext).
      rewrite (alphabet_is ops z bops p d S Ep Hg) in Hal. injection Hal as <-. rewrite <- restrict_symbols in *.
      assert (Hin : In d (bheap (zb z))) by (now apply (hget_in fl _ _ _) in Hg).
      assert (Hks : forall c, In c (restrict (symbols_of ops) s) -> In c (symbols_of ops)) by (intros c Hcc; now apply restrict_in in Hcc).
      apply (covers_codes ops z bops d _ S Hin Hks) in Hcov.
      assert (Hfd : full_dict d) by (exact (proj1 (proj1 (Forall_forall _ _) F d Hin))).
      assert (d' = d) by (exact (parse_known fl d _ _ _ [] ids (length ids) d' Hfd Hcov Epw)). subst d'.
      rewrite (put_same z p d Hg) in E. exists ids. split; [exact E|].
      rewrite <- (dec_enc (symbols_of ops) (restrict (symbols_of ops) s) Hks) at 1. now apply spells_decw.
    Qed.

    (** C41: the words are distinct. *)
    Lemma decw_inj S u v : NoDup S -> in_range S u -> in_range S v -> decw S u = decw S v -> u = v.
    Proof.
      intros Hn. revert v. induction u as [|x u IH]; intros [|y v] Hu Hv E; try discriminate E; [easy|]. cbn in E. injection E as Ex Eu.
      assert (Hx : (0 <= x < Z.of_nat (length S))%Z) by (apply Hu; now left).
      assert (Hy : (0 <= y < Z.of_nat (length S))%Z) by (apply Hv; now left). f_equal.
      - assert (Z.to_nat x = Z.to_nat y); [|lia]. apply (proj1 (NoDup_nth S 0%Z) Hn); [lia|lia|exact Ex].
      - apply IH; [intros c Hc; apply Hu; now right|intros c Hc; apply Hv; now right|exact Eu].
    Qed.
    Lemma alphabet_distinct ops z al : shist fl z0 ops z -> normal fl N ops -> has_room ops -> calm fl syms0 z0 ops ->
      s_alphabet fl z = Ok al -> NoDup al /\ symbol_closed al /\ ~ In [] al.
    Proof.
      intros H Hn Hr Hc Hal. destruct (sim_exists ops z H Hn) as [bops S].
      pose proof (calm_full ops z bops S Hn Hr Hc) as F.
      destruct (zdict z) as [p|] eqn:Ep; [|unfold s_alphabet, the_dict in Hal; rewrite Ep in Hal; discriminate Hal].
      destruct (nth_lt _ _ (sm_dict _ _ _ S p Ep)) as [d Hg].
      assert (Hin : In d (bheap (zb z))) by (now apply nth_error_In in Hg). apply vget_some in Hg.
      rewrite (alphabet_is ops z bops p d S Ep Hg) in Hal. injection Hal as <-.
      destruct (proj1 (Forall_forall _ _) F d Hin) as [[Hst _] Hcd]. split; [|split].
      - assert (G : forall l, (forall w, In w l -> in_range (symbols_of ops) w) -> NoDup l -> NoDup (map (decw (symbols_of ops)) l)).
        { induction l as [|w l IH]; intros Hrg Hnd; cbn [map]; [constructor|]. inversion_clear Hnd as [|? ? Hw Hl]. constructor.
          - intro Hi. apply in_map_iff in Hi as (v & Ev & Hv). apply Hw.
            rewrite (decw_inj (symbols_of ops) w v); [exact Hv|apply symbols_nodup|apply Hrg; now left|apply Hrg; now right|easy].
          - apply IH; [|easy]. intros v Hv. apply Hrg. now right. }
        apply G; [intros w Hw; now apply (words_range ops z bops d w S)|]. now apply strict_nodup.
      - intros w Hw c Hcw. apply in_map_iff in Hw as (v & <- & Hv). apply in_map_iff in Hcw as (k & <- & Hk).
        apply in_map_iff. exists [k]. split; [easy|]. now apply (Hcd v).
      - intro Hi. apply in_map_iff in Hi as (v & Ev & Hv). destruct v; [|discriminate Ev].
        destruct (proj1 (Forall_forall _ _) (bi_heap _ _ _ _ _ _ _ (sm_binv _ _ _ S)) d Hin) as (_ & Hne & _). now apply (Hne [] Hv).
    Qed.

    (** C39 *)
    Lemma counted_decode w ops ws fs : counted w (map (enc (symbols_of ops)) (fed fl ops)) ws fs ->
      counted w (fed fl ops) (map (decw (symbols_of ops)) ws) fs.
    Proof.
      destruct w as [[i j] ph]. intros (Hij & log & Ey & Hsp & Hlen & Hat). rewrite map_length in Hij. split; [exact Hij|].
      rewrite skipn_map, firstn_map in Ey. set (y := firstn (j - i) (skipn i (fed fl ops))) in *. symmetry in Ey.
      assert (Hyf : forall s, In s y -> In s (fed fl ops)).
      { intros s Hs. unfold y in Hs. rewrite <- (firstn_skipn i (fed fl ops)). apply in_or_app. right.
        rewrite <- (firstn_skipn (j - i) (skipn i (fed fl ops))). apply in_or_app. now left. }
      exists (combine y (map snd log)).
      assert (Hl : length y = length (map snd log)) by (rewrite <- (map_length (enc (symbols_of ops)) y), Ey, !map_length; easy).
      assert (Hfst : map fst (combine y (map snd log)) = y).
      { clear -Hl. revert Hl. generalize (map snd log). induction y as [|a y IH]; intros [|b l] Hl; cbn in *; try easy; try lia. f_equal. apply IH. lia. }
      assert (Hsnd : map snd (combine y (map snd log)) = map snd log) by (now apply combine_snd).
      split; [exact Hfst|]. split; [|split; [now rewrite map_length|]].
      - apply Forall_forall. intros [s ids] Hi. cbn [fst snd].
        assert (Hy : forall c, In c s -> In c (symbols_of ops)).
        { intros c Hc. apply (fed_known ops s); [|easy]. apply Hyf. rewrite <- Hfst.
          apply in_map_iff. now exists (s, ids). }
        rewrite <- (dec_enc (symbols_of ops) s Hy). apply spells_decw.
        assert (Hlog : In (enc (symbols_of ops) s, ids) log).
        { clearbody y. clear -Hi Ey Hl. revert y Ey Hl Hi. induction log as [|[q ii] log IH]; intros [|a y] Ey Hl Hi; cbn in *; try easy.
          injection Ey as Ea Ey. destruct Hi as [Hi|Hi].
          - injection Hi as <- <-. left. now rewrite Ea.
          - right. apply (IH y); [easy|lia|easy]. }
        exact (proj1 (Forall_forall _ _) Hsp _ Hlog).
      - intro k. rewrite Hat. unfold log_occ.
        assert (Em : forall l : list (seq * list nat), map (fun p => occ (snd p) k) l = map (fun i => occ i k) (map snd l)) by (intro; now rewrite map_map).
        now rewrite !Em, Hsnd.
    Qed.

    (** What an update that changes the dictionary does to the frequencies. *)
    Lemma update_freqs ops w z z' : swhist fl z0 (phase_of fl (zb z0)) ops w z -> normal fl N (ops ++ [SUpdate]) -> has_room ops ->
      calm fl syms0 z0 ops -> s_update fl z = Ok z' ->
      (z' = z /\ zdict z = Some (result_ptr fl (zb z))) \/
      (exists r al, s_freqs fl z' = s_freqs fl z ++ r /\ s_alphabet fl z' = Ok al /\ counted w (fed fl ops) al r).
    Proof.
      intros W Hn' Hr Hc Hu. pose proof (swindow_shist _ _ _ _ W) as H. pose proof (normal_snoc _ _ _ Hn') as Hn.
      destruct (sim_window _ ops w z W Hn) as (bops & S & WB).
      destruct (sim_exists (ops ++ [SUpdate]) z') as [bops' S']; [now apply (sh_step fl z0 ops z)|exact Hn'|].
      assert (ES : symbols_of (ops ++ [SUpdate]) = symbols_of ops).
      { unfold symbols_of. rewrite seen_snoc. cbn [op_fed concat]. now rewrite app_nil_r. }
      assert (G : forall fs b mp, result_freqs fl (zb z) (zfreqs z) = Ok (fs, b) ->
        z' = mkStream (zsize z) b (Some (result_ptr fl (zb z))) (zcoder z) fs (isum fs) mp ->
        exists r al, s_freqs fl z' = s_freqs fl z ++ r /\ s_alphabet fl z' = Ok al /\ counted w (fed fl ops) al r).
      { intros fs b mp Hf ->. apply freqs_prefix in Hf as (r & Hf & ->). pose proof Hn as (_ & (HN & _)).
        destruct (result_counted fl L ws0 a0 (zb z0) B Size N d00 st00 (ss_binv Z0) S0 Hcl Hwl (HBb HN) HSz Ha F0 O0 bops w (zb z) r b
          WB (sim_safe ops z bops S Hn Hr) (sm_calm _ _ _ S Hc) Hf) as (d & Hg & Hcn).
        exists r, (map (decw (symbols_of ops)) (seqs d)). split; [easy|]. split.
        - rewrite <- ES. apply (alphabet_is _ _ bops' (result_ptr fl (zb z)) d S'); [easy|]. cbn [zb].
          clear -Hf Hg. unfold result_freqs in Hf. apply bind_ok in Hf as (d2 & _ & Hf). destruct (bres (zb z)); injection Hf as _ <-; exact Hg.
        - apply counted_decode. rewrite <- (sm_acc _ _ _ S). exact Hcn. }
      unfold s_update in Hu. destruct (zdict z) as [q|] eqn:Eq.
      - destruct (Nat.eqb_spec q (result_ptr fl (zb z))) as [->|Hq].
        + left. injection Hu as <-. easy.
        + right. apply bind_ok in Hu as ([fs b] & Hf & Hu). injection Hu as <-. exact (G fs b _ Hf eq_refl).
      - right. apply bind_ok in Hu as ([fs b] & Hf & Hu). injection Hu as <-. exact (G fs b _ Hf eq_refl).
    Qed.

    (** Totality of accept. *)
    Lemma s_accept_total ops z e s : shist fl z0 ops z -> normal fl N (ops ++ [SAccept e s]) -> has_room (ops ++ [SAccept e s]) ->
      exists z', s_accept fl e z s = Ok z'.
    Proof.
      intros H Hn' Hr'. pose proof (normal_snoc _ _ _ Hn') as Hn. destruct (sim_exists ops z H Hn) as [bops S].
      destruct (like_encode s _ _ (symbols_nodup ops) (sm_coder _ _ _ S)) as (c' & Ec & Hc'). unfold s_accept. rewrite Ec.
      set (q := enc (adds (symbols_of ops) s) s).
      assert (ES : symbols_of (ops ++ [SAccept e s]) = adds (symbols_of ops) s).
      { unfold symbols_of. rewrite seen_snoc. cbn [op_fed concat]. now rewrite app_nil_r, adds_app. }
      assert (Hql : length q = length s) by (unfold q, enc; apply map_length).
      assert (Hr : has_room ops).
      { destruct Hr' as [H1 H2]. split; [intros e1 s1 Hi; apply (H1 e1 s1), in_or_app; now left|].
        destruct (symbols_ext ops (SAccept e s)) as [r Er]. rewrite Er, app_length in H2. lia. }
      assert (Hacc : accepted fl (bops ++ [BAccept e q]) = map (enc (symbols_of (ops ++ [SAccept e s]))) (fed fl (ops ++ [SAccept e s]))).
      { rewrite accepted_snoc, fed_snoc. cbn [op_accepted op_fed]. rewrite map_app, ES. cbn [map]. f_equal.
        rewrite (sm_acc _ _ _ S). apply map_ext_in. intros x Hx. destruct (adds_ext s (symbols_of ops)) as [r ->].
        rewrite enc_ext; [easy|]. intros c Hc. now apply (fed_known ops x). }
      assert (Hsafe : safe_ops fl ws0 (zb z0) N (bops ++ [BAccept e q])).
      { destruct (sim_safe ops z bops S Hn Hr) as (H1 & H2 & H3 & H4 & H5 & H6). pose proof Hn' as (Hen & (HN & Hlf & Hh & Hup)).
        destruct Hr' as [Hdr Hrm]. rewrite handled_snoc in Hh. cbn [op_handled] in Hh.
        assert (Hlast : In (SAccept e s) (ops ++ [SAccept e s])) by (apply in_or_app; right; now left).
        split; [|split; [|split; [|split; [|split]]]].
        - intros e1 s1 Hi. apply in_app_or in Hi as [Hi|[Hi|[]]]; [now apply (H1 e1 s1)|]. injection Hi as <- _. now apply (Hen e s).
        - intros e1 s1 Hi. apply in_app_or in Hi as [Hi|[Hi|[]]]; [now apply (H2 e1 s1)|]. injection Hi as <- _. now apply (Hdr e s).
        - split; [easy|]. split.
          + rewrite Hacc. apply Forall_forall. intros y Hy. apply in_map_iff in Hy as (x & <- & Hx). unfold enc. rewrite map_length.
            exact (proj1 (Forall_forall _ _) Hlf x Hx).
          + rewrite processed_snoc. cbn [op_length]. rewrite Hql. pose proof (sm_proc _ _ _ S). lia.
        - apply shared_known_snoc; [exact H4|]. intros; discriminate.
        - rewrite Hacc, enc_concat. apply codes_fresh.
        - pose proof (distinct_codes _ _ Hacc). lia. }
      pose proof Hn as (_ & (HN & _)). destruct (uhist_exists fl 0 (zb z0) bops (zb z) (sm_hist _ _ _ S)) as [pre U].
      destruct (safe_hist fl L ws0 a0 (zb z0) B Size N d00 st00 (ss_binv Z0) S0 Hcl Hwl (HBb HN) HSz Ha bops pre (zb z) U (sim_safe ops z bops S Hn Hr))
        as (I & Hb & d & d0 & st0 & log & SI).
      destruct (safe_next fl L ws0 a0 (zb z0) B Size N Hcl Hwl (HBb HN) HSz Ha pre bops (zb z) e q d d0 st0 log I SI Hb Hsafe) as (b' & E & _).
      rewrite E. cbn [bind]. now eexists.
    Qed.
  End Sim.
End Stream.
