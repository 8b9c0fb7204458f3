(** Proofs about IntVGram. *)
From Verif Require Import Base Spec FloatOps FloatLaws OrderProofs DictProofs GreedyProofs DpProofs WeightedProofs ModelDict Maps
  ModelCoder SpecCoder CoderProofs ModelStat ModelBuilder ModelStream ModelVGram SpecStat SpecBuilder StatProofs RunProofs ExpandProofs
  LearnProofs PropsStatLemmas BuilderProofs BuilderSafe BuilderOwn StreamProofs SpecStream SpecVGram.

(** ** Decimal numerals *)
Lemma value_app a b : value (a ++ b) = (value a * 10 ^ Z.of_nat (length b) + value b)%Z.
Proof.
  assert (G : forall b x, fold_left (fun a c => 10 * a + (c - 48))%Z b x = (x * 10 ^ Z.of_nat (length b) + value b)%Z).
  { clear. unfold value. induction b as [|c b IH]; intro x; cbn [fold_left length]; [lia|]. rewrite IH, (IH (10 * 0 + (c - 48))%Z).
    rewrite Nat2Z.inj_succ, Z.pow_succ_r by lia. lia. }
  unfold value at 1. rewrite fold_left_app. apply G.
Qed.
Lemma digits_spec : forall f n, (0 <= n)%Z -> (n < 10 ^ Z.of_nat f)%Z -> f <> 0 -> numeral (digits f n) n.
Proof.
  induction f as [|f IH]; intros n H0 Hn Hf; [easy|]. cbn [digits]. destruct (Z.ltb_spec n 10) as [Hlt|Hge].
  - split; [easy|]. split; [constructor; [unfold digit; lia|constructor]|]. split; [unfold value; cbn [fold_left]; lia|].
    cbn [hd]. intro E. f_equal. exact E.
  - pose proof (Z_div_mod_eq_full n 10). pose proof (Z.mod_pos_bound n 10 ltac:(lia)).
    assert (Hq : (n / 10 < 10 ^ Z.of_nat f)%Z).
    { rewrite Nat2Z.inj_succ, Z.pow_succ_r in Hn by lia. apply Z.div_lt_upper_bound; lia. }
    assert (Hf0 : f <> 0) by (intros ->; cbn in Hq; assert (1 <= n / 10)%Z by (apply Z.div_le_lower_bound; lia); lia).
    destruct (IH (n / 10)%Z ltac:(apply Z.div_pos; lia) Hq Hf0) as (Hne & Hd & Hv & Hz).
    split; [intro E; apply app_eq_nil in E; now destruct E|]. split; [|split].
    + apply Forall_app. split; [exact Hd|]. constructor; [unfold digit; lia|constructor].
    + rewrite value_app, Hv. cbn [length]. unfold value. cbn [fold_left]. lia.
    + intro E. exfalso. destruct (digits f (n / 10)) as [|c t] eqn:Ed; [easy|]. cbn [app hd] in E. subst c.
      specialize (Hz eq_refl). injection Hz as ->. unfold value in Hv. cbn in Hv.
      assert (1 <= n / 10)%Z by (apply Z.div_le_lower_bound; lia). lia.
Qed.
Lemma dec_numeral n : (0 <= n)%Z -> numeral (dec n) n.
Proof.
  intro H. unfold dec. apply digits_spec; [exact H| |easy]. rewrite Nat2Z.inj_succ, Z2Nat.id by apply Z.log2_nonneg.
  destruct (Z.eq_dec n 0) as [->|Hn]; [easy|]. pose proof (Z.log2_spec n ltac:(lia)) as [_ Hl].
  eapply Z.lt_le_trans; [exact Hl|]. apply Z.pow_le_mono_l. lia.
Qed.
Lemma numeral_unique t u n m : numeral t n -> t = u -> numeral u m -> n = m.
Proof. intros (_ & _ & <- & _) <- (_ & _ & <- & _). easy. Qed.

Lemma ids_written ids : written (ids_string ids) ids.
Proof.
  unfold written, ids_string. destruct ids as [|i ids]; [now left|]. right. split; [easy|].
  exists (map (fun i => int_to_string (Z.of_nat i)) (i :: ids)). split.
  - generalize (i :: ids). clear. induction l as [|i l IH]; cbn [map]; constructor; [|exact IH].
    unfold int_to_string. destruct (Z.ltb_spec (Z.of_nat i) 0); [lia|]. apply dec_numeral. lia.
  - assert (G : forall l, flat_map (fun i => 32%Z :: int_to_string (Z.of_nat i)) l = flat_map (fun t => 32%Z :: t) (map (fun i => int_to_string (Z.of_nat i)) l)).
    { induction l as [|j l IH]; [easy|]. cbn [flat_map map]. now rewrite IH. }
    rewrite <- G. reflexivity.
Qed.

(** A text of numerals preceded by spaces can be read in one way only. *)
Lemma split_space : forall (t u a b : list Z), Forall digit t -> Forall digit u ->
  (a = [] \/ hd 0%Z a = 32%Z) -> (b = [] \/ hd 0%Z b = 32%Z) -> t ++ a = u ++ b -> t = u /\ a = b.
Proof.
  induction t as [|c t IH]; intros u a b Ht Hu Ha Hb E; destruct u as [|e u]; cbn [app] in E.
  - easy.
  - subst a. inversion_clear Hu. destruct Ha as [Ha|Ha]; [discriminate|]. cbn in Ha. unfold digit in *. lia.
  - subst b. inversion_clear Ht. destruct Hb as [Hb|Hb]; [discriminate|]. cbn in Hb. unfold digit in *. lia.
  - injection E as -> E. inversion_clear Ht. inversion_clear Hu.
    destruct (IH u a b) as [-> ->]; easy.
Qed.
Lemma spaced_head (ts : list (list Z)) : flat_map (fun t => 32%Z :: t) ts = [] \/ hd 0%Z (flat_map (fun t => 32%Z :: t) ts) = 32%Z.
Proof. destruct ts; [now left|now right]. Qed.
Lemma spaced_inj : forall ts us a b, Forall2 (fun t i => numeral t (Z.of_nat i)) ts a -> Forall2 (fun t i => numeral t (Z.of_nat i)) us b ->
  flat_map (fun t => 32%Z :: t) ts = flat_map (fun t => 32%Z :: t) us -> a = b.
Proof.
  intros ts us a b Ha. revert us b. induction Ha as [|t i ts a Ht Ha IH]; intros us b Hb E; destruct Hb as [|u j us b Hu Hb]; try easy.
  cbn [flat_map app] in E. injection E as E. apply split_space in E as [Et E]; [|apply Ht|apply Hu|apply spaced_head|apply spaced_head].
  f_equal; [|now apply (IH us)]. pose proof (numeral_unique _ _ _ _ Ht Et Hu). lia.
Qed.
Lemma written_inj s a b : written s a -> written s b -> a = b.
Proof.
  intros [[-> ->]|(Ha & ts & Hts & ->)] [[-> E]|(Hb & us & Hus & E)]; try easy.
  - destruct us; [inversion Hus; congruence|discriminate E].
  - destruct ts; [inversion Hts; congruence|discriminate E].
  - exact (spaced_inj _ _ _ _ Hts Hus E).
Qed.

(** ** Sums *)
Lemma total_nonneg xs : (0 <= total_symbols xs)%Z.
Proof. unfold total_symbols. induction xs as [|x xs IH]; cbn [map zsum fold_right]; [lia|]. unfold zsum in *. lia. Qed.
Lemma spells_bound ws ids x : spells ws ids x -> Forall (fun i => i < length ws) ids /\
  zsum (map (fun i => Z.of_nat (length (nth i ws []))) ids) = Z.of_nat (length x).
Proof.
  intros (vs & H & <-). induction H as [|i v ids vs Hi H IH]; [now split|]. destruct IH as [I1 I2].
  split.
  - constructor; [|exact I1]. unfold word_at in Hi. apply nth_error_Some. congruence.
  - cbn [map zsum fold_right concat]. fold (zsum (map (fun i => Z.of_nat (length (nth i ws []))) ids)). rewrite I2, app_length.
    rewrite (nth_error_nth ws i [] Hi). lia.
Qed.
Lemma zsum_cons a l : zsum (a :: l) = (a + zsum l)%Z.
Proof. reflexivity. Qed.
Lemma weight_total ws xs freqs : counts_readings ws xs freqs -> weight ws freqs = total_symbols xs.
Proof.
  intros (rs & H & _ & Hat). unfold weight. change (sumf (length ws) (fun j => at0 freqs j * Z.of_nat (length (nth j ws [])))%Z = total_symbols xs).
  rewrite (sumf_ext _ _ (fun j => zsum (map (fun ids => occ ids j) rs) * Z.of_nat (length (nth j ws [])))%Z) by (intros j _; now rewrite Hat).
  clear Hat. unfold total_symbols. induction H as [|x ids xs rs Hx H IH].
  - apply sumf_zero. easy.
  - cbn [map]. rewrite zsum_cons, <- IH. destruct (spells_bound _ _ _ Hx) as [Hb Hs]. rewrite <- Hs, <- (sum_occ (length ws) ids _ Hb), <- sumf_add.
    apply sumf_ext. intros j _. rewrite zsum_cons. lia.
Qed.
Lemma zsum_at0 l : zsum l = sumf (length l) (at0 l).
Proof.
  induction l as [|x l IH] using rev_ind; [easy|]. rewrite zsum_app, app_length, Nat.add_1_r, sumf_S. cbn [zsum fold_right]. f_equal.
  - rewrite IH. apply sumf_ext. intros i Hi. unfold at0. now rewrite app_nth1.
  - unfold at0. rewrite app_nth2, Nat.sub_diag by lia. cbn. lia.
Qed.
Lemma counts_sum ws xs freqs : ~ In [] ws -> counts_readings ws xs freqs -> Forall (fun f => 0 <= f)%Z freqs /\ (zsum freqs <= total_symbols xs)%Z.
Proof.
  intros Hne H. pose proof (weight_total _ _ _ H) as Hw. destruct H as (rs & H & Hl & Hat).
  assert (Hnn : forall j, (0 <= at0 freqs j)%Z).
  { intro j. rewrite Hat. apply zsum_nonneg. apply Forall_forall. intros f Hf. apply in_map_iff in Hf as (ids & <- & _). apply occ_nonneg. }
  split.
  - apply Forall_forall. intros f Hf. apply In_nth_error in Hf as [i Hi]. specialize (Hnn i). now rewrite at0_nth, Hi in Hnn.
  - rewrite zsum_at0, Hl, <- Hw. unfold weight. fold (sumf (length ws) (fun j => at0 freqs j * Z.of_nat (length (nth j ws [])))%Z).
    clear -Hne Hnn. assert (G : forall n, n <= length ws -> (sumf n (at0 freqs) <= sumf n (fun j => at0 freqs j * Z.of_nat (length (nth j ws []))))%Z).
    { induction n as [|n IH]; intro Hn; [easy|]. rewrite !sumf_S. specialize (IH ltac:(lia)). specialize (Hnn n).
      assert (Hlen : 1 <= length (nth n ws [])).
      { destruct (nth n ws []) eqn:E; [|cbn; lia]. exfalso. apply Hne. rewrite <- E. apply nth_In. lia. }
      nia. }
    now apply G.
Qed.

(** ** Calls of the random sampling *)
Section V.
  Context (fl : fops) (L : flaws fl).

  Lemma shist_app z0 a z b z' : shist fl z0 a z -> shist fl z b z' -> shist fl z0 (a ++ b) z'.
  Proof.
    intros H. induction 1 as [|b z1 op z2 Hb IH Hs]; [now rewrite app_nil_r|]. rewrite app_assoc. now apply (sh_step fl z0 (a ++ b) z1).
  Qed.

  Lemma sample_run w xs : forall n t z stop t' z', sample fl w xs n t z = Ok (stop, t', z') ->
    (stop = false /\ t' = t + n /\ shist fl z (map (draw fl w xs) (List.seq t n)) z' /\ forall k, t <= k < t + n -> w_term w k = false) \/
    (stop = true /\ exists m, m < n /\ w_term w (t + m) = true /\ (forall k, t <= k < t + m -> w_term w k = false) /\
      shist fl z (map (draw fl w xs) (List.seq t (S m))) z').
  Proof.
    induction n as [|n IH]; intros t z stop t' z' H; cbn [sample] in H.
    - injection H as <- <- <-. left. split; [easy|]. split; [lia|]. split; [constructor|]. intros k Hk. lia.
    - apply bind_ok in H as (x & Hx & H). apply bind_ok in H as (z1 & Ha & H).
      assert (Hs : shist fl z [draw fl w xs t] z1).
      { apply (sh_step fl z [] z); [constructor|]. unfold sstep, draw, drawn. apply vget_ok in Hx. pose proof (nth_error_nth _ _ ([] : seq) Hx) as En. unfold seq in *. now rewrite En. }
      destruct (w_term w t) eqn:Et.
      + injection H as <- <- <-. right. split; [easy|]. exists 0. split; [lia|]. rewrite Nat.add_0_r. split; [easy|]. split; [intros k Hk; lia|exact Hs].
      + apply IH in H as [(-> & -> & H & Hk)|(-> & m & Hm & H1 & H2 & H)].
        * left. split; [easy|]. split; [lia|]. split; [exact (shist_app _ _ _ _ _ Hs H)|]. intros k Hkk.
          destruct (Nat.eq_dec k t) as [->|]; [easy|]. apply Hk. lia.
        * right. split; [easy|]. exists (S m). split; [lia|]. replace (t + S m) with (S t + m) by lia. split; [easy|]. split.
          -- intros k Hk. destruct (Nat.eq_dec k t) as [->|]; [easy|]. apply H2. lia.
          -- exact (shist_app _ _ _ _ _ Hs H).
  Qed.

  Lemma flat_map_seq_S {A} (f : nat -> list A) i n : flat_map f (List.seq i (S n)) = f i ++ flat_map f (List.seq (S i) n).
  Proof. reflexivity. Qed.
  Lemma rounds_run w xs : forall n i z stop t' z', rounds fl w xs n (i * length xs) z = Ok (stop, t', z') ->
    let ops := flat_map (round fl w xs) (List.seq i n) in
    (stop = false /\ t' = (i + n) * length xs /\ shist fl z ops z' /\ forall k, i * length xs <= k < (i + n) * length xs -> w_term w k = false) \/
    (stop = true /\ exists a b k, ops = a ++ draw fl w xs k :: b /\ i * length xs <= k < (i + n) * length xs /\ w_term w k = true /\
      (forall j, i * length xs <= j < k -> w_term w j = false) /\ shist fl z (a ++ [draw fl w xs k]) z').
  Proof.
    induction n as [|n IH]; intros i z stop t' z' H; cbn [rounds] in H; cbv zeta.
    - injection H as <- <- <-. left. split; [easy|]. split; [f_equal; lia|]. split; [constructor|]. intros k Hk. lia.
    - apply bind_ok in H as ([[stop1 t1] z1] & Hs & H). rewrite flat_map_seq_S.
      apply sample_run in Hs as [(-> & -> & Hs & Hk)|(-> & m & Hm & H1 & H2 & Hs)].
      + apply bind_ok in H as (z2 & Hu & H).
        assert (Hr : shist fl z (round fl w xs i) z2) by (now apply (sh_step fl z _ z1)).
        replace (i * length xs + length xs) with (S i * length xs) in H by lia.
        apply IH in H as [(-> & -> & H & Hk2)|(-> & a & b & k & E & Hkb & Hkt & Hkf & H)].
        * left. split; [easy|]. split; [f_equal; lia|]. split; [exact (shist_app _ _ _ _ _ Hr H)|]. intros k Hkk.
          destruct (Nat.lt_ge_cases k (S i * length xs)); [apply Hk; lia|]. apply Hk2. lia.
        * right. split; [easy|]. exists (round fl w xs i ++ a), b, k. rewrite E, <- app_assoc. split; [easy|]. split; [lia|]. split; [easy|]. split.
          -- intros j Hj. destruct (Nat.lt_ge_cases j (S i * length xs)); [apply Hk; lia|]. apply Hkf. lia.
          -- rewrite <- app_assoc. exact (shist_app _ _ _ _ _ Hr H).
      + injection H as <- <- <-. right. split; [easy|].
        exists (map (draw fl w xs) (List.seq (i * length xs) m)),
          (map (draw fl w xs) (List.seq (i * length xs + S m) (length xs - S m)) ++ SUpdate :: flat_map (round fl w xs) (List.seq (S i) n)),
          (i * length xs + m). split; [|split; [nia|split; [easy|split; [exact H2|]]]].
        * unfold round at 1. replace (length xs) with (m + S (length xs - S m)) at 2 by lia. rewrite seq_app, map_app. cbn [List.seq map].
          rewrite <- ?app_assoc. cbn [app]. rewrite <- ?app_assoc. cbn [app]. replace (S (i * length xs + m)) with (i * length xs + S m) by lia. reflexivity.
        * rewrite seq_S, map_app in Hs. exact Hs.
  Qed.

  (** Totality, for histories within some limits [P]. *)
  Section Total.
    Context (P : list (sop fl) -> Prop) (z0 : stream fl).
    Context (Pre : forall a b, P (a ++ b) -> P a).
    Context (Acc : forall ops z e s, shist fl z0 ops z -> P (ops ++ [SAccept e s]) -> exists z', s_accept fl e z s = Ok z').
    Context (Upd : forall ops z, shist fl z0 ops z -> P ops -> exists z', s_update fl z = Ok z').

    Lemma sample_total w xs : xs <> [] -> forall n t ops z, shist fl z0 ops z -> P (ops ++ map (draw fl w xs) (List.seq t n)) ->
      exists r, sample fl w xs n t z = Ok r.
    Proof.
      intros Hxs. induction n as [|n IH]; intros t ops z H HP; cbn [sample]; [now eexists|]. cbn [List.seq map] in HP.
      change (draw fl w xs t :: map (draw fl w xs) (List.seq (S t) n)) with ([draw fl w xs t] ++ map (draw fl w xs) (List.seq (S t) n)) in HP.
      rewrite app_assoc in HP.
      assert (Hlen : 0 < length xs) by (destruct xs; [easy|cbn; lia]).
      assert (Hi : Z.to_nat (w_rand w t mod Z.of_nat (length xs)) < length xs).
      { pose proof (Z.mod_pos_bound (w_rand w t) (Z.of_nat (length xs)) ltac:(lia)). lia. }
      destruct (nth_lt _ _ Hi) as [x Hx]. rewrite (vget_some _ _ _ Hx). cbn [bind].
      destruct (Acc ops z (w_env w t) x H) as [z' Ez].
      { apply Pre in HP. unfold draw, drawn in HP. pose proof (nth_error_nth _ _ ([] : seq) Hx) as En. unfold seq in *. now rewrite En in HP. }
      rewrite Ez. cbn [bind]. destruct (w_term w t); [now eexists|]. apply (IH (S t) (ops ++ [draw fl w xs t])); [|exact HP].
      apply (sh_step fl z0 ops z); [exact H|]. unfold sstep, draw, drawn. pose proof (nth_error_nth _ _ ([] : seq) Hx) as En. unfold seq in *. now rewrite En.
    Qed.
    Lemma rounds_total w xs : forall n i ops z, shist fl z0 ops z -> P (ops ++ flat_map (round fl w xs) (List.seq i n)) ->
      exists r, rounds fl w xs n (i * length xs) z = Ok r.
    Proof.
      induction n as [|n IH]; intros i ops z H HP; cbn [rounds]; [now eexists|]. rewrite flat_map_seq_S in HP.
      assert (Hs : exists r, sample fl w xs (length xs) (i * length xs) z = Ok r).
      { destruct (list_eq_dec (list_eq_dec Z.eq_dec) xs []) as [->|Hne]; [cbn; now eexists|]. apply (sample_total w xs Hne _ _ ops); [exact H|].
        unfold round in HP. rewrite <- !app_assoc, app_assoc in HP. now apply Pre in HP. }
      destruct Hs as [[[stop t1] z1] Hs]. rewrite Hs. cbn [bind].
      apply sample_run in Hs as [(-> & -> & Hs & _)|(-> & _)]; [|now eexists].
      pose proof (shist_app _ _ _ _ _ H Hs) as H1.
      destruct (Upd _ _ H1) as [z2 Hu]. { unfold round in HP. rewrite <- !app_assoc, app_assoc in HP. now apply Pre in HP. }
      rewrite Hu. cbn [bind]. replace (i * length xs + length xs) with (S i * length xs) by lia.
      apply (IH (S i) (ops ++ round fl w xs i)); [|now rewrite <- app_assoc].
      unfold round. rewrite app_assoc. now apply (sh_step fl z0 _ z1).
    Qed.
  End Total.

  (** ** The recomputed frequencies *)
  Lemma encode_known S c : coder_like S c -> forall s, (forall x, In x s -> In x S) -> encode c s = (enc S s, c).
  Proof.
    intro H. induction s as [|x s IH]; intro Hs; [easy|]. cbn [encode]. unfold encode_symbol.
    rewrite !(cl_in _ _ H x (Hs x (or_introl eq_refl))), IH by (intros y Hy; apply Hs; now right). easy.
  Qed.
  Lemma add_all : forall ids acc n, length acc = n -> Forall (fun i => i < n) ids -> exists acc', foldM (fun a i => vadd a i 1) ids acc = Ok acc' /\
    length acc' = n /\ forall j, at0 acc' j = (at0 acc j + occ ids j)%Z.
  Proof.
    induction ids as [|i ids IH]; intros acc n Hn H; cbn [foldM].
    - exists acc. split; [easy|]. split; [easy|]. intro j. unfold occ. cbn. lia.
    - inversion_clear H as [|? ? Hi Hr]. rewrite <- Hn in Hi. destruct (vadd_ok acc i 1 Hi) as (acc1 & E1 & Hl1 & Ha1). rewrite E1. cbn [bind].
      destruct (IH acc1 n ltac:(lia) Hr) as (acc2 & E2 & Hl2 & Ha2). exists acc2. split; [exact E2|]. split; [exact Hl2|].
      intro j. rewrite Ha2, Ha1, occ_cons. destruct (Nat.eqb j i); lia.
  Qed.

  (** Parsing with any small frequencies. *)
  Lemma dict_parse d q fs : full_dict d -> wf_dict d -> (forall w, In w (seqs d) -> w <> []) -> covers (seqs d) q ->
    Forall (fun f => 0 <= f)%Z fs -> (zsum fs <= 2 ^ 52)%Z -> (Z.of_nat (length q) <= 2 ^ 40)%Z -> (Z.of_nat (dsize d) <= 2 ^ 50)%Z ->
    exists ids, parse_weighted fl d q fs (fofZ fl (zsum fs)) [] = Ok (ids, length ids, d) /\ spells (seqs d) ids q.
  Proof.
    intros Hfd Hwf Hne Hcov Hf Hz Hq Hd.
    assert (Hz0 : (0 <= zsum fs)%Z) by (apply zsum_nonneg; exact Hf).
    assert (Hle : forall f, In f fs -> (f <= zsum fs)%Z).
    { clear -Hf. induction fs as [|x l IH]; [easy|]. inversion_clear Hf as [|? ? Hx Hl]. cbn [zsum fold_right]. fold (zsum l).
      pose proof (zsum_nonneg l Hl). intros f [<-|Hf]; [lia|]. specialize (IH Hl f Hf). lia. }
    destruct (weighted_lossless fl L true false d q fs (zsum fs) Hwf Hne) as (ids & x & d' & E & Hsp & _).
    { split; [exact Hz0|]. apply Forall_forall. intros f Hfi. pose proof (proj1 (Forall_forall _ _) Hf f Hfi). cbn beta in *.
      specialize (Hle f Hfi). unfold maxcount. lia. }
    { unfold maxlen. lia. } { unfold maxcount. lia. }
    assert (Epw : parse_weighted fl d q fs (fofZ fl (zsum fs)) [] = Ok (ids, length ids, d')) by (unfold parse_weighted; now rewrite E).
    assert (d' = d) by (exact (parse_known fl d q fs _ [] ids (length ids) d' Hfd Hcov Epw)). subst d'. now exists ids.
  Qed.

  (** What the recount needs of the stream. *)
  Record ready (S : list Z) (d : dict) (z : stream fl) : Prop := {
    rd_coder : coder_like S (zcoder z);
    rd_dict : exists p, the_dict fl z = Ok (p, d);
    rd_res : exists da, hget fl (zb z) (result_ptr fl (zb z)) = Ok da;
    rd_full : full_dict d;
    rd_wf : wf_dict d;
    rd_ne : forall w, In w (seqs d) -> w <> [];
    rd_size : (Z.of_nat (dsize d) <= 2 ^ 50)%Z;
    rd_range : forall w, In w (seqs d) -> in_range S w;
    rd_nodup : NoDup S
  }.
  Lemma ready_the S d z : ready S d z -> exists p, zdict z = Some p /\ hget fl (zb z) p = Ok d /\ the_dict fl z = Ok (p, d).
  Proof.
    intro R. destruct (rd_dict _ _ _ R) as [p H]. exists p. pose proof H as H'. unfold the_dict in H'. destruct (zdict z) as [q|]; [|discriminate H'].
    apply bind_ok in H' as (d1 & Hg & E). injection E as <- <-. easy.
  Qed.
  Lemma ready_alphabet S d z : ready S d z -> s_alphabet fl z = Ok (map (decw S) (seqs d)).
  Proof.
    intro R. destruct (ready_the _ _ _ R) as (p & _ & _ & E). unfold s_alphabet. rewrite E. cbn [bind].
    apply like_decode_all; [exact (rd_coder _ _ _ R)|exact (rd_range _ _ _ R)].
  Qed.
  Lemma ready_cover S d z x : ready S d z -> covers (map (decw S) (seqs d)) x -> (forall c, In c x -> In c S) /\ covers (seqs d) (enc S x).
  Proof.
    intros R H.
    assert (G : forall c, In c x -> In c S /\ In [Z.of_nat (pos_of S c)] (seqs d)).
    { intros c Hc. specialize (H c Hc). apply in_map_iff in H as (w & E & Hw). pose proof (rd_range _ _ _ R w Hw) as Hr.
      destruct w as [|k [|k' w]]; try discriminate E. cbn in E. injection E as E. pose proof (Hr k ltac:(now left)) as Hk.
      assert (Hn : nth_error S (Z.to_nat k) = Some c) by (rewrite <- E; apply nth_error_nth'; lia).
      split; [now apply nth_error_In in Hn|]. rewrite (pos_of_unique S c (Z.to_nat k) (rd_nodup _ _ _ R) Hn), Z2Nat.id by lia. exact Hw. }
    split; [intros c Hc; now apply G|]. intros k Hk. apply in_map_iff in Hk as (c & <- & Hc). now apply G.
  Qed.

  Lemma recount_spec S d w fs : Forall (fun f => 0 <= f)%Z fs -> (zsum fs <= 2 ^ 52)%Z -> forall xs t z acc, ready S d z ->
    length acc = dsize d -> (forall x, In x xs -> covers (map (decw S) (seqs d)) x /\ (Z.of_nat (length x) <= 2 ^ 40)%Z) ->
    (forall k, t <= k < t + length xs -> w_term w k = false) ->
    exists rs acc', recount fl w fs xs t z acc = Ok (false, t + length xs, z, acc') /\
      Forall2 (fun x ids => spells (map (decw S) (seqs d)) ids x) xs rs /\ length acc' = dsize d /\
      forall j, at0 acc' j = (at0 acc j + zsum (map (fun ids => occ ids j) rs))%Z.
  Proof.
    intros Hf Hz. induction xs as [|x xs IH]; intros t z acc R Hacc Hx Ht; cbn [recount].
    - exists [], acc. rewrite Nat.add_0_r. split; [easy|]. split; [constructor|]. split; [easy|]. intro j. cbn. lia.
    - destruct (Hx x (or_introl eq_refl)) as [Hcx Hlx]. destruct (ready_cover _ _ _ _ R Hcx) as [Hk Hc].
      rewrite (encode_known S _ (rd_coder _ _ _ R) x Hk). destruct (ready_the _ _ _ R) as (p & Ep & Hg & Et). rewrite Et. cbn [bind].
      destruct (dict_parse d (enc S x) fs (rd_full _ _ _ R) (rd_wf _ _ _ R) (rd_ne _ _ _ R) Hc Hf Hz) as (ids & E & Hsp);
        [unfold enc; now rewrite map_length|exact (rd_size _ _ _ R)|].
      rewrite isum_zsum, E. cbn [bind]. destruct (spells_bound _ _ _ Hsp) as [Hb _].
      destruct (add_all ids acc (dsize d) Hacc Hb) as (acc1 & E1 & Hl1 & Ha1). rewrite E1. cbn [bind].
      pose proof (put_same fl z p d Hg) as Epz. unfold put_dict in Epz. rewrite Epz.
      rewrite (Ht t) by (cbn [length]; lia).
      destruct (IH (Datatypes.S t) z acc1 R Hl1) as (rs & acc2 & E2 & Hrs & Hl2 & Ha2).
      { intros y Hy. apply Hx. now right. } { intros k Hkk. apply Ht. cbn [length]. lia. }
      exists (ids :: rs), acc2. rewrite E2. split; [f_equal; f_equal; f_equal; f_equal; cbn [length]; lia|].
      split; [constructor; [|exact Hrs]|split; [exact Hl2|]].
      + rewrite <- (dec_enc S x Hk). now apply spells_decw.
      + intro j. rewrite Ha2, Ha1. cbn [map]. rewrite zsum_cons. lia.
  Qed.

  (** Fields that the frequencies do not touch. *)
  Lemma ready_freqs S d z fs b acc tot mp : ready S d z -> result_freqs fl (zb z) [] = Ok (fs, b) ->
    ready S d (mkStream (zsize z) b (zdict z) (zcoder z) acc tot mp).
  Proof.
    intros R H.
    assert (Hb : bheap b = bheap (zb z) /\ result_ptr fl b = result_ptr fl (zb z)).
    { unfold result_freqs in H. apply bind_ok in H as (d2 & _ & H). unfold result_ptr. destruct (bres (zb z)) eqn:E; injection H as _ <-; cbn; rewrite ?E; easy. }
    destruct Hb as [Hh Hp]. split; try apply R; cbn [zcoder zb zdict].
    - destruct (ready_the _ _ _ R) as (p & E & Hg & _). exists p. unfold the_dict. cbn [zdict zb]. rewrite E. unfold hget in *. now rewrite Hh, Hg.
    - rewrite Hp. unfold hget. rewrite Hh. exact (rd_res _ _ _ R).
  Qed.

  Lemma recompute_spec S d w xs t z fs b : ready S d z -> result_freqs fl (zb z) [] = Ok (fs, b) -> length fs = dsize d ->
    Forall (fun f => 0 <= f)%Z fs -> (zsum fs <= 2 ^ 52)%Z ->
    (forall x, In x xs -> covers (map (decw S) (seqs d)) x /\ (Z.of_nat (length x) <= 2 ^ 40)%Z) ->
    (forall k, t <= k < t + length xs -> w_term w k = false) ->
    exists acc, let z' := mkStream (zsize z) b (zdict z) (zcoder z) acc (zsum acc) (zminp z) in
      recompute_freqs fl w xs t z = Ok (t + length xs, z') /\ ready S d z' /\
      counts_readings (map (decw S) (seqs d)) xs acc.
  Proof.
    intros R Hr Hl Hf Hz Hx Ht. unfold recompute_freqs. rewrite Hr. cbn [bind].
    destruct (recount_spec S d w fs Hf Hz xs t _ (repeat 0%Z (length fs))
      (ready_freqs S d z fs b (zfreqs z) (ztotal z) (zminp z) R Hr) ltac:(now rewrite repeat_length) Hx Ht) as (rs & acc & E & Hrs & Hla & Hat).
    exists acc. rewrite E. cbn [bind zsize zb zdict zcoder zminp]. rewrite isum_zsum. split; [easy|]. split; [exact (ready_freqs S d z fs b _ _ _ R Hr)|].
    exists rs. split; [exact Hrs|]. split; [now rewrite map_length|]. intro j. rewrite Hat. unfold at0 at 1. rewrite nth_repeat. lia.
  Qed.

  (** ** Parsing with a fitted object *)
  Lemma ready_parse S d z s : ready S d z -> Forall (fun f => 0 <= f)%Z (zfreqs z) -> ztotal z = zsum (zfreqs z) -> (zsum (zfreqs z) <= 2 ^ 52)%Z ->
    covers (map (decw S) (seqs d)) (restrict S s) -> (Z.of_nat (length s) <= 2 ^ 40)%Z ->
    exists ids, s_parse fl z s = Ok (ids, z) /\ spells (map (decw S) (seqs d)) ids (restrict S s).
  Proof.
    intros R Hf Ht Hz Hc Hl. destruct (ready_cover _ _ _ _ R Hc) as [Hk Hcd].
    destruct (dict_parse d (enc S (restrict S s)) (zfreqs z) (rd_full _ _ _ R) (rd_wf _ _ _ R) (rd_ne _ _ _ R) Hcd Hf Hz) as (ids & E & Hsp).
    { unfold enc. rewrite map_length. pose proof (restrict_length S s). lia. } { exact (rd_size _ _ _ R). }
    exists ids. split; [|rewrite <- (dec_enc S (restrict S s) Hk) at 1; now apply spells_decw].
    unfold s_parse. rewrite (like_immutable _ _ s (rd_coder _ _ _ R)). unfold alpha. destruct (rd_res _ _ _ R) as [da ->]. cbn [bind].
    destruct (mk_dict_spec (seqs da)) as (dm & -> & _). cbn [bind]. destruct (ready_the _ _ _ R) as (p & Ep & Hg & ->). cbn [bind].
    rewrite Ht, E. cbn [bind]. now rewrite put_same.
  Qed.

  (** ** Batches *)
  Lemma kept_step term n m : term 0 = false -> kept (fun k => term (S k)) n m -> kept term (S n) (S m).
  Proof.
    intros H0 (H1 & H2 & H3). split; [lia|]. split.
    - intros [|k] Hk; [easy|]. apply H2. lia.
    - intro H. destruct H3 as (k & -> & Hk); [lia|]. now exists (S k).
  Qed.
  Lemma transform_pure w z : forall xs rs t, Forall2 (fun x ids => s_parse fl z x = Ok (ids, z)) xs rs ->
    exists m, kept (fun k => w_term w (t + k)) (length xs) m /\ transform_loop fl w xs t z = Ok (firstn m rs, z).
  Proof.
    induction xs as [|x xs IH]; intros rs t H; inversion_clear H as [|? ids ? rs' Hx Hr].
    - exists 0. split; [|easy]. split; [easy|]. split; [lia|]. cbn. lia.
    - cbn [transform_loop]. rewrite Hx. cbn [bind]. destruct (w_term w t) eqn:Et.
      + exists 1. split; [|easy]. split; [cbn; lia|]. split; [lia|]. intros _. exists 0. now rewrite Nat.add_0_r.
      + destruct (IH rs' (S t) Hr) as (m & Hm & E). exists (S m). rewrite E. split; [|easy]. cbn [length]. apply kept_step; [now rewrite Nat.add_0_r|].
        destruct Hm as (A1 & A2 & A3). split; [exact A1|]. split.
        * intros k Hk. replace (t + S k) with (S t + k) by lia. now apply A2.
        * intro Hlt. destruct (A3 Hlt) as (k & -> & Hk). exists k. split; [easy|]. now replace (t + S k) with (S t + k) by lia.
  Qed.
  Lemma strings_kept w : forall l t, exists m, kept (fun k => w_term w (t + k)) (length l) m /\ to_strings fl w t l = map ids_string (firstn m l).
  Proof.
    induction l as [|ids l IH]; intro t.
    - exists 0. split; [|easy]. split; [easy|]. split; [lia|]. cbn. lia.
    - cbn [to_strings]. destruct (w_term w t) eqn:Et.
      + exists 1. split; [|easy]. split; [cbn; lia|]. split; [lia|]. intros _. exists 0. now rewrite Nat.add_0_r.
      + destruct (IH (S t)) as (m & Hm & E). exists (S m). rewrite E. split; [|easy]. cbn [length]. apply kept_step; [now rewrite Nat.add_0_r|].
        destruct Hm as (A1 & A2 & A3). split; [exact A1|]. split.
        * intros k Hk. replace (t + S k) with (S t + k) by lia. now apply A2.
        * intro Hlt. destruct (A3 Hlt) as (k & -> & Hk). exists k. split; [easy|]. now replace (t + S k) with (S t + k) by lia.
  Qed.

  (** ** From histories of the stream *)
  Section Sim.
    Context (ws0 : list seq) (syms0 : list Z) (z0 : stream fl) (B Size N T0 : Z).
    Context (Z0 : start_stream fl L ws0 syms0 z0 B Size T0) (HB : (B = kmax + N)%Z) (HSz : (Size <= 2 ^ 49)%Z).
    Context (a0 : nat) (d00 : dict) (st00 : sstat fl).
    Context (S0 : sinv fl L ws0 a0 [] [] (zb z0) d00 d00 st00 []) (Hcl : symbol_closed ws0).
    Context (Hwl : Forall (fun w : seq => Z.of_nat (length w) <= 2 ^ 40)%Z ws0) (Ha : (Z.of_nat a0 <= bsize (zb z0))%Z).
    Context (F0 : hfull fl (zb z0)) (O0 : own_inv fl (0, 0, phase_of fl (zb z0)) [] (zb z0)).

    Lemma hist_ready ops z al : shist fl z0 ops z -> normal fl N ops -> has_room fl syms0 z0 ops -> calm fl syms0 z0 ops ->
      s_alphabet fl z = Ok al -> exists d, ready (symbols_of fl syms0 ops) d z /\ al = map (decw (symbols_of fl syms0 ops)) (seqs d).
    Proof.
      intros H Hn Hr Hc Hal. destruct (sim_exists fl L ws0 syms0 z0 B Size N T0 Z0 HB HSz ops z H Hn) as [bops S].
      pose proof (calm_full fl L ws0 syms0 z0 B Size N T0 Z0 HB HSz a0 d00 st00 S0 Hcl Hwl Ha F0 O0 ops z bops S Hn Hr Hc) as F.
      destruct (zdict z) as [p|] eqn:Ep; [|unfold s_alphabet, the_dict in Hal; rewrite Ep in Hal; discriminate Hal].
      destruct (nth_lt _ _ (sm_dict _ _ _ _ _ _ _ _ _ _ _ _ S p Ep)) as [d Hg].
      assert (Hin : In d (bheap (zb z))) by (now apply nth_error_In in Hg).
      pose proof (sm_binv _ _ _ _ _ _ _ _ _ _ _ _ S) as I.
      destruct (proj1 (Forall_forall _ _) (bi_heap _ _ _ _ _ _ _ I) d Hin) as (Hwf & Hne & _).
      pose proof (proj1 (Forall_forall _ _) (bi_sizes _ _ _ _ _ _ _ I) d Hin) as Hsz. cbn beta in Hsz.
      destruct (nth_lt _ _ (bi_res _ _ _ _ _ _ _ I)) as [dr Hdr].
      assert (R : ready (symbols_of fl syms0 ops) d z).
      { split.
        - exact (sm_coder _ _ _ _ _ _ _ _ _ _ _ _ S).
        - exists p. unfold the_dict. rewrite Ep. unfold hget. now rewrite (vget_some _ _ _ Hg).
        - exists dr. now apply vget_some.
        - exact (proj1 (proj1 (Forall_forall _ _) F d Hin)).
        - exact Hwf.
        - exact Hne.
        - pose proof (sm_proc _ _ _ _ _ _ _ _ _ _ _ _ S). destruct Hn as (_ & (_ & _ & Hh & _)). lia.
        - intros w Hw. exact (words_range fl L ws0 syms0 z0 B Size N T0 Z0 ops z bops d w S Hin Hw).
        - exact (symbols_nodup fl L ws0 syms0 z0 B Size T0 Z0 ops). }
      exists d. split; [exact R|]. rewrite (ready_alphabet _ _ _ R) in Hal. now injection Hal.
    Qed.

    (** The frequencies of the builder when the stream holds its result. *)
    Lemma hist_freqs ops z : shist fl z0 ops z -> normal fl N ops -> has_room fl syms0 z0 ops -> calm fl syms0 z0 ops ->
      exists d fs b, hget fl (zb z) (result_ptr fl (zb z)) = Ok d /\ result_freqs fl (zb z) [] = Ok (fs, b) /\ length fs = dsize d /\
        Forall (fun f => 0 <= f)%Z fs /\ (zsum fs <= 2 ^ 52)%Z.
    Proof.
      intros H Hn Hr Hc.
      destruct (swindow_exists fl z0 (phase_of fl (zb z0)) ops z H) as [w W].
      destruct (sim_window fl L ws0 syms0 z0 B Size N T0 Z0 HB HSz _ ops w z W Hn) as (bops & S & WB).
      pose proof (sm_binv _ _ _ _ _ _ _ _ _ _ _ _ S) as I. destruct (nth_lt _ _ (bi_res _ _ _ _ _ _ _ I)) as [dr Hdr].
      pose proof Hn as (_ & (HN & _)).
      assert (E : exists fs b, result_freqs fl (zb z) [] = Ok (fs, b)).
      { unfold result_freqs, hget. rewrite (vget_some _ _ _ Hdr). cbn [bind]. destruct (bres (zb z)); now do 2 eexists. }
      destruct E as (fs & b & E).
      destruct (result_counted fl L ws0 a0 (zb z0) B Size N d00 st00 (ss_binv _ _ _ _ _ _ _ _ Z0) S0 Hcl Hwl (HBb B N HB a0 HN) HSz Ha F0 O0 bops w (zb z) fs b
          WB (sim_safe fl L ws0 syms0 z0 B Size N T0 Z0 a0 ops z bops S Hn Hr) (sm_calm _ _ _ _ _ _ _ _ _ _ _ _ S Hc) E) as (d & Hg & Hcn).
      exists d, fs, b. split; [exact Hg|]. split; [exact E|].
      destruct (freqs_bound fl L ws0 B N HB _ _ _ _ _ I E ltac:(lia)) as [Hf Hz].
      destruct w as [[i j] ph]. destruct Hcn as (_ & log & _ & _ & Hlen & _). split; [exact Hlen|]. split; [exact Hf|]. unfold kmax in Hz. lia.
    Qed.
  End Sim.
End V.
