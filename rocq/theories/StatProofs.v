(** Proofs about the statistics model: counting. *)
From Verif Require Import Base Spec FloatOps FloatLaws ModelDict Maps ModelStat SpecStat OrderProofs
  DictProofs GreedyProofs DpProofs WeightedProofs.

(** Sums. *)
Lemma zsum_app a b : zsum (a ++ b) = (zsum a + zsum b)%Z.
Proof. induction a as [|x a IH]; simpl; [easy|]. rewrite IH. lia. Qed.
Definition sumf (n : nat) (f : nat -> Z) : Z := zsum (map f (List.seq 0 n)).
Lemma sumf_S n f : sumf (S n) f = (sumf n f + f n)%Z.
Proof.
  unfold sumf. rewrite seq_S, map_app, zsum_app. simpl. lia.
Qed.
Lemma sumf_ext n f g : (forall i, i < n -> f i = g i) -> sumf n f = sumf n g.
Proof.
  intro H. induction n as [|n IH]; [easy|]. rewrite !sumf_S, IH, (H n) by (intros; try apply H; lia). easy.
Qed.
Lemma sumf_add n f g : sumf n (fun i => f i + g i)%Z = (sumf n f + sumf n g)%Z.
Proof. induction n as [|n IH]; [easy|]. rewrite !sumf_S, IH. lia. Qed.
Lemma sumf_zero n f : (forall i, i < n -> f i = 0%Z) -> sumf n f = 0%Z.
Proof.
  intro H. induction n as [|n IH]; [easy|]. rewrite sumf_S, IH, H by (intros; try apply H; lia). easy.
Qed.
Lemma sumf_more n m f : n <= m -> (forall i, n <= i -> f i = 0%Z) -> sumf m f = sumf n f.
Proof.
  intros Hle H. induction Hle as [|m Hle IH]; [easy|]. rewrite sumf_S, IH, H by easy. lia.
Qed.
Lemma sumf_nonneg n f : (forall i, i < n -> (0 <= f i)%Z) -> (0 <= sumf n f)%Z.
Proof.
  intro H. induction n as [|n IH]; [easy|]. rewrite sumf_S.
  assert (0 <= sumf n f)%Z by (apply IH; intros; apply H; lia). pose proof (H n ltac:(lia)). lia.
Qed.
Lemma sumf_term n f j : (forall i, i < n -> (0 <= f i)%Z) -> j < n -> (f j <= sumf n f)%Z.
Proof.
  intros H Hj. induction n as [|n IH]; [easy|]. rewrite sumf_S.
  assert (Hn : forall i, i < n -> (0 <= f i)%Z) by (intros; apply H; lia).
  destruct (Nat.eq_dec j n) as [->|Hne].
  - pose proof (sumf_nonneg n f Hn). lia.
  - pose proof (IH Hn ltac:(lia)). pose proof (H n ltac:(lia)). lia.
Qed.
Lemma sumf_single n j v : j < n -> sumf n (fun i => if Nat.eqb i j then v i else 0%Z) = v j.
Proof.
  intro H. induction n as [|n IH]; [easy|]. rewrite sumf_S.
  destruct (Nat.eq_dec j n) as [->|Hne].
  - rewrite Nat.eqb_refl. rewrite sumf_zero; [lia|].
    intros i Hi. destruct (Nat.eqb_spec i n); [lia|easy].
  - rewrite IH by lia. destruct (Nat.eqb_spec n j); [lia|]. lia.
Qed.

(** Occurrences. *)
Lemma occ_cons a ids j : occ (a :: ids) j = ((if Nat.eqb j a then 1 else 0) + occ ids j)%Z.
Proof.
  unfold occ. cbn [count_occ]. destruct (Nat.eq_dec a j) as [->|Hne].
  - rewrite Nat.eqb_refl. lia.
  - destruct (Nat.eqb_spec j a); [congruence|]. lia.
Qed.
Lemma occ_nonneg ids j : (0 <= occ ids j)%Z.
Proof. unfold occ. lia. Qed.
Lemma occ_le ids j : (occ ids j <= Z.of_nat (length ids))%Z.
Proof.
  induction ids as [|a ids IH]; [unfold occ; simpl; lia|]. rewrite occ_cons. cbn [length].
  destruct (Nat.eqb j a); lia.
Qed.
Lemma occ_notin ids j : ~ In j ids -> occ ids j = 0%Z.
Proof. intro H. unfold occ. apply count_occ_not_In with (eq_dec := Nat.eq_dec) in H. now rewrite H. Qed.
Lemma occ_in ids j : In j ids -> (1 <= occ ids j)%Z.
Proof. intro H. unfold occ. apply (count_occ_In Nat.eq_dec) in H. lia. Qed.
Lemma sum_occ n ids (v : nat -> Z) : Forall (fun i => i < n) ids ->
  sumf n (fun i => occ ids i * v i)%Z = zsum (map v ids).
Proof.
  induction 1 as [|a ids Ha _ IH]; [now apply sumf_zero|].
  cbn [map zsum fold_right]. fold (zsum (map v ids)). rewrite <- IH.
  rewrite <- (sumf_single n a v Ha), <- sumf_add. apply sumf_ext. intros i _. rewrite occ_cons.
  destruct (Nat.eqb i a); lia.
Qed.
Lemma sum_occ1 n ids : Forall (fun i => i < n) ids -> sumf n (occ ids) = Z.of_nat (length ids).
Proof.
  intro H. rewrite (sumf_ext n _ (fun i => occ ids i * 1)%Z) by (intros; lia). rewrite sum_occ by easy.
  clear. induction ids as [|a ids IH]; [easy|]. cbn [map zsum fold_right length].
  fold (zsum (map (fun _ : nat => 1%Z) ids)). lia.
Qed.

(** Tables. *)
Lemma at0_nth l j : at0 l j = match nth_error l j with Some f => f | None => 0%Z end.
Proof. unfold at0. revert j. induction l as [|x l IH]; intros [|j]; simpl; auto. Qed.
Lemma freq_at0 fl (st : sstat fl) i : freq fl st i = at0 (sfreqs st) i.
Proof. unfold freq. now rewrite at0_nth. Qed.
Lemma at0_beyond l j : length l <= j -> at0 l j = 0%Z.
Proof. intro H. unfold at0. now apply nth_overflow. Qed.
Lemma pad_length l n : length (pad l n) = Nat.max (length l) n.
Proof. unfold pad. rewrite app_length, repeat_length. lia. Qed.
Lemma at0_pad l n j : at0 (pad l n) j = at0 l j.
Proof.
  unfold at0, pad. destruct (Nat.lt_ge_cases j (length l)) as [H|H].
  - now rewrite app_nth1.
  - rewrite app_nth2, (nth_overflow l) by lia. apply nth_repeat.
Qed.
Lemma at0_upd l i x j : i < length l -> at0 (upd l i x) j = if Nat.eqb j i then x else at0 l j.
Proof.
  intro H. rewrite !at0_nth. destruct (Nat.eqb_spec j i) as [->|Hne].
  - now rewrite upd_same.
  - now rewrite upd_other by congruence.
Qed.
Lemma vadd_ok l i f : i < length l -> exists l', vadd l i f = Ok l' /\ length l' = length l /\
  forall j, at0 l' j = (at0 l j + (if Nat.eqb j i then f else 0))%Z.
Proof.
  intro H. unfold vadd. destruct (nth_lt _ _ H) as [x Hx]. rewrite (vget_some _ _ _ Hx). cbn [bind].
  rewrite (vset_ok l i (x + f)%Z H). exists (upd l i (x + f)%Z). split; [easy|]. split; [apply upd_length|].
  intro j. rewrite at0_upd by easy. destruct (Nat.eqb_spec j i) as [->|]; [|lia].
  rewrite at0_nth, Hx. lia.
Qed.
Lemma vadd_oob l i f : length l <= i -> vadd l i f = UB OobRead.
Proof.
  intro H. unfold vadd, vget. now rewrite (proj2 (nth_error_None l i) H).
Qed.
Lemma forall_at0 (P : Z -> Prop) l : P 0%Z -> (Forall P l <-> forall j, P (at0 l j)).
Proof.
  intro H0. rewrite Forall_forall. split.
  - intros H j. rewrite at0_nth. destruct (nth_error l j) eqn:E; [|easy]. apply H. now apply nth_error_In in E.
  - intros H x Hx. apply In_nth_error in Hx as [j Hj]. specialize (H j). now rewrite at0_nth, Hj in H.
Qed.

Section Stat.
  Context (fl : fops) (L : flaws fl).

  Lemma update_symbol_spec (st : sstat fl) i f : length (sfreqs st) <= length (pfreqs st) ->
    exists st', update_symbol fl st i f = Ok st' /\
      (forall j, at0 (sfreqs st') j = at0 (sfreqs st) j + (if Nat.eqb j i then f else 0))%Z /\
      (forall j, at0 (pfreqs st') j = at0 (pfreqs st) j + (if Nat.eqb j i then f else 0))%Z /\
      length (sfreqs st') = Nat.max (length (sfreqs st)) (S i) /\
      length (pfreqs st') = Nat.max (length (pfreqs st)) (S i) /\
      power st' = fadd fl (power st) (fofZ fl f) /\
      ipower st' = ipower st /\ pairs st' = pairs st /\ minp st' = minp st /\ chars st' = chars st.
  Proof.
    intro Hlen. unfold update_symbol.
    set (sf := if Nat.leb (length (sfreqs st)) i then pad (sfreqs st) (i + 1) else sfreqs st).
    set (pf := if Nat.leb (length (sfreqs st)) i then pad (pfreqs st) (i + 1) else pfreqs st).
    assert (Hsl : length sf = Nat.max (length (sfreqs st)) (S i)).
    { unfold sf. destruct (Nat.leb_spec (length (sfreqs st)) i); [rewrite pad_length|]; lia. }
    assert (Hpl : length pf = Nat.max (length (pfreqs st)) (S i)).
    { unfold pf. destruct (Nat.leb_spec (length (sfreqs st)) i); [rewrite pad_length|]; lia. }
    assert (Hsa : forall j, at0 sf j = at0 (sfreqs st) j).
    { intro j. unfold sf. destruct (Nat.leb _ _); [apply at0_pad|easy]. }
    assert (Hpa : forall j, at0 pf j = at0 (pfreqs st) j).
    { intro j. unfold pf. destruct (Nat.leb _ _); [apply at0_pad|easy]. }
    destruct (vadd_ok sf i f) as (sf' & E1 & L1 & A1); [lia|].
    destruct (vadd_ok pf i f) as (pf' & E2 & L2 & A2); [lia|].
    rewrite E1. cbn [bind]. rewrite E2. cbn [bind].
    eexists. split; [reflexivity|]. cbn [sfreqs pfreqs power ipower pairs minp chars].
    split; [intro j; rewrite A1, Hsa; easy|]. split; [intro j; rewrite A2, Hpa; easy|].
    split; [lia|]. split; [lia|]. easy.
  Qed.

  (** power_ after n increments. *)
  Definition padd (p : F fl) (n : nat) : F fl := Nat.iter n (fun x => fadd fl x (fofZ fl 1)) p.
  Lemma padd_S p n : padd p (S n) = padd (fadd fl p (fofZ fl 1)) n.
  Proof.
    unfold padd. induction n as [|n IH]; [easy|]. simpl in *. now rewrite IH.
  Qed.
  Lemma padd_cnt p n : fcnt fl L p -> fcnt fl L (padd p n).
  Proof.
    intro H. induction n as [|n IH]; [easy|]. cbn. apply (cnt_add fl L); [easy|]. unfold maxcount; lia.
  Qed.
  Lemma padd_ofZ P n : (0 <= P)%Z -> (P + Z.of_nat n <= maxcount)%Z ->
    padd (fofZ fl P) n = fofZ fl (P + Z.of_nat n).
  Proof.
    intros HP Hb. induction n as [|n IH].
    - now rewrite Z.add_0_r.
    - change (padd (fofZ fl P) (S n)) with (fadd fl (padd (fofZ fl P) n) (fofZ fl 1)).
      rewrite IH by lia. rewrite (ofZ_add fl L) by lia. f_equal. lia.
  Qed.

  Lemma update_fold : forall ids (st : sstat fl), length (sfreqs st) <= length (pfreqs st) ->
    exists st', foldM (fun st i => update_symbol fl st i 1) ids st = Ok st' /\
      (forall j, at0 (sfreqs st') j = at0 (sfreqs st) j + occ ids j)%Z /\
      (forall j, at0 (pfreqs st') j = at0 (pfreqs st) j + occ ids j)%Z /\
      length (sfreqs st') <= length (pfreqs st') /\
      length (sfreqs st) <= length (sfreqs st') /\ length (pfreqs st) <= length (pfreqs st') /\
      Forall (fun i => i < length (sfreqs st')) ids /\
      (forall n, Forall (fun i => i < n) ids ->
         length (sfreqs st') <= Nat.max (length (sfreqs st)) n /\
         length (pfreqs st') <= Nat.max (length (pfreqs st)) n) /\
      power st' = padd (power st) (length ids) /\
      ipower st' = ipower st /\ pairs st' = pairs st /\ minp st' = minp st /\ chars st' = chars st.
  Proof.
    induction ids as [|i ids IH]; intros st Hlen.
    - exists st. split; [easy|]. split; [intro; unfold occ; simpl; lia|].
      split; [intro; unfold occ; simpl; lia|]. split; [lia|]. split; [lia|]. split; [lia|]. split; [constructor|].
      split; [intros n _; lia|]. easy.
    - cbn [foldM]. destruct (update_symbol_spec st i 1 Hlen)
        as (st1 & E1 & A1 & B1 & LS1 & LP1 & PW1 & IP1 & PA1 & MP1 & CH1).
      rewrite E1. cbn [bind].
      destruct (IH st1) as (st2 & E2 & A2 & B2 & LE2 & LS2 & LP2 & F2 & U2 & PW2 & IP2 & PA2 & MP2 & CH2); [lia|].
      exists st2. split; [easy|].
      split; [intro j; rewrite A2, A1, occ_cons; lia|].
      split; [intro j; rewrite B2, B1, occ_cons; lia|].
      split; [easy|]. split; [lia|]. split; [lia|].
      split; [constructor; [lia|easy]|].
      split.
      + intros n Hn. inversion_clear Hn. destruct (U2 n) as [U3 U4]; [easy|]. lia.
      + split; [rewrite PW2, PW1; cbn [length]; now rewrite padd_S|]. now rewrite IP2, PA2, MP2, CH2.
  Qed.

  Lemma spells_bound ws ids s : spells ws ids s -> Forall (fun i => i < length ws) ids.
  Proof.
    intros (vs & Hvs & _). induction Hvs as [|i v ids vs Hv _ IH]; constructor; [|easy].
    now apply nth_some_lt in Hv.
  Qed.
  Lemma spells_zlen ws ids s : spells ws ids s ->
    zsum (map (fun i => Z.of_nat (length (nth i ws []))) ids) = Z.of_nat (length s).
  Proof.
    intros (vs & Hvs & <-). induction Hvs as [|i v ids vs Hv _ IH]; [easy|].
    cbn [map zsum fold_right concat]. fold (zsum (map (fun i => Z.of_nat (length (nth i ws []))) ids)).
    rewrite IH, app_length. rewrite (nth_error_nth _ _ _ Hv). lia.
  Qed.
  Lemma spells_le ws ids s : (forall w, In w ws -> w <> []) -> spells ws ids s -> length ids <= length s.
  Proof.
    intros Hne (vs & Hvs & <-). induction Hvs as [|i v ids vs Hv _ IH]; [easy|].
    cbn [concat length]. rewrite app_length. apply nth_error_In in Hv. apply Hne in Hv.
    destruct v; [easy|]. cbn [length]. lia.
  Qed.

  (** States in which a parse is safe. *)
  Definition tables_ok (d : dict) (st : sstat fl) : Prop :=
    length (sfreqs st) <= dsize d /\ length (sfreqs st) <= length (pfreqs st) /\
    Forall (fun f => (0 <= f < maxcount)%Z) (pfreqs st) /\
    fcnt fl L (power st) /\ fcnt fl L (ipower st).

  Lemma stat_parse_spec d (st : sstat fl) s :
    wf_dict d -> no_empty d -> tables_ok d st ->
    (Z.of_nat (length s) <= maxlen)%Z -> (Z.of_nat (dsize d) + Z.of_nat (length s) <= maxcount)%Z ->
    exists ids d' st', stat_parse fl d st s [] = Ok (ids, length ids, d', st') /\
      spells (seqs d') ids s /\ wf_dict d' /\ no_empty d' /\ extends_by_symbols (seqs d) (seqs d') /\
      dsize d' <= dsize d + length s /\
      (exists x, weighted_parse fl true false d s (pfreqs st) (fadd fl (power st) (ipower st)) None
                 = Ok (ids, x, d')) /\
      (forall j, at0 (sfreqs st') j = at0 (sfreqs st) j + occ ids j)%Z /\
      (forall j, at0 (pfreqs st') j = at0 (pfreqs st) j + occ ids j)%Z /\
      length (sfreqs st') <= dsize d' /\ length (sfreqs st') <= length (pfreqs st') /\
      length (sfreqs st) <= length (sfreqs st') /\
      Forall (fun i => i < length (sfreqs st')) ids /\
      power st' = padd (power st) (length ids) /\
      pairs st' = count_pairs None ids (pairs st) /\
      chars st' = fadd fl (chars st) (fofZ fl (Z.of_nat (length s))) /\
      ipower st' = ipower st /\ minp st' = minp st.
  Proof.
    intros Hwf Hne (Hs1 & Hs2 & Hpf & Hpw & Hip) Hlen Hb.
    destruct (weighted_lossless_tot fl L true false d s (pfreqs st) (fadd fl (power st) (ipower st)))
      as (ids & x & d' & E & Hsp & Hwf' & Hne' & Hext & Hsz); try easy.
    { now apply (tot_add fl L). }
    unfold stat_parse, parse_weighted. rewrite E. cbn [bind]. rewrite app_nil_l.
    match goal with |- context [foldM _ ids ?st1] => destruct (update_fold ids st1)
      as (st2 & E2 & A2 & B2 & LE2 & LS2 & LP2 & F2 & U2 & PW2 & IP2 & PA2 & MP2 & CH2) end;
      [exact Hs2|]. cbn [sfreqs pfreqs power ipower pairs minp chars] in *.
    rewrite E2. cbn [bind].
    exists ids, d'. eexists. split; [reflexivity|]. cbn [sfreqs pfreqs power ipower pairs minp chars].
    split; [easy|]. split; [easy|]. split; [easy|]. split; [easy|]. split; [easy|].
    split; [now exists x|]. split; [easy|]. split; [easy|].
    split.
    { destruct (U2 (dsize d')) as [U3 _]; [now apply (spells_bound _ _ s)|].
      apply ext_length in Hext. unfold dsize in *. lia. }
    easy.
  Qed.

  (** Mass. *)
  Lemma mass_step d d' (st st' : sstat fl) ids s :
    length (sfreqs st) <= dsize d -> extends_by_symbols (seqs d) (seqs d') -> spells (seqs d') ids s ->
    (forall j, at0 (sfreqs st') j = at0 (sfreqs st) j + occ ids j)%Z ->
    total_freq fl d' st' = (total_freq fl d st + Z.of_nat (length ids))%Z /\
    total_length fl d' st' = (total_length fl d st + Z.of_nat (length s))%Z.
  Proof.
    intros Hl Hext Hsp Hat. pose proof (ext_length _ _ Hext) as Hlen.
    pose proof (spells_bound _ _ _ Hsp) as Hbd.
    change (total_freq fl d' st') with (sumf (dsize d') (freq fl st')).
    change (total_freq fl d st) with (sumf (dsize d) (freq fl st)).
    change (total_length fl d' st') with
      (sumf (dsize d') (fun i => freq fl st' i * Z.of_nat (length (nth i (seqs d') [])))%Z).
    change (total_length fl d st) with
      (sumf (dsize d) (fun i => freq fl st i * Z.of_nat (length (nth i (seqs d) [])))%Z).
    split.
    - rewrite (sumf_ext _ (freq fl st') (fun i => freq fl st i + occ ids i)%Z)
        by (intros; rewrite !freq_at0; apply Hat).
      rewrite sumf_add, (sum_occ1 (dsize d')) by easy. f_equal.
      apply sumf_more; [easy|]. intros i Hi. rewrite freq_at0. apply at0_beyond. lia.
    - rewrite (sumf_ext _ _ (fun i => freq fl st i * Z.of_nat (length (nth i (seqs d') []))
                                      + occ ids i * Z.of_nat (length (nth i (seqs d') [])))%Z)
        by (intros; rewrite !freq_at0, Hat; ring).
      rewrite sumf_add, (sum_occ (dsize d')) by easy. rewrite (spells_zlen _ _ _ Hsp). f_equal.
      rewrite (sumf_more (dsize d) (dsize d')); [|easy|].
      + apply sumf_ext. intros i Hi. f_equal. f_equal. f_equal.
        destruct Hext as [cs ->]. now rewrite app_nth1.
      + intros i Hi. rewrite freq_at0, at0_beyond by lia. lia.
  Qed.

  (** Pairs. *)
  Lemma nat2_eqb_spec a b : nat2_eqb a b = true <-> a = b.
  Proof.
    unfold nat2_eqb. destruct a as [a1 a2], b as [b1 b2]. simpl.
    rewrite andb_true_iff, !Nat.eqb_eq. split; [now intros [-> ->]|intro H; now inversion H].
  Qed.
  Definition find0 (m : list ((nat * nat) * Z)) k : Z :=
    match mfind nat2_eqb m k with Some c => c | None => 0%Z end.
  Lemma mfind_mset {K V} (eqb : K -> K -> bool) : (forall a b, eqb a b = true <-> a = b) ->
    forall m k v k', mfind eqb (mset (V := V) eqb m k v) k' = if eqb k' k then Some v else mfind eqb m k'.
  Proof.
    intros Heq m k v k'. induction m as [|[a b] m IH].
    - simpl. now destruct (eqb k' k).
    - cbn [mset mfind]. destruct (eqb k a) eqn:E.
      + apply Heq in E as ->. cbn [mfind]. now destruct (eqb k' a).
      + cbn [mfind]. rewrite IH. destruct (eqb k' a) eqn:E2; [|easy].
        apply Heq in E2 as ->. destruct (eqb a k) eqn:E3; [|easy].
        apply Heq in E3 as ->. rewrite (proj2 (Heq k k) eq_refl) in E. discriminate.
  Qed.
  Lemma count_pairs_spec : forall ids prev m p q,
    find0 (count_pairs prev ids m) (p, q) =
    (find0 m (p, q) + times_adjacent p q (match prev with Some a => a :: ids | None => ids end))%Z.
  Proof.
    induction ids as [|s t IH]; intros prev m p q.
    - destruct prev; simpl; lia.
    - cbn [count_pairs]. rewrite IH. destruct prev as [a|].
      + unfold find0. rewrite (mfind_mset nat2_eqb nat2_eqb_spec).
        change (times_adjacent p q (a :: s :: t)) with
          ((if Nat.eqb a p && Nat.eqb s q then 1 else 0) + times_adjacent p q (s :: t))%Z.
        unfold nat2_eqb at 1. cbn [fst snd]. rewrite (Nat.eqb_sym p a), (Nat.eqb_sym q s).
        destruct (Nat.eqb_spec a p) as [->|], (Nat.eqb_spec s q) as [->|]; cbn [andb]; try lia.
        destruct (mfind nat2_eqb m (p, q)); lia.
      + lia.
  Qed.
  Lemma mset_in {K V} (eqb : K -> K -> bool) (m : list (K * V)) k v k' v' :
    In (k', v') (mset eqb m k v) -> In (k', v') m \/ (k' = k /\ v' = v).
  Proof.
    induction m as [|[a b] m IH]; simpl.
    - intros [H|[]]. inversion H. now right.
    - destruct (eqb k a).
      + intros [H|H]; [inversion H; now right|]. left. now right.
      + intros [H|H]; [left; now left|]. destruct (IH H) as [H1|H1]; [left; now right|now right].
  Qed.
  Lemma mset_keys {K V} (eqb : K -> K -> bool) (m : list (K * V)) k v :
    (forall a b, eqb a b = true <-> a = b) ->
    map fst (mset eqb m k v) = map fst m \/ (map fst (mset eqb m k v) = map fst m ++ [k] /\ ~ In k (map fst m)).
  Proof.
    intro Heq. induction m as [|[a b] m IH]; simpl.
    - right. split; [easy|]. now intros [].
    - destruct (eqb k a) eqn:E.
      + apply Heq in E as ->. now left.
      + simpl. destruct IH as [->|[-> Hn]]; [now left|]. right. split; [easy|].
        intros [->|H]; [|easy]. rewrite (proj2 (Heq k k) eq_refl) in E. discriminate.
  Qed.
  Lemma mset_nodup {K V} (eqb : K -> K -> bool) (m : list (K * V)) k v :
    (forall a b, eqb a b = true <-> a = b) -> NoDup (map fst m) -> NoDup (map fst (mset eqb m k v)).
  Proof.
    intros Heq H. destruct (mset_keys eqb m k v Heq) as [->|[-> Hn]]; [easy|].
    apply (Permutation_NoDup (l := k :: map fst m)); [apply Permutation_cons_append|]. now constructor.
  Qed.
  Lemma count_pairs_nodup : forall ids prev m, NoDup (map fst m) -> NoDup (map fst (count_pairs prev ids m)).
  Proof.
    induction ids as [|s t IH]; intros prev m H; [easy|]. cbn [count_pairs]. apply IH.
    destruct prev; [|easy]. now apply mset_nodup; [apply nat2_eqb_spec|].
  Qed.
  (** The keys recorded are adjacent pairs, or were there before. *)
  Lemma count_pairs_in : forall ids prev m f s c, In ((f, s), c) (count_pairs prev ids m) ->
    In (f, s) (map fst m) \/
    exists l r, (match prev with Some a => a :: ids | None => ids end) = l ++ f :: s :: r.
  Proof.
    induction ids as [|x t IH]; intros prev m f s c H.
    - left. apply (in_map fst) in H. exact H.
    - cbn [count_pairs] in H. apply IH in H as [H|(l & r & H)].
      + destruct prev as [a|]; [|now left].
        apply in_map_iff in H as [[k v] [Hk Hin]]. cbn [fst] in Hk. subst k.
        apply mset_in in Hin as [Hin|[Hk _]].
        * left. apply (in_map fst) in Hin. exact Hin.
        * inversion Hk; subst. right. now exists [], t.
      + right. destruct prev as [a|].
        * exists (a :: l), r. now rewrite H.
        * now exists l, r.
  Qed.
  (** Counts are at least 1 and their number is bounded by the number of increments. *)
  Lemma count_pairs_pos : forall ids prev m, Forall (fun p => (1 <= snd p)%Z) m ->
    Forall (fun p => (1 <= snd p)%Z) (count_pairs prev ids m).
  Proof.
    induction ids as [|x t IH]; intros prev m H; [easy|]. cbn [count_pairs]. apply IH.
    destruct prev as [a|]; [|easy]. apply Forall_forall. intros [k v] Hin.
    apply mset_in in Hin as [Hin|[_ ->]].
    - rewrite Forall_forall in H. exact (H _ Hin).
    - cbn [snd]. destruct (mfind nat2_eqb m (a, x)) as [c|] eqn:E; [|lia].
      assert (Hc : (1 <= c)%Z).
      { clear - E H. induction H as [|[k v] m Hkv _ IH]; [easy|]. cbn [mfind] in E.
        destruct (nat2_eqb (a, x) k); [inversion E; now subst|auto]. }
      lia.
  Qed.
  Definition psumc (m : list ((nat * nat) * Z)) : Z := zsum (map snd m).
  Lemma psumc_mset m k : psumc (mset nat2_eqb m k (match mfind nat2_eqb m k with Some c => c + 1 | None => 1 end)%Z)
    = (psumc m + 1)%Z.
  Proof.
    unfold psumc. induction m as [|[a b] m IH]; [easy|]. cbn [mfind mset].
    destruct (nat2_eqb k a) eqn:E.
    - cbn [map zsum fold_right snd]. lia.
    - cbn [map zsum fold_right snd]. change (fold_right Z.add 0%Z (map snd m)) with (zsum (map snd m)).
      match goal with |- context [fold_right Z.add 0%Z ?l] => change (fold_right Z.add 0%Z l) with (zsum l) end.
      rewrite IH. lia.
  Qed.
  Lemma count_pairs_total : forall ids prev m,
    psumc (count_pairs prev ids m) =
    (psumc m + Z.of_nat (length ids) - match prev, ids with None, _ :: _ => 1 | _, _ => 0 end)%Z.
  Proof.
    induction ids as [|x t IH]; intros prev m.
    - destruct prev; cbn [count_pairs length]; lia.
    - cbn [count_pairs]. rewrite IH. destruct prev as [a|].
      + rewrite psumc_mset. cbn [length]. lia.
      + cbn [length]. destruct t; lia.
  Qed.
End Stat.

(** The packed keys. *)
Local Open Scope Z_scope.
Lemma pack_add p s : 0 <= p -> 0 <= s < 2 ^ 32 -> pack p s = p * 2 ^ 32 + s.
Proof.
  intros Hp Hs. unfold pack. rewrite Z.shiftl_mul_pow2 by lia.
  assert (H : Z.land (p * 2 ^ 32) s = 0).
  { apply Z.bits_inj'. intros n Hn. rewrite Z.land_spec, Z.bits_0.
    destruct (Z.lt_ge_cases n 32) as [H|H].
    - rewrite Z.mul_pow2_bits_low by lia. easy.
    - rewrite <- (Z.mod_small s (2 ^ 32)) by lia. rewrite Z.mod_pow2_bits_high by lia. now rewrite andb_false_r. }
  rewrite <- Z.lxor_lor by exact H. rewrite <- Z.add_nocarry_lxor by exact H. easy.
Qed.
Lemma unpack_pack p s : 0 <= p -> 0 <= s < 2 ^ 32 ->
  unpack_first (pack p s) = p /\ unpack_second (pack p s) = s.
Proof.
  intros Hp Hs. unfold unpack_first, unpack_second. rewrite pack_add by easy. split.
  - rewrite Z.shiftr_div_pow2 by lia. rewrite Z.add_comm, Z.div_add by lia. rewrite Z.div_small by lia. lia.
  - change 4294967295 with (Z.ones 32). rewrite Z.land_ones by lia.
    rewrite Z.add_comm, Z_mod_plus_full. now apply Z.mod_small.
Qed.
Lemma pack_inj p s p' s' : 0 <= p -> 0 <= s < 2 ^ 32 -> 0 <= p' -> 0 <= s' < 2 ^ 32 ->
  pack p s = pack p' s' -> p = p' /\ s = s'.
Proof.
  intros H1 H2 H3 H4 E. destruct (unpack_pack p s H1 H2) as [A B]. rewrite E in A, B.
  destruct (unpack_pack p' s' H3 H4) as [A' B']. rewrite A' in A. rewrite B' in B. easy.
Qed.
Lemma pack_range p s : 0 <= p < 2 ^ 31 -> 0 <= s < 2 ^ 31 -> 0 <= pack p s < 2 ^ 63.
Proof. intros Hp Hs. rewrite pack_add by lia. lia. Qed.

Definition small (i : nat) : Prop := Z.of_nat i < 2 ^ 31.
Definition enc (p : (nat * nat) * Z) : Z * Z := (pack (Z.of_nat (fst (fst p))) (Z.of_nat (snd (fst p))), snd p).
Definition small_keys (m : list ((nat * nat) * Z)) : Prop :=
  Forall (fun p => small (fst (fst p)) /\ small (snd (fst p))) m.
Lemma enc_eqb k k' : small (fst k) -> small (snd k) -> small (fst k') -> small (snd k') ->
  Z.eqb (pack (Z.of_nat (fst k)) (Z.of_nat (snd k))) (pack (Z.of_nat (fst k')) (Z.of_nat (snd k')))
  = nat2_eqb k k'.
Proof.
  unfold small. intros H1 H2 H3 H4. destruct (nat2_eqb k k') eqn:E.
  - apply nat2_eqb_spec in E as ->. apply Z.eqb_refl.
  - apply Z.eqb_neq. intro Hp. apply pack_inj in Hp as [A B]; try lia.
    apply Nat2Z.inj in A. apply Nat2Z.inj in B.
    assert (k = k') by (destruct k, k'; simpl in *; congruence).
    apply nat2_eqb_spec in H. congruence.
Qed.
Lemma mfind_enc m k : small_keys m -> small (fst k) -> small (snd k) ->
  mfind Z.eqb (map enc m) (pack (Z.of_nat (fst k)) (Z.of_nat (snd k))) = mfind nat2_eqb m k.
Proof.
  intros Hm H1 H2. induction Hm as [|[k' v] m [H3 H4] _ IH]; [easy|]. cbn [map mfind enc fst snd] in *.
  rewrite enc_eqb by easy. now rewrite IH.
Qed.
Lemma mset_enc m k v : small_keys m -> small (fst k) -> small (snd k) ->
  mset Z.eqb (map enc m) (pack (Z.of_nat (fst k)) (Z.of_nat (snd k))) v = map enc (mset nat2_eqb m k v).
Proof.
  intros Hm H1 H2. induction Hm as [|[k' w] m [H3 H4] _ IH]; [easy|]. cbn [map mset enc fst snd] in *.
  rewrite enc_eqb by easy. destruct (nat2_eqb k k') eqn:E; [easy|]. cbn [map enc fst snd]. now rewrite IH.
Qed.
Lemma count_pairs_enc : forall ids prev m, small_keys m -> Forall small ids ->
  (forall a, prev = Some a -> small a) ->
  count_pairs_code (match prev with Some a => Z.of_nat a | None => -1 end) (map Z.of_nat ids) (map enc m)
  = map enc (count_pairs prev ids m).
Proof.
  induction ids as [|s t IH]; intros prev m Hm Hids Hp; [easy|]. inversion_clear Hids.
  cbn [map count_pairs_code count_pairs].
  destruct prev as [a|].
  - specialize (Hp a eq_refl).
    destruct (Z.leb_spec 0 (Z.of_nat a)); [|lia].
    pose proof (mfind_enc m (a, s) Hm Hp H) as Hf. cbn [fst snd] in Hf. rewrite Hf.
    match goal with |- context [mset Z.eqb _ _ ?v] => pose proof (mset_enc m (a, s) v Hm Hp H) as Hs end.
    cbn [fst snd] in Hs. rewrite Hs.
    apply (IH (Some s)); [|easy|now intros b [= <-]].
    apply Forall_forall. intros [k v] Hin. apply mset_in in Hin as [Hin|[-> _]]; [|easy].
    red in Hm. rewrite Forall_forall in Hm. exact (Hm _ Hin).
  - destruct (Z.leb_spec 0 (-1)); [lia|]. apply (IH (Some s)); [easy|easy|now intros b [= <-]].
Qed.
