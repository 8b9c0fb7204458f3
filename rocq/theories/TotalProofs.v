(** Proofs for C65: the frequencies of a stream add up to no more than it was given. *)
From Verif Require Import Base Spec FloatOps FloatLaws OrderProofs DictProofs GreedyProofs ModelDict ModelCoder Maps ModelStat
  ModelBuilder ModelStream SpecStat SpecBuilder SpecStream StatProofs RunProofs ReduceProofs LearnProofs BuilderProofs BuilderSafe BuilderOwn CoderProofs StreamProofs VGramProofs.

Lemma occ_sum n ids : (sumf n (occ ids) <= Z.of_nat (length ids))%Z.
Proof.
  induction ids as [|i ids IH]; [unfold occ; cbn [count_occ length]; induction n as [|n IHn]; [cbn; lia|rewrite sumf_S; lia]|].
  assert (H : (sumf n (occ (i :: ids)) <= sumf n (occ ids) + (if Nat.ltb i n then 1 else 0))%Z).
  { clear IH. induction n as [|n IHn]; [cbn; lia|]. rewrite !sumf_S. unfold occ at 2 4. cbn [count_occ].
    destruct (Nat.ltb_spec i n), (Nat.ltb_spec i (S n)), (Nat.eq_dec i n); lia. }
  cbn [length]. destruct (Nat.ltb i n); lia.
Qed.
Lemma log_sum n log : (sumf n (log_occ log) <= words_emitted log)%Z.
Proof.
  induction log as [|e log IH]; [unfold words_emitted, log_occ; cbn; induction n as [|n IHn]; [cbn; lia|rewrite sumf_S; lia]|].
  assert (H : (sumf n (log_occ (e :: log)) = sumf n (occ (snd e)) + sumf n (log_occ log))%Z).
  { clear IH. induction n as [|n IHn]; [reflexivity|]. rewrite !sumf_S, IHn. unfold log_occ at 2. cbn [map]. rewrite zsum_cons. fold (log_occ log n). lia. }
  rewrite H. pose proof (occ_sum n (snd e)) as Ho. unfold words_emitted in *. cbn [map]. rewrite zsum_cons. lia.
Qed.
Lemma spells_count ws ids s : spells ws ids s -> ~ In [] ws -> length ids <= length s.
Proof.
  intros (vs & H & <-) Hn. induction H as [|i w ids vs Hw H IH]; [easy|]. cbn [length concat]. rewrite app_length.
  destruct w as [|c w]; [|cbn [length]; lia]. apply nth_error_In in Hw. contradiction.
Qed.
Lemma words_symbols ws log : Forall (fun e => spells ws (snd e) (fst e)) log -> ~ In [] ws -> (words_emitted log <= symbols_consumed log)%Z.
Proof.
  intros H Hn. unfold words_emitted, symbols_consumed. induction H as [|e log He H IH]; [cbn; lia|]. cbn [map]. rewrite !zsum_cons.
  pose proof (spells_count _ _ _ He Hn) as Hx. unfold seq in *. lia.
Qed.
Lemma firstn_total k xs : (0 <= total_len (firstn k xs) <= total_len xs)%Z.
Proof.
  pose proof (firstn_skipn k xs) as E. apply (f_equal total_len) in E. rewrite total_len_app in E.
  pose proof (total_len_nonneg (firstn k xs)). pose proof (total_len_nonneg (skipn k xs)). lia.
Qed.
Lemma counted_total i j ph xs ws fs : counted (i, j, ph) xs ws fs -> ~ In [] ws ->
  (zsum fs <= total_len (firstn j xs) - total_len (firstn i xs))%Z /\ i <= j <= length xs.
Proof.
  intros (Hij & log & Hl & Hs & Hlen & Hat) Hn. split; [|exact Hij].
  assert (E : zsum fs = sumf (length fs) (log_occ log)).
  { rewrite zsum_at0. unfold sumf. f_equal. apply map_ext. exact Hat. }
  pose proof (log_sum (length fs) log). pose proof (words_symbols ws log Hs Hn) as Hw.
  assert (Es : symbols_consumed log = total_len (map fst log)) by apply symbols_map. rewrite Hl in Es.
  assert (Ej : firstn j xs = firstn i xs ++ firstn (j - i) (skipn i xs)).
  { replace j with (i + (j - i)) at 1 by lia. rewrite <- (firstn_skipn i xs) at 1. rewrite firstn_app, firstn_firstn, firstn_length.
    replace (Nat.min (i + (j - i)) i) with i by lia. replace (i + (j - i) - Nat.min i (length xs)) with (j - i) by lia. reflexivity. }
  rewrite Ej, total_len_app. unfold seq in *. lia.
Qed.

Section T.
  Context (fl : fops) (L : flaws fl) (z0 : stream fl) (ph0 : phase) (good : list (sop fl) -> Prop).
  Context (Hg : forall ops op, good (ops ++ [op]) -> good ops).
  Context (Hph : ph0 = First <-> bres (zb z0) = RNull).
  Context (Hup : forall ops w z z', swhist fl z0 ph0 ops w z -> good (ops ++ [SUpdate]) -> s_update fl z = Ok z' ->
    z' = z \/ exists r al, s_freqs fl z' = s_freqs fl z ++ r /\ counted w (fed fl ops) al r /\ ~ In [] al).

  Lemma update_ptr z z' : s_update fl z = Ok z' ->
    zdict z' = Some (result_ptr fl (zb z')) /\ (bres (zb z') = RNull <-> bres (zb z) = RNull) /\ (z' = z \/ zdict z <> Some (result_ptr fl (zb z))).
  Proof.
    intro Hu. assert (G : forall fs b mp, result_freqs fl (zb z) (zfreqs z) = Ok (fs, b) ->
      z' = mkStream (zsize z) b (Some (result_ptr fl (zb z))) (zcoder z) fs (isum fs) mp ->
      zdict z' = Some (result_ptr fl (zb z')) /\ (bres (zb z') = RNull <-> bres (zb z) = RNull)).
    { intros fs b mp Hf ->. cbn [zdict zb]. unfold result_freqs in Hf. apply bind_ok in Hf as (d & _ & Hf). unfold result_ptr.
      destruct (bres (zb z)) eqn:E; injection Hf as _ <-; cbn [bres bptr]; rewrite ?E; easy. }
    unfold s_update in Hu. destruct (zdict z) as [q|] eqn:Eq.
    - destruct (Nat.eqb_spec q (result_ptr fl (zb z))) as [->|Hq]; [injection Hu as <-; split; [easy|]; split; [easy|now left]|].
      apply bind_ok in Hu as ([fs b] & Hf & Hu). injection Hu as <-. destruct (G _ _ _ Hf eq_refl) as [G1 G2].
      split; [exact G1|]. split; [exact G2|]. right. congruence.
    - apply bind_ok in Hu as ([fs b] & Hf & Hu). injection Hu as <-. destruct (G _ _ _ Hf eq_refl) as [G1 G2].
      split; [exact G1|]. split; [exact G2|]. right. congruence.
  Qed.
  (** What an accept does to the pointer given out and to the window. *)
  Lemma accept_ptr e z s z' : s_accept fl e z s = Ok z' -> zdict z' = zdict z /\ zfreqs z' = zfreqs z /\
    if is_updated fl (zb z) (zb z') then
      if bpop (zb z) then (bres (zb z') = RNull <-> bres (zb z) = RNull) /\ (bres (zb z) = RNull \/ result_ptr fl (zb z') = result_ptr fl (zb z))
      else bres (zb z') <> RNull
    else bres (zb z') = bres (zb z) /\ result_ptr fl (zb z') = result_ptr fl (zb z).
  Proof.
    unfold s_accept. destruct (encode (zcoder z) s) as [q c]. intro H. apply bind_ok in H as (b & Ha & H). injection H as <-. cbn [zdict zfreqs zb].
    split; [easy|]. split; [easy|]. unfold is_updated.
    apply (accept_cases fl) in Ha as (d & ids & n & d1 & st1 & _ & _ & [[_ ->]|(_ & ws & fs & mp & d' & st' & prob & best & turns & _ & _ & ->)]); cbn [parsed bheap bres].
    - rewrite upd_length, Nat.ltb_irrefl. now split.
    - rewrite app_length, upd_length. cbn [length]. replace (Nat.ltb _ _) with true by (symmetry; apply Nat.ltb_lt; lia).
      unfold next_res, result_ptr. cbn [bres bptr]. destruct (bpop (zb z)); [|discriminate]. destruct (bres (zb z)); (split; [easy|]); auto.
  Qed.

  Lemma totals ops w z : swhist fl z0 ph0 ops w z -> good ops ->
    let '(i, j, ph) := w in
    (ph = First <-> bres (zb z) = RNull) /\ i <= length (fed fl ops) /\
    (zsum (zfreqs z) <= zsum (zfreqs z0) + total_len (fed fl ops))%Z /\
    (zdict z = Some (result_ptr fl (zb z)) \/ zsum (zfreqs z) <= zsum (zfreqs z0) + total_len (firstn i (fed fl ops)))%Z.
  Proof.
    induction 1 as [|ops w z op z' W IH Hs]; intro Hgd.
    - cbn. split; [exact Hph|]. split; [lia|]. unfold total_len. cbn. split; [lia|right; lia].
    - specialize (IH (Hg _ _ Hgd)). destruct op as [e s|s|]; cbn [swindow_step].
      + pose proof (accept_ptr e z s z' Hs) as (E1 & E2 & Hc). destruct w as [[i j] ph]. destruct IH as (I1 & I2 & I3 & I4).
        rewrite fed_snoc. cbn [op_fed]. rewrite app_length, total_len_app. cbn [length].
        assert (Hls : total_len [s] = Z.of_nat (length s)) by (unfold total_len; cbn; lia).
        assert (Hfi : firstn i (fed fl ops ++ [s]) = firstn i (fed fl ops)) by (rewrite firstn_app; replace (i - length (fed fl ops)) with 0 by lia; apply app_nil_r).
        assert (Hfn : firstn (S (length (fed fl ops))) (fed fl ops ++ [s]) = fed fl ops ++ [s]) by (apply firstn_all2; rewrite app_length; cbn; lia).
        rewrite E1, E2. unfold window_next. destruct (is_updated fl (zb z) (zb z')).
        * destruct (bpop (zb z)).
          { destruct Hc as [C1 C2]. destruct ph; rewrite ?Hfi, ?Hfn, ?total_len_app.
            - split; [tauto|]. split; [lia|]. split; [lia|right; lia].
            - assert (Hn : bres (zb z) <> RNull) by (intro Hx; apply I1 in Hx; discriminate Hx).
              split; [split; [discriminate|intro Hx; apply C1 in Hx; contradiction]|]. split; [lia|]. split; [lia|]. destruct C2 as [C2|C2]; [contradiction|]. now rewrite C2.
            - assert (Hn : bres (zb z) <> RNull) by (intro Hx; apply I1 in Hx; discriminate Hx).
              split; [split; [discriminate|intro Hx; apply C1 in Hx; contradiction]|]. split; [lia|]. split; [lia|]. destruct C2 as [C2|C2]; [contradiction|]. now rewrite C2. }
          { rewrite Hfn, total_len_app. split; [split; [discriminate|contradiction]|]. split; [lia|]. split; [lia|right; lia]. }
        * destruct Hc as [C1 C2]. rewrite C2. destruct ph; rewrite ?Hfi, C1; (split; [exact I1|]); (split; [lia|]); (split; [lia|exact I4]).
      + destruct Hs as [ids Hs]. unfold s_parse in Hs. apply bind_ok in Hs as (da & _ & Hs). apply bind_ok in Hs as ([p d] & _ & Hs).
        apply bind_ok in Hs as ([[is n] d'] & _ & Hs). injection Hs as _ <-. rewrite fed_snoc. cbn [op_fed]. rewrite app_nil_r. exact IH.
      + destruct (update_ptr z z' Hs) as (U1 & U2 & U3). rewrite fed_snoc. cbn [op_fed]. rewrite app_nil_r.
        destruct (Hup ops w z z' W Hgd Hs) as [->|(r & al & E & Hc & Hne)].
        * destruct w as [[i j] ph]. exact IH.
        * destruct w as [[i j] ph]. destruct IH as (I1 & I2 & I3 & I4). destruct (counted_total _ _ _ _ _ _ Hc Hne) as [Hz Hij].
          unfold s_freqs in E. destruct U3 as [->|U3]; [now split|]. destruct I4 as [I4|I4]; [contradiction|].
          split; [tauto|]. split; [exact I2|]. rewrite E, zsum_app. pose proof (firstn_total j (fed fl ops)). split; [lia|now left].
  Qed.
End T.
