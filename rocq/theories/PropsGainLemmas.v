(** PropsGainLemmas: C81. *)
From Coq Require Import Reals Lra.
From Verif Require Import Base Spec SpecWeight SpecEntropy FloatOps FloatLaws FloatIdeal ModelDict Maps ModelStat SpecStat
  OrderProofs DictProofs StatProofs ExpandProofs ReduceProofs RunProofs LearnProofs PropsStatLemmas SpecGain GainProofs GainExact.

Section S.
  Context (fl : fops) (L : flaws fl).
  Lemma run_is_good ws mp init d0 st0 log d st :
    start_ok ws init -> NoDup ws -> symbol_closed ws -> Forall (fun w : seq => Z.of_nat (length w) <= 2 ^ 40)%Z ws ->
    mk_stat fl ws mp init = Ok (d0, st0) ->
    stat_run fl d0 st0 log d st -> inputs_ok (map fst log) -> fresh_ascending ws (concat (map fst log)) ->
    (Z.of_nat (dsize d) <= 2 ^ 50)%Z -> good fl d st (words_emitted log) (symbols_consumed log).
  Proof.
    intros Hw Hn Hc Hl H Hr Hi Hf Hd.
    destruct (ordered_run fl L ws mp init d0 st0 log d st Hw Hn Hc H Hr Hi Hf) as (Hst & R & I).
    assert (Hsc : (symbols_consumed log <= 2 ^ 48)%Z) by (rewrite symbols_map; apply Hi).
    apply (run_good fl L d0 st0); try easy.
    intros w Hin. destruct (ri_ext _ _ _ _ _ _ R) as [cs Hcs]. rewrite Hcs in Hin.
    apply in_app_or in Hin as [Hin|Hin].
    - destruct (mk_full fl ws mp init d0 st0 Hn H) as (_ & Hs & _). rewrite Hs in Hin. apply (proj1 (isort_in w ws)) in Hin.
      exact (proj1 (Forall_forall _ _) Hl w Hin).
    - apply in_map_iff in Hin as (c & <- & _). cbn. unfold maxlen. lia.
  Qed.

  Lemma reduction_selects ws mp init d0 st0 log d st e slots ws' fs' mp' :
    start_ok ws init -> NoDup ws -> symbol_closed ws -> Forall (fun w : seq => Z.of_nat (length w) <= 2 ^ 40)%Z ws ->
    mk_stat fl ws mp init = Ok (d0, st0) ->
    stat_run fl d0 st0 log d st -> inputs_ok (map fst log) -> fresh_ascending ws (concat (map fst log)) ->
    (Z.of_nat (dsize d) <= 2 ^ 50)%Z -> env_ok fl e -> reduce fl e d st slots = Ok (ws', fs', mp') ->
    let counts := map (freq fl st) (List.seq 0 (dsize d)) in
    let P := words_emitted log in let C := symbols_consumed log in
    exists cost : nat -> F fl,
      (forall i w, word_at (seqs d) i w -> 1 < length w -> (1 <= freq fl st i)%Z ->
         exists p, reading_without fl (seqs d) counts P i w p /\
           cost i = removal_cost fl (measured_length fl counts P C) P (freq fl st i) (map (freq fl st) p)) /\
      (forall i w, word_at (seqs d) i w -> 1 < length w -> In w ws' ->
         (1 <= freq fl st i)%Z /\ fltb fl (fofZ fl 0) (cost i) = true) /\
      (forall i w, word_at (seqs d) i w -> 1 < length w -> (1 <= freq fl st i)%Z ->
         fltb fl (fofZ fl 0) (cost i) = true -> ~ In w ws' ->
         Z.of_nat (length ws') = (slots + Z.of_nat (symbol_words (seqs d)))%Z /\
         forall j v, word_at (seqs d) j v -> 1 < length v -> In v ws' -> fltb fl (cost j) (cost i) = false).
  Proof.
    intros Hw Hn Hc Hl H Hr Hi Hf Hd He Hx.
    exact (reduce_selects fl L e d st _ _ slots ws' fs' mp' He (run_is_good _ _ _ _ _ _ _ _ Hw Hn Hc Hl H Hr Hi Hf Hd) Hx).
  Qed.
End S.

(** Ten uses of "aa", one of "a". *)
Local Open Scope R_scope.
Lemma ln_power (a : Z) (n : nat) : (0 < a)%Z -> INR n * ln (IZR a) = ln (IZR (a ^ Z.of_nat n)).
Proof. intro H. rewrite <- pow_IZR, ln_pow by (now apply IZR_lt). easy. Qed.
Lemma repeats_wrong base :
  rewritten [1; 10]%Z [21; 0]%Z 1 [0; 0]%nat /\
  total_code [21; 0]%Z - total_code [1; 10]%Z < 0 /\
  0 < removal_cost ideal base 11 10 [1; 1]%Z.
Proof.
  split; [|split].
  - split; [easy|]. intros [|[|j]]; [easy|easy|]. unfold at0, occ. cbn. destruct j; easy.
  - rewrite !total_code_gg by (apply Forall_forall; intros x [<-|[<-|[]]]; lia).
    change (zsum [21; 0]%Z) with 21%Z. change (zsum [1; 10]%Z) with 11%Z.
    change (rsum (map gg [21; 0]%Z)) with (21 * ln 21 + (0 + 0)).
    change (rsum (map gg [1; 10]%Z)) with (1 * ln 1 + (10 * ln 10 + 0)). rewrite ln_1.
    assert (ln 10 < ln 11) by (apply ln_increasing; lra). assert (0 < ln 11) by (rewrite <- ln_1; apply ln_increasing; lra). lra.
  - rewrite cost_ideal by (first [lia | apply Forall_forall; intros x [<-|[<-|[]]]; lia]).
    change (11 + (Z.of_nat (length [1; 1]%Z) - 1) * 10)%Z with 21%Z.
    change (rsum (map (fun f => gg (f + 10) - gg f) [1; 1]%Z)) with
      (11 * ln 11 - 1 * ln 1 + (11 * ln 11 - 1 * ln 1 + 0)).
    change (gg 10) with (10 * ln 10). rewrite ln_1.
    pose proof (ln_power 10 10 eq_refl) as H1. pose proof (ln_power 21 21 eq_refl) as H2. pose proof (ln_power 11 33 eq_refl) as H3.
    rewrite INR_IZR_INZ in H1, H2, H3.
    change (Z.of_nat 10) with 10%Z in H1. change (Z.of_nat 21) with 21%Z in H2. change (Z.of_nat 33) with 33%Z in H3.
    assert (H : ln (IZR (11 ^ 33)) < ln (IZR (10 ^ 10 * 21 ^ 21))) by (apply ln_increasing; apply IZR_lt; reflexivity).
    rewrite mult_IZR, ln_mult in H by (apply IZR_lt; reflexivity). rewrite <- H1, <- H2, <- H3 in H. lra.
Qed.

From Verif Require Import FloatExample EnvExample.
Lemma repeats_run : observe [[1]; [1; 1]]%Z None (repeat [1; 1]%Z 10 ++ [[1]]%Z)
    (fun _ d st => (seqs d, sfreqs st, match reduce exf exenv d st 1 with Ok (ws, fs, _) => Some (ws, fs) | _ => None end)) =
  Some ([[1]; [1; 1]], [1; 10], Some ([[1]; [1; 1]], [1; 10]))%Z.
Proof. vm_compute. reflexivity. Qed.
Lemma dropped_part :
  observe [[1]; [2]; [3]; [4]; [1; 2]; [1; 2; 3]; [3; 4]; [1; 2; 3; 4]]%Z None
    ([[1; 2; 3]]%Z ++ repeat [3; 4]%Z 10 ++ repeat [1; 2; 3; 4]%Z 3)
    (fun _ d st => (nth_error (seqs d) 1, freq exf st 1, nth_error (seqs d) 3, freq exf st 3,
       match weighted_parse exf false true d [1; 2; 3; 4]%Z (sfreqs st) (power st) (Some [3; 1]%nat) with
       | Ok (p, _, _) => Some p | _ => None end,
       match reduce exf exenv d st 4 with Ok (ws, _, _) => Some ws | _ => None end)) =
  Some (Some [1; 2], 0, Some [1; 2; 3; 4], 3, Some [1; 6]%nat,
        Some [[1]; [2]; [3]; [4]; [3; 4]; [1; 2; 3]; [1; 2; 3; 4]])%Z.
Proof. vm_compute. reflexivity. Qed.
