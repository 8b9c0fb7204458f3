(** C81: what a reduction keeps. *)
From Coq Require Import Reals.
From Verif Require Import Base Spec SpecWeight FloatOps FloatLaws FloatIEEE FloatExample FloatIdeal ModelDict Maps ModelStat
  SpecStat RunProofs LearnProofs EnvExample PropsStatLemmas SpecGain GainExact PropsGainLemmas.

(** Words that were used get a cost: the growth of the code length if their uses are written with other words. Kept are
    only words with a positive cost; if one of these is dropped, then the dictionary is full and no kept word has a
    smaller cost. *)
Theorem C81_selection : forall fl, flaws fl -> forall ws mp init d0 st0 log d st e slots ws' fs' mp',
  start_ok ws init -> NoDup ws -> symbol_closed ws -> Forall (fun w : seq => Z.of_nat (length w) <= 2 ^ 40)%Z ws ->
  mk_stat fl ws mp init = Ok (d0, st0) ->
  stat_run fl d0 st0 log d st -> inputs_ok (map fst log) -> fresh_ascending ws (concat (map fst log)) ->
  (Z.of_nat (dsize d) <= 2 ^ 50)%Z -> env_ok fl e -> reduce fl e d st slots = Ok (ws', fs', mp') ->
  let counts := map (freq fl st) (List.seq 0 (dsize d)) in
  let P := words_emitted log in let C := symbols_consumed log in
  exists cost : nat -> F fl,
    (forall i w, word_at (seqs d) i w -> 1 < length w -> (1 <= freq fl st i)%Z ->
       exists p, reading_without fl (seqs d) counts P i w p /\
         cost i = removal_cost fl (measured_length fl counts P C) P (freq fl st i) (map (freq fl st) p)) /\
    (forall i w, word_at (seqs d) i w -> 1 < length w -> In w ws' ->
       (1 <= freq fl st i)%Z /\ fltb fl (fofZ fl 0) (cost i) = true) /\
    (forall i w, word_at (seqs d) i w -> 1 < length w -> (1 <= freq fl st i)%Z ->
       fltb fl (fofZ fl 0) (cost i) = true -> ~ In w ws' ->
       Z.of_nat (length ws') = (slots + Z.of_nat (symbol_words (seqs d)))%Z /\
       forall j v, word_at (seqs d) j v -> 1 < length v -> In v ws' -> fltb fl (cost j) (cost i) = false).
Proof. exact reduction_selects. Qed.
Print Assumptions C81_selection.

Theorem C81_double : forall lg, log_ok lg -> forall ws mp init d0 st0 log d st (e : env (ieee lg)) slots ws' fs' mp',
  start_ok ws init -> NoDup ws -> symbol_closed ws -> Forall (fun w : seq => Z.of_nat (length w) <= 2 ^ 40)%Z ws ->
  mk_stat (ieee lg) ws mp init = Ok (d0, st0) ->
  stat_run (ieee lg) d0 st0 log d st -> inputs_ok (map fst log) -> fresh_ascending ws (concat (map fst log)) ->
  (Z.of_nat (dsize d) <= 2 ^ 50)%Z -> env_ok (ieee lg) e -> reduce (ieee lg) e d st slots = Ok (ws', fs', mp') ->
  let counts := map (freq (ieee lg) st) (List.seq 0 (dsize d)) in
  let P := words_emitted log in let C := symbols_consumed log in
  exists cost : nat -> F (ieee lg),
    (forall i w, word_at (seqs d) i w -> 1 < length w -> (1 <= freq (ieee lg) st i)%Z ->
       exists p, reading_without (ieee lg) (seqs d) counts P i w p /\
         cost i = removal_cost (ieee lg) (measured_length (ieee lg) counts P C) P (freq (ieee lg) st i) (map (freq (ieee lg) st) p)) /\
    (forall i w, word_at (seqs d) i w -> 1 < length w -> In w ws' ->
       (1 <= freq (ieee lg) st i)%Z /\ fltb (ieee lg) (fofZ (ieee lg) 0) (cost i) = true) /\
    (forall i w, word_at (seqs d) i w -> 1 < length w -> (1 <= freq (ieee lg) st i)%Z ->
       fltb (ieee lg) (fofZ (ieee lg) 0) (cost i) = true -> ~ In w ws' ->
       Z.of_nat (length ws') = (slots + Z.of_nat (symbol_words (seqs d)))%Z /\
       forall j v, word_at (seqs d) j v -> 1 < length v -> In v ws' -> fltb (ieee lg) (cost j) (cost i) = false).
Proof. exact (fun lg Hlg => reduction_selects (ieee lg) (ieee_laws lg Hlg)). Qed.
Print Assumptions C81_double.

(** In exact arithmetic the cost is never below the true growth of the code length, and equal to it if no part
    occurs twice in the reading. *)
Theorem C81_exact : forall fs fs' i p base, Forall (fun f => 0 <= f)%Z fs -> (1 <= at0 fs i)%Z ->
  p <> [] -> ~ In i p -> Forall (fun j => (j < length fs)%nat) p -> rewritten fs fs' i p ->
  let cost := removal_cost ideal base (zsum fs) (at0 fs i) (map (at0 fs) p) in
  (total_code fs' - total_code fs <= cost)%R /\ (NoDup p -> cost = (total_code fs' - total_code fs)%R).
Proof. exact removal_exact. Qed.
Print Assumptions C81_exact.

(** With a repeated part even the sign is wrong: "aa" used ten times and "a" once. Without "aa" the code is shorter, but
    the cost is positive, in exact arithmetic and on doubles, and "aa" is kept. *)
Theorem C81_refuted_repeats : (forall base, rewritten [1; 10]%Z [21; 0]%Z 1 [0; 0]%nat /\
    (total_code [21; 0]%Z - total_code [1; 10]%Z < 0)%R /\ (0 < removal_cost ideal base 11 10 [1; 1]%Z)%R) /\
  observe [[1]; [1; 1]]%Z None (repeat [1; 1]%Z 10 ++ [[1]]%Z)
    (fun _ d st => (seqs d, sfreqs st, match reduce exf exenv d st 1 with Ok (ws, fs, _) => Some (ws, fs) | _ => None end)) =
  Some ([[1]; [1; 1]], [1; 10], Some ([[1]; [1; 1]], [1; 10]))%Z.
Proof. exact (conj repeats_wrong repeats_run). Qed.
Print Assumptions C81_refuted_repeats.

(** The reading may use a word that the same reduction drops: 1234 is read as 12, 34, because the search that starts from
    123 also tries the prefixes of 123; 12 was never used and is gone. *)
Theorem C81_refuted_dropped_part :
  observe [[1]; [2]; [3]; [4]; [1; 2]; [1; 2; 3]; [3; 4]; [1; 2; 3; 4]]%Z None
    ([[1; 2; 3]]%Z ++ repeat [3; 4]%Z 10 ++ repeat [1; 2; 3; 4]%Z 3)
    (fun _ d st => (nth_error (seqs d) 1, freq exf st 1, nth_error (seqs d) 3, freq exf st 3,
       match weighted_parse exf false true d [1; 2; 3; 4]%Z (sfreqs st) (power st) (Some [3; 1]%nat) with
       | Ok (p, _, _) => Some p | _ => None end,
       match reduce exf exenv d st 4 with Ok (ws, _, _) => Some ws | _ => None end)) =
  Some (Some [1; 2], 0, Some [1; 2; 3; 4], 3, Some [1; 6]%nat,
        Some [[1]; [2]; [3]; [4]; [3; 4]; [1; 2; 3]; [1; 2; 3; 4]])%Z.
Proof. exact dropped_part. Qed.
Print Assumptions C81_refuted_dropped_part.

(** One slot for three useful words: the dearest one stays. *)
Example C81_case : start_ok [[1]; [2]; [3]; [1; 2]; [2; 3]; [3; 1]]%Z None /\
  symbol_closed [[1]; [2]; [3]; [1; 2]; [2; 3]; [3; 1]]%Z /\
  fresh_ascending [[1]; [2]; [3]; [1; 2]; [2; 3]; [3; 1]]%Z (concat (repeat [1; 2] 9 ++ repeat [2; 3] 5 ++ repeat [3; 1] 3)%Z) /\
  observe [[1]; [2]; [3]; [1; 2]; [2; 3]; [3; 1]]%Z None (repeat [1; 2] 9 ++ repeat [2; 3] 5 ++ repeat [3; 1] 3)%Z
    (fun _ d st => (map (freq exf st) (List.seq 0 (dsize d)),
       match reduce exf exenv d st 3 with Ok (ws, _, _) => Some ws | _ => None end,
       match reduce exf exenv d st 1 with Ok (ws, _, _) => Some ws | _ => None end)) =
  Some ([0; 9; 0; 5; 0; 3], Some [[1]; [2]; [3]; [1; 2]; [2; 3]; [3; 1]], Some [[1]; [2]; [3]; [1; 2]])%Z /\
  NoDup [0; 2]%nat /\ rewritten [0; 9; 0; 5; 0; 3]%Z [9; 0; 9; 5; 0; 3]%Z 1 [0; 2]%nat.
Proof.
  split; [|split; [|split; [|split; [|split]]]].
  - split; [|split; [cbn; lia|exact I]]. intros [E|[E|[E|[E|[E|[E|[]]]]]]]; discriminate E.
  - intros w [<-|[<-|[<-|[<-|[<-|[<-|[]]]]]]] c Hc; simpl in Hc; simpl; intuition (subst; auto).
  - apply fresh_b. vm_compute. reflexivity.
  - vm_compute. reflexivity.
  - repeat constructor; simpl; intuition discriminate.
  - split; [reflexivity|]. intros [|[|[|[|[|[|j]]]]]]; try reflexivity. unfold at0, occ. cbn. destruct j; reflexivity.
Qed.
