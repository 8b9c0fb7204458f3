(** Statistics dictionaries: C24-C28, C32, C58, C60.  Each theorem holds for every float interface
    satisfying [flaws] (IEEE doubles do, FloatIEEE.ieee_laws); examples run on doubles. *)
From Coq Require Import Reals.
From Verif Require Import Base Spec FloatOps FloatLaws FloatIEEE FloatExample FloatIdeal SpecEntropy ModelDict Maps ModelStat
  ModelBuilder SpecStat StatProofs ExpandProofs ReduceProofs RunProofs LearnProofs IdealProofs EnvExample FloatScore
  ModelRandom RandomProofs PropsStatLemmas.

(** C24 *)
Theorem C24_parses_total : forall fl, flaws fl -> forall ws mp init ss, start_ok ws init -> inputs_ok ss ->
  exists d0 st0 log d st, mk_stat fl ws mp init = Ok (d0, st0) /\ map fst log = ss /\
    stat_run fl d0 st0 log d st.
Proof. exact parses_total. Qed.
Print Assumptions C24_parses_total.

Theorem C24_mass : forall fl, flaws fl -> forall ws mp init d0 st0 log d st,
  start_ok ws init -> mk_stat fl ws mp init = Ok (d0, st0) ->
  stat_run fl d0 st0 log d st -> inputs_ok (map fst log) ->
  total_freq fl d st = words_emitted log /\ total_length fl d st = symbols_consumed log /\
  (forall i, freq fl st i = log_occ log i) /\ power st = fofZ fl (words_emitted log) /\
  Forall (fun e => spells (seqs d) (snd e) (fst e)) log.
Proof. exact parses_mass. Qed.
Print Assumptions C24_mass.

Theorem C24_mass_double : forall lg, log_ok lg -> forall ws mp init d0 st0 log d st,
  start_ok ws init -> mk_stat (ieee lg) ws mp init = Ok (d0, st0) ->
  stat_run (ieee lg) d0 st0 log d st -> inputs_ok (map fst log) ->
  total_freq (ieee lg) d st = words_emitted log /\ total_length (ieee lg) d st = symbols_consumed log.
Proof.
  exact (fun lg H ws mp init d0 st0 log d st a b c e =>
    let m := parses_mass (ieee lg) (ieee_laws lg H) ws mp init d0 st0 log d st a b c e in
    conj (proj1 m) (proj1 (proj2 m))).
Qed.
Print Assumptions C24_mass_double.

Example C24_case : start_ok [[2]; [1]; [1; 2]]%Z (Some [1; 9; 1]%Z) /\ inputs_ok [[1; 2; 1; 2]; []; [2; 3; 1]]%Z /\
  observe [[2]; [1]; [1; 2]]%Z (Some [1; 9; 1]%Z) [[1; 2; 1; 2]; []; [2; 3; 1]]%Z
    (fun log d st => (map snd log, total_freq exf d st, words_emitted log, total_length exf d st)) =
  Some ([[1; 1]; []; [2; 3; 0]], 5%Z, 5%Z, 7%Z).
Proof.
  split; [|split; [|vm_compute; reflexivity]].
  - split; [simpl; intuition discriminate|]. split; [simpl; lia|]. repeat constructor; lia.
  - split; [repeat constructor; simpl; lia|simpl; lia].
Qed.

(** C25 *)
Theorem C25_pair_counts : forall fl, flaws fl -> forall ws mp init d0 st0 log d st p q,
  start_ok ws init -> mk_stat fl ws mp init = Ok (d0, st0) ->
  stat_run fl d0 st0 log d st -> inputs_ok (map fst log) ->
  pair_count fl st p q = log_adjacent log p q /\ NoDup (map fst (pairs st)).
Proof. exact parses_pairs. Qed.
Print Assumptions C25_pair_counts.

(** The table as written in the source, keyed by (last_symbol << 32) | symbol. *)
Theorem C25_packed_table : forall fl, flaws fl -> forall ws mp init d0 st0 log d st p q,
  start_ok ws init -> mk_stat fl ws mp init = Ok (d0, st0) ->
  stat_run fl d0 st0 log d st -> inputs_ok (map fst log) ->
  (Z.of_nat (dsize d) <= 2 ^ 31)%Z -> (Z.of_nat p < 2 ^ 31)%Z -> (Z.of_nat q < 2 ^ 31)%Z ->
  literal_table log = map enc (pairs st) /\
  match mfind Z.eqb (literal_table log) (pack (Z.of_nat p) (Z.of_nat q)) with Some c => c | None => 0%Z end
  = log_adjacent log p q.
Proof. exact parses_literal. Qed.
Print Assumptions C25_packed_table.

Theorem C25_no_shared_counter : forall p q p' q', (0 <= p < 2 ^ 31)%Z -> (0 <= q < 2 ^ 31)%Z ->
  (0 <= p' < 2 ^ 31)%Z -> (0 <= q' < 2 ^ 31)%Z -> pack p q = pack p' q' -> p = p' /\ q = q'.
Proof. exact pack_inj_small. Qed.
Print Assumptions C25_no_shared_counter.

Example C25_case : observe [[2]; [1]; [1; 2]]%Z None [[1; 2; 2; 1; 2; 2]; [2; 2]]%Z
    (fun log _ st => (map snd log, pair_count exf st 1 2, log_adjacent log 1 2, pair_count exf st 2 2, pair_count exf st 2 1)) =
  Some ([[1; 2; 1; 2]; [2; 2]], 2%Z, 2%Z, 1%Z, 1%Z) /\ pack 5 7 = 21474836487%Z.
Proof. split; vm_compute; reflexivity. Qed.

(** C26: entropy formula and sign, evaluated in exact arithmetic on the counters of a reachable state. *)
Theorem C26_entropy : forall fl, flaws fl -> forall ws mp init d0 st0 log d st,
  start_ok ws init -> mk_stat fl ws mp init = Ok (d0, st0) ->
  stat_run fl d0 st0 log d st -> inputs_ok (map fst log) ->
  let P := words_emitted log in let C := symbols_consumed log in
  power st = fofZ fl P /\ chars st = fofZ fl C /\
  code_length_per_char ideal d (exact_view fl st P C) =
    entropy_per_char (map (freq fl st) (List.seq 0 (dsize d))) P C /\
  ((1 <= C)%Z -> 0 <= entropy_per_char (map (freq fl st) (List.seq 0 (dsize d))) P C)%R.
Proof. exact entropy_run. Qed.
Print Assumptions C26_entropy.

(** Before the first symbol the double-precision result is NaN (0 * log 0 / 0). *)
Theorem C26_refuted_empty : forall lg mp,
  fnan (ieee lg) (code_length_per_char (ieee lg) empty_dict (empty_stat (ieee lg) mp)) = true.
Proof. exact empty_code_length. Qed.
Print Assumptions C26_refuted_empty.

Example C26_case : entropy_per_char [1; 1]%Z 2 2 = ln 2.
Proof.
  unfold entropy_per_char. simpl. rewrite ln_1. field.
Qed.

(** C27: holds for words supplied in strictly increasing order. *)
Theorem C27_sorted_words : forall fl ws mp fs d st, mk_stat fl ws mp (Some fs) = Ok (d, st) ->
  strictly_sorted ws -> length fs = length ws ->
  forall i w f, word_at ws i w -> nth_error fs i = Some f ->
  word_at (seqs d) i w /\ nth_error (pfreqs st) i = Some f.
Proof. exact prior_aligned. Qed.
Print Assumptions C27_sorted_words.

Theorem C27_total : forall fl, flaws fl -> forall ws mp fs d st, mk_stat fl ws mp (Some fs) = Ok (d, st) ->
  Forall (fun f => 0 <= f)%Z fs -> (zsum fs <= maxcount)%Z -> ipower st = fofZ fl (zsum fs).
Proof. exact prior_total. Qed.
Print Assumptions C27_total.

(** Same words with the same frequencies in another order: same dictionary, different parse. *)
Theorem C27_refuted_unsorted : exists ws fs ws' fs' s,
  Permutation (combine ws fs) (combine ws' fs') /\ length ws = length fs /\ length ws' = length fs' /\
  exists d st d' st' ids ids' n n' d1 st1 d1' st1',
  mk_stat exf ws (k_max_min_probability exf) (Some fs) = Ok (d, st) /\
  mk_stat exf ws' (k_max_min_probability exf) (Some fs') = Ok (d', st') /\ seqs d = seqs d' /\
  stat_parse exf d st s [] = Ok (ids, n, d1, st1) /\ stat_parse exf d' st' s [] = Ok (ids', n', d1', st1') /\
  ids <> ids'.
Proof. exact order_matters. Qed.
Print Assumptions C27_refuted_unsorted.

Example C27_case : strictly_sorted [[1]; [1; 2]; [2]]%Z /\
  observe [[1]; [1; 2]; [2]]%Z (Some [4; 5; 6]%Z) [] (fun _ d st => (seqs d, pfreqs st)) =
  Some ([[1]; [1; 2]; [2]], [4; 5; 6])%Z.
Proof.
  split; [|vm_compute; reflexivity].
  assert (A : lex_lt [1]%Z [1; 2]%Z) by (left; now exists 2%Z, []).
  assert (B : lex_lt [1]%Z [2]%Z) by (right; exists [], 1%Z, 2%Z, [], []; repeat split; lia).
  assert (C : lex_lt [1; 2]%Z [2]%Z) by (right; exists [], 1%Z, 2%Z, [2]%Z, []; repeat split; lia).
  repeat (apply SSorted_cons || apply SSorted_nil || apply Forall_cons || apply Forall_nil); easy.
Qed.

(** C28: after any parses and updates. *)
Theorem C28_update_one : forall fl ws mp init d0 st0 d st i f,
  mk_stat fl ws mp init = Ok (d0, st0) -> stat_hist fl d0 st0 d st ->
  exists st', update_symbol fl st i f = Ok st' /\
    (forall j, freq fl st' j = (freq fl st j + if Nat.eqb j i then f else 0)%Z) /\
    power st' = fadd fl (power st) (fofZ fl f) /\
    i < length (sfreqs st') /\ length (sfreqs st) <= length (sfreqs st') /\
    pairs st' = pairs st /\ minp st' = minp st /\ chars st' = chars st.
Proof. exact update_one. Qed.
Print Assumptions C28_update_one.

(** After result_freqs has padded symbol_freqs_ alone, update_symbol reads out of bounds. *)
Theorem C28_refuted_after_result_freqs : exists d b b1 fs b2,
  mk_dict [[1]; [1; 2]]%Z = Ok d /\ new_builder_dict exf d 10 = Ok b /\
  accept exf exenv b [1; 2]%Z = Ok b1 /\ result_freqs exf b1 [] = Ok (fs, b2) /\
  2 < length fs /\ update_symbol exf (bcur b2) 2 1 = UB OobRead /\ accept exf exenv b2 [2]%Z = UB OobRead.
Proof. exact update_oob. Qed.
Print Assumptions C28_refuted_after_result_freqs.

Example C28_case : observe [[1]; [2]]%Z None [[1; 2; 2]]%Z
    (fun _ _ st => match update_symbol exf st 4 9 with Ok st' => Some (map (freq exf st') (List.seq 0 6)) | _ => None end) =
  Some (Some [1; 2; 0; 0; 9; 0]%Z).
Proof. vm_compute. reflexivity. Qed.

(** C32 *)
Theorem C32_expand_only_observed : forall fl, flaws fl -> forall ws mp init d0 st0 log d st e slots ws' fs' mp',
  start_ok ws init -> mk_stat fl ws mp init = Ok (d0, st0) -> stat_run fl d0 st0 log d st -> inputs_ok (map fst log) ->
  env_ok fl e -> expand fl e d st slots = Ok (ws', fs', mp') ->
  forall w, In w ws' -> In w (seqs d) \/
    exists s ids l i j r a b, In (s, ids) log /\ ids = l ++ i :: j :: r /\
      word_at (seqs d) i a /\ word_at (seqs d) j b /\ w = a ++ b.
Proof. exact expand_only_observed. Qed.
Print Assumptions C32_expand_only_observed.

Theorem C32_expand_keeps : forall fl, flaws fl -> forall ws mp init d0 st0 log d st e slots,
  start_ok ws init -> NoDup ws -> symbol_closed ws -> mk_stat fl ws mp init = Ok (d0, st0) ->
  stat_run fl d0 st0 log d st -> inputs_ok (map fst log) -> fresh_ascending ws (concat (map fst log)) ->
  env_ok fl e -> draws_ok fl e ->
  exists ws' fs' mp', expand fl e d st slots = Ok (ws', fs', mp') /\ NoDup ws' /\ length fs' = length ws' /\
    ((0 <= slots)%Z -> incl (seqs d) ws').
Proof. exact expand_keeps. Qed.
Print Assumptions C32_expand_keeps.

Theorem C32_reduce_only_removes : forall fl, flaws fl -> forall e d (st : sstat fl) slots ws' fs' mp',
  env_ok fl e -> reduce fl e d st slots = Ok (ws', fs', mp') ->
  exists ids, Forall2 (word_at (seqs d)) ids ws' /\ NoDup ids /\ fs' = map (freq fl st) ids.
Proof. exact reduce_only_removes. Qed.
Print Assumptions C32_reduce_only_removes.

Theorem C32_reduce_keeps_symbols : forall fl, flaws fl -> forall ws mp init d0 st0 log d st e slots,
  start_ok ws init -> NoDup ws -> symbol_closed ws -> Forall (fun w : seq => Z.of_nat (length w) <= 2 ^ 40)%Z ws ->
  mk_stat fl ws mp init = Ok (d0, st0) ->
  stat_run fl d0 st0 log d st -> inputs_ok (map fst log) -> fresh_ascending ws (concat (map fst log)) ->
  (Z.of_nat (dsize d) <= 2 ^ 50)%Z -> env_ok fl e ->
  exists ws' fs' mp', reduce fl e d st slots = Ok (ws', fs', mp') /\
    ((0 <= slots)%Z -> forall c, In [c] (seqs d) -> In [c] ws').
Proof. exact reduce_keeps_symbols. Qed.
Print Assumptions C32_reduce_keeps_symbols.

Theorem C32_expand_keeps_double : forall lg (Hlg : log_ok lg) ws mp init d0 st0 log d st (e : env (ieee lg)) slots,
  start_ok ws init -> NoDup ws -> symbol_closed ws -> mk_stat (ieee lg) ws mp init = Ok (d0, st0) ->
  stat_run (ieee lg) d0 st0 log d st -> inputs_ok (map fst log) -> fresh_ascending ws (concat (map fst log)) ->
  env_ok (ieee lg) e -> gamma_ok (e_gamma e) ->
  exists ws' fs' mp', expand (ieee lg) e d st slots = Ok (ws', fs', mp') /\ NoDup ws' /\ length fs' = length ws' /\
    ((0 <= slots)%Z -> incl (seqs d) ws').
Proof.
  exact (fun lg Hlg ws mp init d0 st0 log d st e slots a b c f g h i j k =>
    expand_keeps (ieee lg) (ieee_laws lg Hlg) ws mp init d0 st0 log d st e slots a b c f g h i j (ieee_draws lg Hlg e k)).
Qed.
Print Assumptions C32_expand_keeps_double.

(** A symbol learned below a known one: expand inserts into a map it is iterating over. *)
Theorem C32_refuted_unsorted : exists d st ids n d1 st1,
  mk_stat exf [[5]]%Z (k_max_min_probability exf) None = Ok (d, st) /\
  stat_parse exf d st [3]%Z [] = Ok (ids, n, d1, st1) /\
  expand exf exenv d1 st1 10 = UB IterInvalid.
Proof. exact expand_unsorted. Qed.
Print Assumptions C32_refuted_unsorted.

Example C32_case : env_ok exf exenv /\ draws_ok exf exenv /\
  symbol_closed [[1]; [2]]%Z /\ fresh_ascending [[1]; [2]]%Z (concat [[1; 2; 1; 2]; [1; 2; 3; 4]])%Z /\
  observe [[1]; [2]]%Z None [[1; 2; 1; 2]; [1; 2; 3; 4]]%Z
    (fun _ d st => (match expand exf exenv d st 1 with Ok (ws, fs, _) => Some (ws, fs) | _ => None end,
                    match reduce exf exenv d st 0 with Ok (ws, fs, _) => Some (ws, fs) | _ => None end)) =
  Some (Some ([[1]; [2]; [3]; [4]; [1; 2]], [3; 3; 1; 1; 3])%Z, Some ([[1]; [2]; [3]; [4]], [3; 3; 1; 1])%Z).
Proof.
  split; [apply exenv_ok|]. split; [apply exenv_draws|]. split; [|split].
  - intros w [<-|[<-|[]]] c [<-|[]]; simpl; tauto.
  - apply fresh_b. vm_compute. reflexivity.
  - vm_compute. reflexivity.
Qed.

(** C58, exact arithmetic. *)
Theorem C58_dirichlet : forall (e : env ideal) ps, ps <> [] -> length (e_gamma e ps) = length ps ->
  Forall (fun g => 0 < g)%R (e_gamma e ps) ->
  length (next_dirichlet ideal e ps) = length ps /\
  Forall (fun x => 0 < x)%R (next_dirichlet ideal e ps) /\ rsum (next_dirichlet ideal e ps) = 1%R.
Proof. exact dirichlet_exact. Qed.
Print Assumptions C58_dirichlet.

(** With the generator explicit: the code computes that sample, whatever the buffer held before, so a
    second call with the same parameters gives the same vector. *)
Theorem C58_code : forall fl (g : rng fl) ps out (e : env fl), length out = length ps ->
  (forall l, e_gamma e l = fresh_draws fl g l) ->
  next_dirichlet_code fl g ps out = Ok (next_dirichlet fl e ps).
Proof. exact dirichlet_code. Qed.
Print Assumptions C58_code.

Theorem C58_repeated : forall fl (g : rng fl) ps out out', length out = length ps -> length out' = length ps ->
  exists r, next_dirichlet_code fl g ps out = Ok r /\ next_dirichlet_code fl g ps out' = Ok r.
Proof. exact dirichlet_again. Qed.
Print Assumptions C58_repeated.

(** A generator whose draws differ from call to call. *)
Example C58_case : let g := mkRng ideal nat 1 (fun _ n => (INR n, S n)) in
  fresh_draws ideal g [1; 1; 1]%R = [INR 1; INR 2; INR 3] /\
  Forall (fun x => 0 < x)%R (fresh_draws ideal g [1; 1; 1]%R).
Proof. intro g. split; [reflexivity|].
  change (Forall (fun x => 0 < x)%R [INR 1; INR 2; INR 3]). repeat (apply Forall_cons; [apply lt_0_INR; lia|]). apply Forall_nil. Qed.

(** C60 *)
Theorem C60_score_by_counts : forall fl, flaws fl -> forall ws mp init d0 st0 log d st e f s c,
  start_ok ws init -> mk_stat fl ws mp init = Ok (d0, st0) -> stat_run fl d0 st0 log d st -> inputs_ok (map fst log) ->
  env_ok fl e -> In ((f, s), c) (pairs st) ->
  exists se sw ew v, pair_margins fl st (e_pairs e (pairs st)) = Ok se /\
    nth_error (fst se) f = Some sw /\ nth_error (snd se) s = Some ew /\
    round_value fl (e_gamma e) c (starts (pairs st) f) (ends (pairs st) s) (all_pairs (pairs st)) = Some v /\
    pair_score fl e (fold_left (fadd fl) (fst se) (fofZ fl 0)) sw ew c = Ok (ten_times fl v).
Proof. exact score_by_counts. Qed.
Print Assumptions C60_score_by_counts.

Example C60_case : observe [[1]; [2]]%Z None [[1; 2; 1; 2]; [1; 2; 3; 4]]%Z
    (fun _ _ st => (starts (pairs st) 0, ends (pairs st) 1, all_pairs (pairs st),
      match round_value exf (e_gamma exenv) 3 3 3 6 with Some v => negb (fnan exf v) | None => false end)) =
  Some (3, 3, 6, true)%Z.
Proof. vm_compute. reflexivity. Qed.
