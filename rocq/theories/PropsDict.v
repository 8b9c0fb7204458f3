(** PropsDict: properties C01-C15 of the dictionary (int_dict_p.cc) and of the copy of its weighted
    parse in stat_dict_p.cc. *)
From Verif Require Import Base Spec SpecWeight SpecHistory FloatOps FloatLaws FloatIEEE FloatExample
  ModelDict OrderProofs DictProofs GreedyProofs DpProofs WeightedProofs ReachProofs PropsDictLemmas.

(** C01 *)
Theorem C01_build_exact : forall ws, exists d,
  mk_dict ws = Ok d /\ Permutation (seqs d) ws /\ sorted (seqs d) /\
  dsize d = length ws /\ length (parents d) = length ws /\
  (NoDup ws -> strictly_sorted (seqs d)) /\
  (forall ws' d', Permutation ws ws' -> mk_dict ws' = Ok d' -> seqs d' = seqs d).
Proof. exact build_exact. Qed.
Print Assumptions C01_build_exact.

Theorem C01_build_symbols : forall syms, exists d,
  mk_dict_symbols syms = Ok d /\ Permutation (seqs d) (map (fun c => [c]) syms) /\ sorted (seqs d).
Proof. exact build_symbols. Qed.
Print Assumptions C01_build_symbols.

Theorem C01_get_in_range : forall d i w,
  get d i = Ok w <-> word_at (seqs d) i w.
Proof. exact get_word_at. Qed.
Print Assumptions C01_get_in_range.

(** C02 *)
Theorem C02_parent_longest_proper_prefix : forall ws d i w,
  NoDup ws -> mk_dict ws = Ok d -> word_at (seqs d) i w ->
  exists p, parent d i = Ok p /\
  match p with
  | Some j => exists v, word_at (seqs d) j v /\ prefix v w /\ v <> w /\
      forall k u, word_at (seqs d) k u -> prefix u w -> u <> w -> length u <= length v
  | None => forall k u, word_at (seqs d) k u -> prefix u w -> u = w
  end.
Proof. exact parent_longest. Qed.
Print Assumptions C02_parent_longest_proper_prefix.

Theorem C02_chain_is_all_prefixes : forall ws d i k v w,
  NoDup ws -> mk_dict ws = Ok d -> word_at (seqs d) i w -> word_at (seqs d) k v ->
  (on_chain d i k <-> prefix v w /\ v <> w).
Proof. exact chain_prefixes. Qed.
Print Assumptions C02_chain_is_all_prefixes.

Example C02_case :
  mk_dict [[2]; [1; 2; 3]; [1]; [1; 2]; [3]]%Z =
  Ok (mkDict [[1]; [1; 2]; [1; 2; 3]; [2]; [3]]%Z [None; Some 0; Some 1; None; None]) /\
  NoDup [[2]; [1; 2; 3]; [1]; [1; 2]; [3]]%Z.
Proof. split; [reflexivity|]. repeat constructor; simpl; intuition discriminate. Qed.

(** C03: for every list of words, including repeated and empty ones. *)
Theorem C03_build_safe : forall ws k e,
  mk_dict ws <> UB k /\ mk_dict ws <> Throw e /\ mk_dict ws <> NoTerm.
Proof. exact build_safe. Qed.
Print Assumptions C03_build_safe.

Example C03_case : mk_dict [[]; [7]; [7]; []]%Z =
  Ok (mkDict [[]; []; [7]; [7]]%Z [None; Some 0; Some 1; Some 2]).
Proof. reflexivity. Qed.

(** C04 *)
Theorem C04_search_excludes : forall ws d q l,
  NoDup ws -> mk_dict ws = Ok d ->
  exists r, search d q (Some l) = Ok (r, d) /\
  match r with
  | Some i => longest_prefix (seqs d) (fun k => ~ In k l) q i
  | None => no_prefix (seqs d) (fun k => ~ In k l) q
  end.
Proof. exact search_excludes. Qed.
Print Assumptions C04_search_excludes.

Example C04_case : exists d, mk_dict [[1]; [1; 2]; [1; 2; 3]]%Z = Ok d /\
  search d [1; 2; 3; 4]%Z (Some [2]) = Ok (Some 1, d) /\
  search d [1; 2; 3; 4]%Z (Some [1; 0; 2]) = Ok (None, d).
Proof. eexists. split; [reflexivity|]. split; reflexivity. Qed.

(** C05 *)
Theorem C05_search_total : forall ws d c q,
  NoDup ws -> mk_dict ws = Ok d ->
  (exists i, search d (c :: q) None = Ok (Some i, d) /\
     longest_prefix (seqs d) (fun _ => True) (c :: q) i) \/
  (no_prefix (seqs d) (fun _ => True) (c :: q) /\
   search d (c :: q) None =
     Ok (Some (dsize d), mkDict (seqs d ++ [[c]]) (parents d ++ [None]))).
Proof. exact search_total. Qed.
Print Assumptions C05_search_total.

Theorem C05_indices_stable : forall ws d q ex r d' i w,
  history ws d -> search d q ex = Ok (r, d') -> word_at (seqs d) i w -> word_at (seqs d') i w.
Proof. exact search_stable. Qed.
Print Assumptions C05_indices_stable.

Example C05_case : exists d, mk_dict [[1]; [1; 2]]%Z = Ok d /\
  search d [1; 2; 3]%Z None = Ok (Some 1, d) /\
  search d [9; 1]%Z None = Ok (Some 2, mkDict [[1]; [1; 2]; [9]]%Z [None; Some 0; None]).
Proof. eexists. split; [reflexivity|]. split; reflexivity. Qed.

(** C06 *)
Theorem C06_search_safe_everywhere : forall ws d c q ex,
  history ws d ->
  exists r d', search d (c :: q) ex = Ok (r, d') /\
    (ex = None -> r <> None) /\
    forall i, r = Some i -> exists w, word_at (seqs d') i w /\ prefix w (c :: q) /\
      forall l, ex = Some l -> ~ In i l.
Proof. exact search_safe. Qed.
Print Assumptions C06_search_safe_everywhere.

(** The only unsafe query is the empty one, without exclusions. *)
Theorem C06_empty_query : forall ws d, history ws d -> ~ In [] ws ->
  search d [] None = UB OobRead /\ forall l, search d [] (Some l) = Ok (None, d).
Proof. exact search_empty_query. Qed.
Print Assumptions C06_empty_query.

Example C06_case : exists d, history [[5]; [5; 6]]%Z d /\
  seqs d = [[5]; [5; 6]; [9]; [3]; [3]]%Z.
Proof. exact history_unsorted. Qed.

(** C07 *)
Theorem C07_word_finds_itself : forall ws d i w ex,
  NoDup ws -> mk_dict ws = Ok d -> word_at (seqs d) i w -> w <> [] ->
  (forall l, ex = Some l -> ~ In i l) ->
  search d w ex = Ok (Some i, d).
Proof. exact word_finds_itself. Qed.
Print Assumptions C07_word_finds_itself.

Example C07_case : exists d, mk_dict [[4]; [4; 4]; [2]]%Z = Ok d /\
  word_at (seqs d) 2 [4; 4]%Z /\ search d [4; 4]%Z (Some [1]) = Ok (Some 2, d).
Proof. eexists. split; [reflexivity|]. split; reflexivity. Qed.

(** C08: refuted in general; true when the new symbol sorts after all words. *)
Theorem C08_learned_index_refuted : exists ws d d1 d2 c i j,
  mk_dict ws = Ok d /\ search d [c] None = Ok (Some i, d1) /\
  search d1 [c] None = Ok (Some j, d2) /\ i <> j /\ dsize d2 = S (dsize d1).
Proof. exact learned_index_refuted. Qed.
Print Assumptions C08_learned_index_refuted.

Theorem C08_learned_index_in_order : forall ws d cs,
  NoDup ws -> ~ In [] ws -> mk_dict ws = Ok d ->
  increasing_after (seqs d) cs ->
  exists d', learn_all d cs = Ok d' /\ seqs d' = seqs d ++ map (fun c => [c]) cs /\
    forall i w, word_at (seqs d') i w -> search d' w None = Ok (Some i, d').
Proof. exact learned_in_order. Qed.
Print Assumptions C08_learned_index_in_order.

Example C08_case : increasing_after [[1]; [1; 2]; [4; 9]]%Z [5; 7; 8]%Z.
Proof. exact increasing_case. Qed.

(** C09 *)
Theorem C09_greedy_lossless : forall ws d s fuel,
  history ws d -> ~ In [] ws -> length s <= fuel ->
  exists ids d', parse_greedy fuel d s [] None = Ok (ids, length ids, d') /\
    spells (seqs d') ids s /\ extends_by_symbols (seqs d) (seqs d').
Proof. exact greedy_lossless. Qed.
Print Assumptions C09_greedy_lossless.

Theorem C09_greedy_longest : forall ws d s fuel,
  NoDup ws -> ~ In [] ws -> mk_dict ws = Ok d -> covers (seqs d) s -> length s <= fuel ->
  exists ids, parse_greedy fuel d s [] None = Ok (ids, length ids, d) /\
    spells (seqs d) ids s /\ greedy (seqs d) (fun _ => True) s ids.
Proof. exact greedy_longest. Qed.
Print Assumptions C09_greedy_longest.

(** After out-of-order learning the chosen word need not be the longest one. *)
Theorem C09_longest_refuted_after_learning : exists ws d q i d',
  history ws d /\ ~ In [] ws /\ NoDup ws /\ search d q None = Ok (Some i, d') /\
  ~ longest_prefix (seqs d) (fun _ => True) q i /\ In q (seqs d).
Proof. exact longest_refuted. Qed.
Print Assumptions C09_longest_refuted_after_learning.

Example C09_case : exists d, mk_dict [[1]; [2]; [1; 2]; [1; 2; 1]]%Z = Ok d /\
  covers (seqs d) [1; 2; 1; 2; 2; 1]%Z /\
  parse_greedy 6 d [1; 2; 1; 2; 2; 1]%Z [] None = Ok ([2; 3; 3; 0], 4, d).
Proof. exact greedy_case. Qed.

(** C10 *)
Theorem C10_greedy_excludes : forall ws d s fuel l,
  NoDup ws -> ~ In [] ws -> mk_dict ws = Ok d -> length s <= fuel ->
  exists ids, parse_greedy fuel d s [] (Some l) = Ok (ids, length ids, d) /\
    greedy (seqs d) (fun k => ~ In k l) s ids /\ Forall (fun i => ~ In i l) ids.
Proof. exact greedy_excludes. Qed.
Print Assumptions C10_greedy_excludes.

Theorem C10_greedy_excludes_any_state : forall ws d s fuel l,
  history ws d -> ~ In [] ws -> length s <= fuel ->
  exists ids, parse_greedy fuel d s [] (Some l) = Ok (ids, length ids, d) /\
    Forall (fun i => ~ In i l /\ i < dsize d) ids.
Proof. exact greedy_excludes_any. Qed.
Print Assumptions C10_greedy_excludes_any_state.

Example C10_case : exists d, mk_dict [[1]; [1; 2]; [3]]%Z = Ok d /\
  parse_greedy 5 d [1; 2; 7; 1; 3]%Z [] (Some [0]) = Ok ([1; 2], 2, d).
Proof. eexists. split; reflexivity. Qed.

(** C11 *)
Theorem C11_greedy_terminates : forall ws d s fuel out ex,
  history ws d -> ~ In [] ws -> length s <= fuel ->
  exists o n d', parse_greedy fuel d s out ex = Ok (o, n, d').
Proof. exact greedy_terminates. Qed.
Print Assumptions C11_greedy_terminates.

Theorem C11_empty_word_refuted : exists ws d s, mk_dict ws = Ok d /\
  forall fuel, parse_greedy fuel d s [] None = NoTerm.
Proof. exact greedy_loops. Qed.
Print Assumptions C11_empty_word_refuted.

(** C12 *)
Theorem C12_weighted_lossless : forall fl (L : flaws fl) ws d s freqs T out,
  history ws d -> ~ In [] ws -> counts_ok freqs T ->
  (Z.of_nat (length s) <= maxlen)%Z ->
  (T + Z.of_nat (dsize d) + Z.of_nat (length s) <= maxcount)%Z ->
  exists ids d', parse_weighted fl d s freqs (fofZ fl T) out =
      Ok (out ++ ids, length (out ++ ids), d') /\
    spells (seqs d') ids s /\ extends_by_symbols (seqs d) (seqs d').
Proof. exact weighted_parse_lossless. Qed.
Print Assumptions C12_weighted_lossless.

(** The same for IEEE-754 doubles. *)
Theorem C12_weighted_lossless_double : forall lg, log_ok lg -> forall ws d s freqs T out,
  history ws d -> ~ In [] ws -> counts_ok freqs T ->
  (Z.of_nat (length s) <= maxlen)%Z ->
  (T + Z.of_nat (dsize d) + Z.of_nat (length s) <= maxcount)%Z ->
  exists ids d', parse_weighted (ieee lg) d s freqs (f64_ofZ T) out =
      Ok (out ++ ids, length (out ++ ids), d') /\
    spells (seqs d') ids s /\ extends_by_symbols (seqs d) (seqs d').
Proof. exact weighted_parse_lossless_double. Qed.
Print Assumptions C12_weighted_lossless_double.

Example C12_case : exists d d', mk_dict [[1; 2]; [2; 3]]%Z = Ok d /\ counts_ok [4; 1]%Z 5 /\
  parse_weighted exf d [1; 2; 3; 2; 3]%Z [4; 1]%Z (fofZ exf 5) [7] = Ok ([7; 0; 2; 1], 4, d') /\
  spells (seqs d') [0; 2; 1] [1; 2; 3; 2; 3]%Z.
Proof. exact weighted_case. Qed.

(** C13 *)
Theorem C13_weighted_optimal : forall fl (L : flaws fl) ws d s freqs T,
  NoDup ws -> ~ In [] ws -> mk_dict ws = Ok d -> covers (seqs d) s -> counts_ok freqs T ->
  (Z.of_nat (length s) <= maxlen)%Z -> (T + Z.of_nat (dsize d) <= maxcount)%Z ->
  exists ids, parse_weighted fl d s freqs (fofZ fl T) [] = Ok (ids, length ids, d) /\
    spells (seqs d) ids s /\
    forall ids', spells (seqs d) ids' s ->
      fltb fl (split_weight fl freqs T (dsize d) ids) (split_weight fl freqs T (dsize d) ids') = false.
Proof. exact weighted_optimal. Qed.
Print Assumptions C13_weighted_optimal.

Theorem C13_weighted_optimal_double : forall lg, log_ok lg -> forall ws d s freqs T,
  NoDup ws -> ~ In [] ws -> mk_dict ws = Ok d -> covers (seqs d) s -> counts_ok freqs T ->
  (Z.of_nat (length s) <= maxlen)%Z -> (T + Z.of_nat (dsize d) <= maxcount)%Z ->
  exists ids, parse_weighted (ieee lg) d s freqs (f64_ofZ T) [] = Ok (ids, length ids, d) /\
    spells (seqs d) ids s /\
    forall ids', spells (seqs d) ids' s ->
      fltb (ieee lg) (split_weight (ieee lg) freqs T (dsize d) ids)
                     (split_weight (ieee lg) freqs T (dsize d) ids') = false.
Proof. exact weighted_optimal_double. Qed.
Print Assumptions C13_weighted_optimal_double.

(** Here greedy reads 1 2 | 3, but 1 | 2 3 is more probable and is the one found. *)
Example C13_case : exists d, mk_dict [[1]; [2]; [3]; [1; 2]; [2; 3]]%Z = Ok d /\
  covers (seqs d) [1; 2; 3]%Z /\
  parse_weighted exf d [1; 2; 3]%Z [50; 1; 1; 90; 1]%Z (fofZ exf 143) [] = Ok ([0; 3], 2, d) /\
  parse_greedy 3 d [1; 2; 3]%Z [] None = Ok ([1; 4], 2, d).
Proof. exact optimal_case. Qed.

(** C14 *)
Theorem C14_greedy_buffer : forall fuel d s out ex,
  parse_greedy fuel d s out ex =
  ('(ids, _, d') <- parse_greedy fuel d s [] ex ;; Ok (out ++ ids, length (out ++ ids), d')).
Proof. exact greedy_buffer. Qed.
Print Assumptions C14_greedy_buffer.

Theorem C14_weighted_buffer : forall fl d s freqs total out,
  parse_weighted fl d s freqs total out =
  ('(ids, _, d') <- parse_weighted fl d s freqs total [] ;; Ok (out ++ ids, length (out ++ ids), d')).
Proof. exact weighted_buffer. Qed.
Print Assumptions C14_weighted_buffer.

Theorem C14_return_is_size : forall fuel d s out ex o n d',
  parse_greedy fuel d s out ex = Ok (o, n, d') -> n = length o.
Proof. exact greedy_return. Qed.
Print Assumptions C14_return_is_size.

Example C14_case : exists d d', mk_dict [[1]]%Z = Ok d /\
  parse_greedy 2 d [1; 4]%Z [9; 9] None = Ok ([9; 9; 0; 1], 4, d').
Proof. do 2 eexists. split; reflexivity. Qed.

(** C15: StatDictImpl::weightedParse of a word with the word itself excluded. *)
Theorem C15_reparse_without_itself : forall fl (L : flaws fl) ws d x w freqs T,
  NoDup ws -> ~ In [] ws -> mk_dict ws = Ok d -> word_at (seqs d) x w -> 2 <= length w ->
  covers (seqs d) w -> counts_ok freqs T ->
  (Z.of_nat (length w) <= maxlen)%Z -> (T + Z.of_nat (dsize d) <= maxcount)%Z ->
  exists ids, weighted_parse fl false true d w freqs (fofZ fl T) (Some [x]) =
      Ok (ids, split_weight fl freqs T (dsize d) ids, d) /\
    spells (seqs d) ids w /\ ~ In x ids /\ 2 <= length ids /\
    forall ids', ~ In x ids' -> spells (seqs d) ids' w ->
      fltb fl (split_weight fl freqs T (dsize d) ids) (split_weight fl freqs T (dsize d) ids') = false.
Proof. exact reparse_without_itself. Qed.
Print Assumptions C15_reparse_without_itself.

(** Without the one-symbol words the same call reads index -1. *)
Theorem C15_reparse_refuted_without_symbols : exists ws d x w,
  NoDup ws /\ mk_dict ws = Ok d /\ word_at (seqs d) x w /\ 2 <= length w /\
  forall fl freqs total, weighted_parse fl false true d w freqs total (Some [x]) = UB OobRead.
Proof. exact reparse_refuted. Qed.
Print Assumptions C15_reparse_refuted_without_symbols.

Example C15_case : exists d, mk_dict [[1]; [2]; [1; 2]; [1; 2; 1]]%Z = Ok d /\
  covers (seqs d) [1; 2; 1]%Z /\ word_at (seqs d) 2 [1; 2; 1]%Z /\
  ('(ids, _, d') <- weighted_parse exf false true d [1; 2; 1]%Z [5; 5; 2; 4]%Z (fofZ exf 16) (Some [2]) ;;
   Ok (ids, d')) = Ok ([1; 0], d).
Proof. exact reparse_case. Qed.
