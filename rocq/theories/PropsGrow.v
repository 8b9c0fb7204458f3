(** C82: what an expansion adds. *)
From Coq Require Import Reals.
From Verif Require Import Base Spec FloatOps FloatLaws FloatIEEE FloatExample FloatIdeal FloatScore ModelDict Maps ModelStat
  SpecStat RunProofs LearnProofs EnvExample PropsStatLemmas SpecGrow PropsGrowLemmas.

(** The result is the old words, then the texts of some pairs of neighbours, best first, none of negative worth, each with
    its count as frequency. A text that is missing belongs to a pair of negative worth, or all slots are used up by
    pairs that are worth at least as much. *)
Theorem C82_selection : forall fl, flaws fl -> forall ws mp init d0 st0 log d st e slots ws' fs' mp',
  start_ok ws init -> NoDup ws -> symbol_closed ws -> mk_stat fl ws mp init = Ok (d0, st0) ->
  stat_run fl d0 st0 log d st -> inputs_ok (map fst log) -> fresh_ascending ws (concat (map fst log)) ->
  env_ok fl e -> draws_ok fl e -> (0 <= slots)%Z -> expand fl e d st slots = Ok (ws', fs', mp') ->
  exists olds news old_txts new_txts,
    Permutation olds (List.seq 0 (dsize d)) /\ ws' = old_txts ++ new_txts /\
    Forall2 (word_at (seqs d)) olds old_txts /\
    incl news (pairs st) /\ Forall2 (joined (seqs d)) news new_txts /\
    fs' = map (freq fl st) olds ++ map snd news /\
    mp' = least_share fl (pairs st) (minp st) news /\
    best_first fl (e_gamma e) (pairs st) news /\
    Forall (fun p => exists v, worth fl (e_gamma e) (pairs st) p = Some v /\ fltb fl v (fofZ fl 0) = false) news /\
    (forall p t, In p (pairs st) -> joined (seqs d) p t -> ~ In t ws' ->
       exists q v, In q (pairs st) /\ joined (seqs d) q t /\ worth fl (e_gamma e) (pairs st) q = Some v /\
         (fltb fl v (fofZ fl 0) = true \/
          Z.of_nat (length news) = slots /\
          forall r u, In r news -> worth fl (e_gamma e) (pairs st) r = Some u -> fltb fl u v = false)).
Proof. exact expansion_selects. Qed.
Print Assumptions C82_selection.

Theorem C82_double : forall lg, log_ok lg -> forall ws mp init d0 st0 log d st (e : env (ieee lg)) slots ws' fs' mp',
  start_ok ws init -> NoDup ws -> symbol_closed ws -> mk_stat (ieee lg) ws mp init = Ok (d0, st0) ->
  stat_run (ieee lg) d0 st0 log d st -> inputs_ok (map fst log) -> fresh_ascending ws (concat (map fst log)) ->
  env_ok (ieee lg) e -> gamma_ok (e_gamma e) -> (0 <= slots)%Z -> expand (ieee lg) e d st slots = Ok (ws', fs', mp') ->
  exists olds news old_txts new_txts,
    Permutation olds (List.seq 0 (dsize d)) /\ ws' = old_txts ++ new_txts /\
    Forall2 (word_at (seqs d)) olds old_txts /\
    incl news (pairs st) /\ Forall2 (joined (seqs d)) news new_txts /\
    fs' = map (freq (ieee lg) st) olds ++ map snd news /\
    mp' = least_share (ieee lg) (pairs st) (minp st) news /\
    best_first (ieee lg) (e_gamma e) (pairs st) news /\
    Forall (fun p => exists v, worth (ieee lg) (e_gamma e) (pairs st) p = Some v /\
                               fltb (ieee lg) v (fofZ (ieee lg) 0) = false) news /\
    (forall p t, In p (pairs st) -> joined (seqs d) p t -> ~ In t ws' ->
       exists q v, In q (pairs st) /\ joined (seqs d) q t /\ worth (ieee lg) (e_gamma e) (pairs st) q = Some v /\
         (fltb (ieee lg) v (fofZ (ieee lg) 0) = true \/
          Z.of_nat (length news) = slots /\
          forall r u, In r news -> worth (ieee lg) (e_gamma e) (pairs st) r = Some u -> fltb (ieee lg) u v = false)).
Proof.
  exact (fun lg Hlg ws mp init d0 st0 log d st e slots ws' fs' mp' a b c f g h i j k =>
    expansion_selects (ieee lg) (ieee_laws lg Hlg) ws mp init d0 st0 log d st e slots ws' fs' mp' a b c f g h i j
      (ieee_draws lg Hlg e k)).
Qed.
Print Assumptions C82_double.

(** In exact arithmetic: with the draws g1..g4 for "both words", "first word, then another", "another, then the second
    word" and "neither", the worth is count * P(second | first) * ln(P(both) / (P(first) P(second))), and it is not
    negative exactly if the odds ratio is at least one. *)
Theorem C82_exact : forall gamma ps f s c g1 g2 g3 g4, (1 <= c)%Z ->
  (gamma [IZR c + 1; IZR (starts ps f) - IZR c + 1; IZR (ends ps s) - IZR c + 1;
          IZR (all_pairs ps) - (IZR (starts ps f) - IZR c) - (IZR (ends ps s) - IZR c) - IZR c + 1] = [g1; g2; g3; g4] ->
   0 < g1 -> 0 < g2 -> 0 < g3 -> 0 < g4 ->
   let G := g1 + g2 + g3 + g4 in
   exists v, worth ideal gamma ps ((f, s), c) = Some v /\
     v = IZR c * (g1 / (g1 + g2)) * ln ((g1 / G) / (((g1 + g2) / G) * ((g1 + g3) / G))) /\
     (fltb ideal v (fofZ ideal 0) = false <-> g2 * g3 <= g1 * g4))%R.
Proof. exact worth_exact. Qed.
Print Assumptions C82_exact.

(** A run with five candidates of positive worth and with one of negative worth. *)
Definition signs (st : sstat exf) : list bool :=
  map (fun p => match worth exf (e_gamma exenv) (pairs st) p with
                | Some v => negb (fltb exf v (f64_ofZ 0)) | None => false end) (pairs st).
Example C82_case : env_ok exf exenv /\ draws_ok exf exenv /\
  observe [[1]; [2]; [3]]%Z None [[1; 2; 1; 2; 1; 2; 1; 2]; [3; 3; 1; 2; 3; 3]]%Z
    (fun _ d st => (pairs st, signs st,
       map (fun k => match expand exf exenv d st k with Ok (ws, fs, _) => Some (ws, fs) | _ => None end) [0; 2; 3]%Z)) =
  Some ([((0, 1), 5%Z); ((1, 0), 3%Z); ((2, 2), 2%Z); ((2, 0), 1%Z); ((1, 2), 1%Z)], [true; true; true; true; true],
        [Some ([[1]; [2]; [3]], [5; 5; 4]); Some ([[1]; [2]; [3]; [1; 2]; [2; 1]], [5; 5; 4; 5; 3]);
         Some ([[1]; [2]; [3]; [1; 2]; [2; 1]; [3; 3]], [5; 5; 4; 5; 3; 2])]%Z) /\
  observe [[1]; [2]]%Z None [[1; 1; 1; 1; 2; 2; 2; 2]]%Z
    (fun _ d st => (pairs st, signs st, match expand exf exenv d st 9 with Ok (ws, fs, _) => Some (ws, fs) | _ => None end)) =
  Some ([((0, 0), 3%Z); ((0, 1), 1%Z); ((1, 1), 3%Z)], [true; false; true],
        Some ([[1]; [2]; [2; 2]; [1; 1]], [4; 4; 3; 3])%Z).
Proof.
  split; [apply exenv_ok|]. split; [apply exenv_draws|]. split; vm_compute; reflexivity.
Qed.
