(** Properties C29-C31 and C33-C36: IntVGramBuilderImpl. [bhist b0 ops b]: the builder [b] is what [b0]
    becomes by a sequence of accepts, result_freqs calls and parses by the stream that shares its
    dictionary (SpecBuilder.v). Each accept may have its own environment (hash and sort orders, random draws). *)
From Verif Require Import Base Spec FloatOps FloatLaws FloatIEEE FloatExample ModelDict Maps ModelStat ModelBuilder
  SpecStat SpecBuilder EnvExample PropsStatLemmas BuilderRuns PropsBuilderLemmas.

(** C29 *)
Theorem C29_words_occur : forall fl, flaws fl -> forall size ops b,
  bhist fl (new_builder fl size) ops b -> envs_ok fl ops -> lengths_ok fl (2 ^ 40) ops -> shared_known fl (fun _ => False) ops ->
  forall d w, In d (bheap b) -> In w (seqs d) -> w <> [] /\ occurs (accepted fl ops) w.
Proof. exact words_occur. Qed.
Print Assumptions C29_words_occur.

(** What alpha() hands out. *)
Theorem C29_alpha : forall fl, flaws fl -> forall size ops b,
  bhist fl (new_builder fl size) ops b -> envs_ok fl ops -> lengths_ok fl (2 ^ 40) ops -> shared_known fl (fun _ => False) ops ->
  exists d, alpha fl b = Ok d /\ sorted (seqs d) /\ forall w, In w (seqs d) -> w <> [] /\ occurs (accepted fl ops) w.
Proof. exact alpha_occur. Qed.
Print Assumptions C29_alpha.

(** With a starting alphabet the words of that alphabet are the only other ones. *)
Theorem C29_from_alphabet : forall fl, flaws fl -> forall d0 size b0 ops b,
  new_builder_dict fl d0 size = Ok b0 -> ~ In [] (seqs d0) -> (Z.of_nat (dsize d0) <= 2 ^ 50)%Z ->
  bhist fl b0 ops b -> envs_ok fl ops -> lengths_ok fl (2 ^ 40) ops -> shared_known fl (fun w => In w (seqs d0)) ops ->
  forall d w, In d (bheap b) -> In w (seqs d) -> w <> [] /\ (In w (seqs d0) \/ occurs (accepted fl ops) w).
Proof. exact words_occur_from. Qed.
Print Assumptions C29_from_alphabet.

(** On doubles. *)
Theorem C29_double : forall lg, log_ok lg -> forall size ops b,
  bhist (ieee lg) (new_builder (ieee lg) size) ops b -> envs_ok (ieee lg) ops -> lengths_ok (ieee lg) (2 ^ 40) ops ->
  shared_known (ieee lg) (fun _ => False) ops ->
  forall d w, In d (bheap b) -> In w (seqs d) -> w <> [] /\ occurs (accepted (ieee lg) ops) w.
Proof. intros lg Hlg. exact (words_occur (ieee lg) (ieee_laws lg Hlg)). Qed.
Print Assumptions C29_double.

(** A run with an expansion (which invents [1;2] and [2;1]) and a reduction (which drops [2;1]). *)
Example C29_case : exists b1 b2 ops1, ops1 = accepts exf (runs [first_text]) /\ bhist exf (new_builder exf 7) ops1 b1 /\
  accept exf exenv b1 second_text = Ok b2 /\ reduced exf b1 b2 /\ bptr b2 = 2 /\ result_ptr exf b2 = 2 /\
  map seqs (bheap b2) = [[[1]; [2]]; [[1]; [1; 2]; [2]; [2; 1]; [3]; [4]; [5]; [6]; [7]; [8]];
      [[1]; [1; 2]; [2]; [3]; [4]; [5]; [6]; [7]; [8]]]%Z.
Proof. exact two_hist. Qed.
Example C29_meets : let ops := accepts exf (runs [first_text; second_text]) in
  envs_ok exf ops /\ lengths_ok exf (2 ^ 40) ops /\ shared_known exf (fun _ => False) ops.
Proof. split; [apply exenvs|]. split; [apply two_fed|apply exenvs]. Qed.

(** C30: the working dictionary, when the symbols are numbered in order of appearance and the size
    leaves room for them. *)
Theorem C30_complete : forall fl, flaws fl -> forall size N ops b,
  bhist fl (new_builder fl size) ops b -> well_fed fl [] size N ops -> (0 <= size)%Z ->
  exists d, hget fl b (bptr b) = Ok d /\ strictly_sorted (seqs d) /\ ~ In [] (seqs d) /\
    forall c, In [c] (seqs d) <-> In c (concat (accepted fl ops)).
Proof. exact working_dict. Qed.
Print Assumptions C30_complete.

Theorem C30_double : forall lg, log_ok lg -> forall size N ops b,
  bhist (ieee lg) (new_builder (ieee lg) size) ops b -> well_fed (ieee lg) [] size N ops -> (0 <= size)%Z ->
  exists d, hget (ieee lg) b (bptr b) = Ok d /\ strictly_sorted (seqs d) /\ ~ In [] (seqs d) /\
    forall c, In [c] (seqs d) <-> In c (concat (accepted (ieee lg) ops)).
Proof. intros lg Hlg. exact (working_dict (ieee lg) (ieee_laws lg Hlg)). Qed.
Print Assumptions C30_double.

Example C30_case : well_fed exf [] 7 (2 ^ 40) (accepts exf (runs [first_text; second_text])).
Proof. exact two_fed. Qed.

(** C31: [size] here is the size the builder is given, one less than the size a stream is asked for. *)
Theorem C31_size : forall fl, flaws fl -> forall size N ops pre b e s b',
  uhist fl (new_builder fl size) ops pre b -> well_fed fl [] size N (ops ++ [BAccept e s]) -> (0 <= size)%Z ->
  accept fl e b s = Ok b' -> reduced fl b b' ->
  exists d, hget fl b' (bptr b') = Ok d /\ result_ptr fl b' = bptr b' /\
    (Z.of_nat (dsize d) <= size + 1 + (Z.of_nat (distinct (accepted fl ops ++ [s])) - Z.of_nat (distinct (accepted fl pre))))%Z.
Proof. exact reduced_size. Qed.
Print Assumptions C31_size.

(** The bound size + 1 without the correction is false. *)
Theorem C31_refuted_exceeds : exists size ops b e s b' d, bhist exf (new_builder exf size) ops b /\
  well_fed exf [] size (2 ^ 40) (ops ++ [BAccept e s]) /\ accept exf e b s = Ok b' /\ reduced exf b b' /\
  hget exf b' (result_ptr exf b') = Ok d /\ (size + 1 < Z.of_nat (dsize d))%Z.
Proof. exact exceeds_size. Qed.
Print Assumptions C31_refuted_exceeds.

(** C33 *)
Theorem C33_counters : forall fl, flaws fl -> forall size ops b,
  bhist fl (new_builder fl size) ops b -> envs_ok fl ops -> lengths_ok fl (2 ^ 40) ops -> shared_known fl (fun _ => False) ops ->
  exists P, power (bcur b) = fofZ fl P /\ (0 <= P <= 20000000)%Z /\
    (forall i, 0 <= freq fl (bcur b) i <= P)%Z /\
    (forall k c, In (k, c) (pairs (bcur b)) -> 1 <= c <= P)%Z.
Proof. exact counters. Qed.
Print Assumptions C33_counters.

(** In the middle of an accept, after its parse: every counter fits an int. *)
Theorem C33_no_overflow : forall fl, flaws fl -> forall size ops b N d s ids n d1 st1,
  bhist fl (new_builder fl size) ops b -> envs_ok fl ops -> lengths_ok fl N ops -> shared_known fl (fun _ => False) ops ->
  (N < 2 ^ 30 - 20000000)%Z -> (Z.of_nat (length s) <= N)%Z ->
  hget fl b (bptr b) = Ok d -> stat_parse fl d (bcur b) s [] = Ok (ids, n, d1, st1) ->
  (forall i, 0 <= at0 (sfreqs st1) i < 2 ^ 31)%Z /\ (forall i, 0 <= at0 (pfreqs st1) i < 2 ^ 31)%Z /\
  (forall k c, In (k, c) (pairs st1) -> 1 <= c < 2 ^ 31)%Z.
Proof. exact no_overflow. Qed.
Print Assumptions C33_no_overflow.

Example C33_case : lengths_ok exf (2 ^ 20) (accepts exf (runs [first_text])) /\
  Z.leb (Z.of_nat (length second_text)) (2 ^ 20) = true.
Proof. split; [split; [lia|split; [|vm_compute; discriminate]]|vm_compute; reflexivity].
  repeat constructor. vm_compute. discriminate. Qed.

(** C34 *)
Theorem C34_accept_total : forall fl, flaws fl -> forall size N ops b e s,
  bhist fl (new_builder fl size) ops b -> well_fed fl [] size N (ops ++ [BAccept e s]) -> (0 <= size)%Z ->
  exists b', accept fl e b s = Ok b'.
Proof. exact accept_total. Qed.
Print Assumptions C34_accept_total.

(** So every list of inputs can be accepted. *)
Theorem C34_run_total : forall fl, flaws fl -> forall size N es,
  well_fed fl [] size N (accepts fl es) -> (0 <= size)%Z -> exists b, bhist fl (new_builder fl size) (accepts fl es) b.
Proof. exact run_all. Qed.
Print Assumptions C34_run_total.

(** The same from a starting alphabet that contains the symbols of its words, with the working dictionary as in C30. *)
Theorem C34_from_alphabet : forall fl, flaws fl -> forall d0 size N b0 ops b e s,
  new_builder_dict fl d0 size = Ok b0 -> NoDup (seqs d0) -> ~ In [] (seqs d0) -> symbol_closed (seqs d0) ->
  Forall (fun w : seq => Z.of_nat (length w) <= 2 ^ 40)%Z (seqs d0) -> (Z.of_nat (dsize d0) <= 2 ^ 49)%Z ->
  (Z.of_nat (dsize d0) <= size)%Z ->
  bhist fl b0 ops b -> well_fed fl (seqs d0) size N (ops ++ [BAccept e s]) ->
  (exists d, hget fl b (bptr b) = Ok d /\ strictly_sorted (seqs d) /\ ~ In [] (seqs d) /\
    forall c, In [c] (seqs d) <-> In c (concat (seqs d0 ++ accepted fl ops))) /\
  exists b', accept fl e b s = Ok b'.
Proof. exact alphabet_total. Qed.
Print Assumptions C34_from_alphabet.

Theorem C34_double : forall lg, log_ok lg -> forall size N ops b e s,
  bhist (ieee lg) (new_builder (ieee lg) size) ops b -> well_fed (ieee lg) [] size N (ops ++ [BAccept e s]) -> (0 <= size)%Z ->
  exists b', accept (ieee lg) e b s = Ok b'.
Proof. intros lg Hlg. exact (accept_total (ieee lg) (ieee_laws lg Hlg)). Qed.
Print Assumptions C34_double.

(** Without room for the symbols: size 0 and three symbols. *)
Theorem C34_refuted_small : exists ss s b, bhist exf (new_builder exf 0) (accepts exf (runs ss)) b /\
  fresh_ascending [] (concat (ss ++ [s])) /\ distinct (ss ++ [s]) = 3 /\
  env_ok exf exenv /\ draws_ok exf exenv /\ accept exf exenv b s = UB IterInvalid.
Proof. exact small_size_ub. Qed.
Print Assumptions C34_refuted_small.

(** C35 *)
Theorem C35_never_increases : forall fl, flaws fl -> forall size ops b op b',
  bhist fl (new_builder fl size) ops b -> bstep fl b op b' -> envs_ok fl (ops ++ [op]) ->
  lengths_ok fl (2 ^ 40) (ops ++ [op]) -> shared_known fl (fun _ => False) (ops ++ [op]) ->
  fltb fl (minp (bcur b)) (minp (bcur b')) = false /\ fnan fl (minp (bcur b)) = false.
Proof. exact minp_step. Qed.
Print Assumptions C35_never_increases.

Theorem C35_at_most : forall fl, flaws fl -> forall size ops b,
  bhist fl (new_builder fl size) ops b -> envs_ok fl ops -> lengths_ok fl (2 ^ 40) ops -> shared_known fl (fun _ => False) ops ->
  fltb fl (flit fl 2 1000) (minp (bcur b)) = false.
Proof. exact minp_bound. Qed.
Print Assumptions C35_at_most.

Theorem C35_unset : forall fl size ops b,
  rhist fl (new_builder fl size) None ops None b -> get_min_probability fl b = fofZ fl (-1).
Proof. exact minp_unset. Qed.
Print Assumptions C35_unset.

(** C36: [rhist] follows a history and remembers the latest reduction (SpecBuilder.v). *)
Theorem C36_result : forall fl size ops r b, rhist fl (new_builder fl size) None ops r b ->
  exists d', alpha fl b = Ok d' /\
  match r with
  | None => result_ptr fl b = bptr b /\ exists d, hget fl b (bptr b) = Ok d /\ Permutation (seqs d) (seqs d')
  | Some (p, ws) => result_ptr fl b = p /\
      exists d, hget fl b p = Ok d /\ extends_by_symbols ws (seqs d) /\ Permutation (seqs d) (seqs d')
  end.
Proof. exact result_which. Qed.
Print Assumptions C36_result.

Theorem C36_every_history : forall fl size ops b, bhist fl (new_builder fl size) ops b ->
  exists r, rhist fl (new_builder fl size) None ops r b.
Proof. exact reductions. Qed.
Print Assumptions C36_every_history.

(** After the first text no reduction has happened (this is also a case of C35_unset), after the second one has. *)
Example C36_case : exists b1 b2, rhist exf (new_builder exf 7) None (accepts exf (runs [first_text])) None b1 /\
  rhist exf (new_builder exf 7) None (accepts exf (runs [first_text; second_text]))
    (Some (2, [[1]; [1; 2]; [2]; [3]; [4]; [5]; [6]; [7]; [8]]%Z)) b2.
Proof. exact two_results. Qed.
