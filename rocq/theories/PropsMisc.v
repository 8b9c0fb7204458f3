(** Properties of the small helpers: C55-C57. Vocabulary: SpecMisc.v. *)
From Coq Require Import Ascii String.
From Verif Require Import Base ModelDict ModelTok TokProofs ModelVGram ModelMisc SpecVGram SpecMisc PropsMiscLemmas.
Local Open Scope list_scope.
Local Open Scope Z_scope.

(** C55: a non-empty sequence is printed as its numbers in parentheses with single spaces between them; this determines the sequence. *)
Theorem C55_printed : forall s, s <> [] -> Z.of_nat (length s) < 2 ^ 31 -> exists str, seq_to_string s = Ok str /\ listed_as s str.
Proof. exact seq_printed. Qed.
Print Assumptions C55_printed.
Theorem C55_unambiguous : forall s s' str, listed_as s str -> listed_as s' str -> s = s'.
Proof. exact printed_unique. Qed.
Print Assumptions C55_unambiguous.
(** The empty sequence is read past its end. *)
Theorem C55_refuted_empty : seq_to_string [] = UB OobRead.
Proof. exact empty_printed. Qed.
Print Assumptions C55_refuted_empty.
Example C55_case : seq_to_string [12; -3; 0] = Ok (txt "(12 -3 0)"%string).
Proof. vm_compute. reflexivity. Qed.

(** C56: the hash is the 64-bit recurrence, whatever std::hash<int> is; and fits in 64 bits. *)
Theorem C56_recurrence : forall h, vector_hash h [] = 0 /\
  forall v x, vector_hash h (v ++ [x]) = Z.lxor (vector_hash h v) ((h x + 2654435769 + 64 * vector_hash h v + vector_hash h v / 4) mod 2 ^ 64).
Proof. exact hash_recurrence. Qed.
Print Assumptions C56_recurrence.
Theorem C56_range : forall h v, 0 <= vector_hash h v < 2 ^ 64.
Proof. exact hash_range. Qed.
Print Assumptions C56_range.
(** With the usual std::hash<int>, sequences that differ in the last number only have different hashes. *)
Theorem C56_last : forall v x y, - 2 ^ 31 <= x < 2 ^ 31 -> - 2 ^ 31 <= y < 2 ^ 31 ->
  vector_hash cast_hash (v ++ [x]) = vector_hash cast_hash (v ++ [y]) -> x = y.
Proof. exact hash_last_cast. Qed.
Print Assumptions C56_last.
Example C56_case : vector_hash cast_hash [1; -1] = 175247769372%Z /\ vector_hash cast_hash [-1; 1] <> vector_hash cast_hash [1; -1].
Proof. vm_compute. split; [reflexivity|discriminate]. Qed.

(** C57 fails: on every encoder there can be, encoding anything dereferences the end iterator. *)
Theorem C57_refuted_any : forall T (eqb : T -> T -> bool) e, encoder_reached eqb e -> (forall out, encode_items eqb e [] out = Ok (e, out)) /\
  forall x r out, encode_items eqb e (x :: r) out = UB EndDeref.
Proof. exact @encoder_fails. Qed.
Print Assumptions C57_refuted_any.
Example C57_case : encode_items Z.eqb new_encoder [7] [] = UB EndDeref.
Proof. reflexivity. Qed.
