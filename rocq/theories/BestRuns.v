(** Executions on doubles for C88. *)
From Verif Require Import Base Spec FloatOps FloatExample ModelDict Maps ModelCoder ModelStat ModelBuilder ModelStream SpecStream.

Definition pair_coder : coder := mkCoder [(8, 1); (5, 0)]%Z [(0, 5); (1, 8)]%Z.
Definition pair_parse (freqs : list Z) : outcome (list nat * list seq * list Z) :=
  z <- loaded_stream exf pair_coder freqs [[0]; [1]; [0; 1]]%Z 100 (flit exf 2 1000) ;;
  '(ids, z') <- s_parse exf z [5; 8; 5]%Z ;; al <- s_alphabet exf z' ;; Ok (ids, al, s_freqs exf z').
Lemma run_pair : pair_parse [3; 2; 4]%Z = Ok ([1; 0], [[5]; [5; 8]; [8]]%Z, [3; 2; 4]%Z).
Proof. vm_compute. reflexivity. Qed.
Lemma run_apart : pair_parse [60; 0; 50]%Z = Ok ([0; 2; 0], [[5]; [5; 8]; [8]]%Z, [60; 0; 50]%Z).
Proof. vm_compute. reflexivity. Qed.
