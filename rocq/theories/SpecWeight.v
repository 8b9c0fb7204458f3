(** SpecWeight: the log-probability of a split, stated without the algorithm. *)
From Verif Require Import Base Spec FloatOps.

Section W.
  Context (fl : fops).
  (** Log-probability given to word [i] of a dictionary with [n] words, when [freqs] are the known
      counts and [T] is their declared total: ln(freq + 1) - ln(T + n); a word beyond the table
      counts as frequency 0 (ln 1 = 0). *)
  Definition word_weight (freqs : list Z) (T : Z) (n i : nat) : F fl :=
    fsub fl (match nth_error freqs i with
             | Some f => flog fl (fofZ fl (f + 1))
             | None => fofZ fl 0
             end)
            (flog fl (fofZ fl (T + Z.of_nat n))).
  (** Weight of a split: sum from left to right. *)
  Definition split_weight (freqs : list Z) (T : Z) (n : nat) (ids : list nat) : F fl :=
    fold_left (fun a i => fadd fl a (word_weight freqs T n i)) ids (fofZ fl 0).
End W.
