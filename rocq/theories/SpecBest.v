(** SpecBest: the most probable division of a sequence into words, and what it means in exact numbers. *)
From Coq Require Import Reals.
From Flocq Require Import Core BinarySingleNaN.
From Verif Require Import Base Spec FloatOps FloatIEEE SpecStat SpecWeight.

(** [ids] divides [s] into words of [al], and no other division has a larger sum of logarithms of smoothed frequencies
    (SpecWeight.v: the logarithm of freq + 1, minus that of the sum of all frequencies plus the number of words). *)
Definition most_probable (fl : fops) (freqs : list Z) (al : list seq) (ids : list nat) (s : seq) : Prop :=
  spells al ids s /\
  forall ids', spells al ids' s ->
    fltb fl (split_weight fl freqs (zsum freqs) (length al) ids) (split_weight fl freqs (zsum freqs) (length al) ids') = false.

(** The same in exact numbers: the smoothed probability of a word, and of a division. *)
Local Open Scope R_scope.
Definition word_prob (freqs : list Z) (n i : nat) : R :=
  IZR (match nth_error freqs i with Some f => f + 1 | None => 1 end) / IZR (zsum freqs + Z.of_nat n).
Definition split_prob (freqs : list Z) (n : nat) (ids : list nat) : R :=
  fold_right (fun i p => word_prob freqs n i * p) 1 ids.

(** std::log of an integer is right up to 2^-46; between 1 and 2^53 the unit in the last place of a logarithm is at
    most 2^-47. *)
Definition log_close (lg : f64 -> f64) : Prop := forall z, (1 <= z <= 2 ^ 53)%Z ->
  is_finite (lg (f64_ofZ z)) = true /\ Rabs (B2R (lg (f64_ofZ z)) - ln (IZR z)) <= bpow radix2 (-46).

(** How far the chosen division of [m] symbols may fall behind the best one, as a logarithm. *)
Definition slack (m : nat) : R := 2 * INR m * (bpow radix2 (-44) + INR m * bpow radix2 (-47)).
