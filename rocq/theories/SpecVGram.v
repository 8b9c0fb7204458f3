(** SpecVGram: vocabulary for the properties of IntVGram. *)
From Verif Require Import Base Spec FloatOps ModelDict Maps ModelStat ModelBuilder ModelStream ModelVGram SpecStat SpecBuilder SpecStream.

(** The calls that fitting makes on the stream if nothing interrupts it: [n] rounds; a round accepts as many randomly
    drawn sequences as there are, then updates. *)
Section S.
  Context (fl : fops).
  Definition drawn (w : world fl) (xs : list seq) (t : nat) : seq := nth (Z.to_nat (w_rand w t mod Z.of_nat (length xs))) xs [].
  Definition draw (w : world fl) (xs : list seq) (t : nat) : sop fl := SAccept (w_env w t) (drawn w xs t).
  Definition round (w : world fl) (xs : list seq) (i : nat) : list (sop fl) :=
    map (draw w xs) (List.seq (i * length xs) (length xs)) ++ [SUpdate].
  Definition sampling (w : world fl) (xs : list seq) (n : nat) : list (sop fl) := flat_map (round w xs) (List.seq 0 n).

  (** No call of isTerminated up to call number [n] answers true. *)
  Definition undisturbed (w : world fl) (n : nat) : Prop := forall k, k < n -> w_term w k = false.
End S.

(** A loop over [n] elements, left after an element when the call of isTerminated answers true, handles the first [m]. *)
Definition kept (term : nat -> bool) (n m : nat) : Prop :=
  m <= n /\ (forall k, S k < m -> term k = false) /\ (m < n -> exists k, m = S k /\ term k = true).

(** [freqs] counts the words of [ws] in readings of [xs]. *)
Definition counts_readings (ws : list seq) (xs : list seq) (freqs : list Z) : Prop :=
  exists readings, Forall2 (fun x ids => spells ws ids x) xs readings /\ length freqs = length ws /\
    forall j, at0 freqs j = zsum (map (fun ids => occ ids j) readings).
(** Total length of [xs]; total length of the words, each taken as often as [freqs] says. *)
Definition total_symbols (xs : list seq) : Z := zsum (map (fun x : seq => Z.of_nat (length x)) xs).
Definition weight (ws : list seq) (freqs : list Z) : Z :=
  zsum (map (fun j => (at0 freqs j * Z.of_nat (length (nth j ws [])))%Z) (List.seq 0 (length ws))).

(** Decimal numerals, without leading zeros. Characters are numbers: '0' is 48. *)
Definition digit (c : Z) : Prop := (48 <= c <= 57)%Z.
Definition value (t : list Z) : Z := fold_left (fun a c => 10 * a + (c - 48))%Z t 0%Z.
Definition numeral (t : list Z) (n : Z) : Prop :=
  t <> [] /\ Forall digit t /\ value t = n /\ (hd 0%Z t = 48%Z -> t = [48%Z]).
(** The decimal ids, each preceded by one space; -1 if there is none. *)
Definition written (str : list Z) (ids : list nat) : Prop :=
  (ids = [] /\ str = [45; 49]%Z) \/
  (ids <> [] /\ exists ts, Forall2 (fun t i => numeral t (Z.of_nat i)) ts ids /\ str = flat_map (fun t => 32%Z :: t) ts).

Section G.
  Context (fl : fops).
  (** A fit that runs well: [v] is not fitted yet and came about by the calls [ops0] on a new stream; after the
      sampling the alphabet is [al], and it has every symbol of the data. *)
  Definition good_fit (size N : Z) (ops0 : list (sop fl)) (w : world fl) (v : vgram fl) (xs : list seq) (ops : list (sop fl)) (al : list seq) : Prop :=
    vfitted v = false /\ (1 <= viter v)%Z /\ ops = ops0 ++ sampling fl w xs (Z.to_nat (viter v)) /\
    shist fl (new_stream fl size) ops0 (vs v) /\ calm fl [] (new_stream fl size) ops0 /\ normal fl N ops /\ roomy fl size ops /\
    (exists z, shist fl (new_stream fl size) ops z /\ s_alphabet fl z = Ok al) /\
    undisturbed fl w (S (Z.to_nat (viter v)) * length xs) /\
    (forall x, In x xs -> covers al x /\ (Z.of_nat (length x) <= 2 ^ 40)%Z) /\ (total_symbols xs <= 2 ^ 50)%Z.
End G.
