(** SpecStat: vocabulary for the statistics properties. *)
From Verif Require Import Base Spec FloatOps ModelDict Maps ModelStat.

Definition zsum (l : list Z) : Z := fold_right Z.add 0%Z l.

(** A table read at [j]; entries that do not exist count as 0. *)
Definition at0 (l : list Z) (j : nat) : Z := nth j l 0%Z.

(** Number of occurrences of [j] in [ids]. *)
Definition occ (ids : list nat) (j : nat) : Z := Z.of_nat (count_occ Nat.eq_dec ids j).

(** Number of times [q] immediately follows [p] in [ids]. *)
Fixpoint times_adjacent (p q : nat) (ids : list nat) : Z :=
  match ids with
  | a :: t =>
      ((match t with b :: _ => if Nat.eqb a p && Nat.eqb b q then 1 else 0 | [] => 0 end)
       + times_adjacent p q t)%Z
  | [] => 0%Z
  end.

Section S.
  Context (fl : fops).

  (** A series of parses from (d0, st0); the log records each input with the words emitted for it. *)
  Inductive stat_run (d0 : dict) (st0 : sstat fl) : list (seq * list nat) -> dict -> sstat fl -> Prop :=
  | run_nil : stat_run d0 st0 [] d0 st0
  | run_parse log d st s ids n d' st' : stat_run d0 st0 log d st ->
      stat_parse fl d st s [] = Ok (ids, n, d', st') -> stat_run d0 st0 (log ++ [(s, ids)]) d' st'.

  Definition words_emitted (log : list (seq * list nat)) : Z :=
    zsum (map (fun p => Z.of_nat (length (snd p))) log).
  Definition symbols_consumed (log : list (seq * list nat)) : Z :=
    zsum (map (fun p => Z.of_nat (length (fst p))) log).

  (** Sum of freq(i), and of freq(i) times the length of word i, over all words of the dictionary. *)
  Definition total_freq (d : dict) (st : sstat fl) : Z :=
    zsum (map (freq fl st) (List.seq 0 (dsize d))).
  Definition total_length (d : dict) (st : sstat fl) : Z :=
    zsum (map (fun i => freq fl st i * Z.of_nat (length (nth i (seqs d) [])))%Z (List.seq 0 (dsize d))).

  (** The pair counter, 0 when the pair has none. *)
  Definition pair_count (st : sstat fl) (p q : nat) : Z :=
    match mfind nat2_eqb (pairs st) (p, q) with Some c => c | None => 0%Z end.
End S.

(** What the C++ standard guarantees about the environment of one update: iterating a map visits
    every entry once; sorting permutes and leaves no element after one that must precede it, if
    no score is NaN; one gamma value is drawn per parameter. *)
Record env_ok (fl : fops) (e : env fl) : Prop := {
  ok_pairs : forall l, Permutation l (e_pairs e l);
  ok_sort_perm : forall l, Permutation l (e_sort e l);
  ok_sorted : forall l, Forall (fun it => fnan fl (score it) = false) l ->
    StronglySorted (fun a b => fltb fl (fneg fl (score b)) (fneg fl (score a)) = false) (e_sort e l);
  ok_gamma : forall ps, length (e_gamma e ps) = length ps
}.

(** Counts of the pairs whose first (second) word is [i], and of all pairs. *)
Definition starts (ps : list ((nat * nat) * Z)) (i : nat) : Z :=
  zsum (map (fun p => if Nat.eqb (fst (fst p)) i then snd p else 0%Z) ps).
Definition ends (ps : list ((nat * nat) * Z)) (j : nat) : Z :=
  zsum (map (fun p => if Nat.eqb (snd (fst p)) j then snd p else 0%Z) ps).
Definition all_pairs (ps : list ((nat * nat) * Z)) : Z := zsum (map snd ps).

Section Score.
  Context (fl : fops).
  Local Notation "a + b" := (fadd fl a b).
  Local Notation "a - b" := (fsub fl a b).
  Local Notation "a * b" := (fmul fl a b).
  Local Notation "a / b" := (fdiv fl a b).

  (** One sampling round for a pair seen [c] times, among [s] pairs with the same first word, [n]
      pairs with the same second word and [t] pairs in all. [gamma] draws the gamma variates. *)
  Definition round_value (gamma : list (F fl) -> list (F fl)) (c s n t : Z) : option (F fl) :=
    let C := fofZ fl c in
    let AY := fofZ fl s - C in
    let XB := fofZ fl n - C in
    let XY := ((fofZ fl t - AY) - XB) - C in
    let one := fofZ fl 1 in
    match gamma [C + one; AY + one; XB + one; XY + one] with
    | g1 :: g2 :: g3 :: rest =>
        let inv := one / fold_left (fadd fl) (g1 :: g2 :: g3 :: rest) (fofZ fl 0) in
        let pAB := g1 * inv in
        let pAY := g2 * inv in
        let pXB := g3 * inv in
        Some ((((C * pAB) / (pAY + pAB)) * flog fl ((pAB / (pAY + pAB)) / (pXB + pAB))) / fofZ fl 10)
    | _ => None
    end.

  (** Ten equal rounds added up from 0. *)
  Definition ten_times (v : F fl) : F fl :=
    Nat.iter 10 (fun a => a + v) (fofZ fl 0).

  Definition score_fine (sc : F fl) : Prop := fnan fl sc = false /\ fltb fl sc (fmax fl) = true.

  (** The gamma variates are such that no score overflows or is undefined. *)
  Definition draws_ok (e : env fl) : Prop := forall c s n t,
    (1 <= c <= s)%Z -> (c <= n)%Z -> (s + n - c <= t <= 2 ^ 53)%Z ->
    exists v, round_value (e_gamma e) c s n t = Some v /\ score_fine (ten_times v).
End Score.

(** Occurrences of word [j], and of word [q] right after word [p], over all parses of a log. *)
Definition log_occ (log : list (seq * list nat)) (j : nat) : Z :=
  zsum (map (fun p => occ (snd p) j) log).
Definition log_adjacent (log : list (seq * list nat)) (p q : nat) : Z :=
  zsum (map (fun e => times_adjacent p q (snd e)) log).

(** Inputs whose lengths are far from the limits of `double` counting: each below 2^40 symbols,
    2^48 in total. *)
Definition inputs_ok (ss : list seq) : Prop :=
  Forall (fun s : seq => Z.of_nat (length s) <= 2 ^ 40)%Z ss /\
  (zsum (map (fun s => Z.of_nat (length s)) ss) <= 2 ^ 48)%Z.

(** Arguments of the constructor StatDictImpl(seqs, min_probability, init_freqs): no empty word,
    at most 2^50 words, prior frequencies between 0 and 2^52. *)
Definition start_ok (ws : list seq) (init : option (list Z)) : Prop :=
  ~ In [] ws /\ (Z.of_nat (length ws) <= 2 ^ 50)%Z /\
  match init with Some l => Forall (fun f => 0 <= f <= 2 ^ 52)%Z l | None => True end.
