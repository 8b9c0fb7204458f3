(** SpecSchedule: the periods between rebuilds of the dictionary, and how the waiting time follows from them. *)
From Verif Require Import Base Spec FloatOps ModelDict ModelCoder ModelStat ModelBuilder ModelStream SpecStat SpecBuilder SpecStream.

Section S.
  Context (fl : fops).
  Local Notation "x +. y" := (fadd fl x y) (at level 50, left associativity).
  Local Notation "x -. y" := (fsub fl x y) (at level 50, left associativity).
  Local Notation "x *. y" := (fmul fl x y) (at level 40, left associativity).
  Local Notation "x /. y" := (fdiv fl x y) (at level 40, left associativity).

  (** The code length, in bytes per symbol, of a text in which the words [ws] occur [fs] times, [P] words in all. *)
  Definition bits (f : Z) : F fl := (fofZ fl f *. flog fl (fofZ fl f)) /. flog fl (fofZ fl 2).
  Definition rate (ws : list seq) (fs : list Z) (P : F fl) : F fl :=
    let used := fold_left (fun a f => if Z.ltb 0 f then a -. bits f else a) fs (fofZ fl 0) in
    let symbols := fold_left (fun a p => a +. fofZ fl ((Z.of_nat (length (fst p)) * snd p) mod 2 ^ 64)%Z) (combine ws fs) (fofZ fl 0) in
    ((used +. (P *. flog fl P) /. flog fl (fofZ fl 2)) /. fofZ fl 8) /. symbols.

  (** A period that ended with a rebuild: how many words were read before the last sequence, in all, and the rate. *)
  Record period := mkPeriod { p_before : Z; p_total : Z; p_rate : F fl }.

  (** Accepting [s]: the words read, the dictionary and the statistics when they are counted. *)
  Definition reads (z : stream fl) (s : seq) (ids : list nat) (d : dict) (st : sstat fl) : Prop :=
    exists d0 n, hget fl (zb z) (bptr (zb z)) = Ok d0 /\ stat_parse fl d0 (bcur (zb z)) (fst (encode (zcoder z) s)) [] = Ok (ids, n, d, st).
  Definition rebuilds (z z' : stream fl) : bool := is_updated fl (zb z) (zb z').

  (** A history with its periods and the number of words read since the last rebuild. *)
  Inductive timed (z0 : stream fl) : list (sop fl) -> list period -> Z -> stream fl -> Prop :=
  | tm_nil : timed z0 [] [] 0 z0
  | tm_read ops ps n z e s z' ids d st : timed z0 ops ps n z -> s_accept fl e z s = Ok z' -> reads z s ids d st ->
      rebuilds z z' = false -> timed z0 (ops ++ [SAccept e s]) ps (n + Z.of_nat (length ids))%Z z'
  | tm_rebuild ops ps n z e s z' ids d st : timed z0 ops ps n z -> s_accept fl e z s = Ok z' -> reads z s ids d st ->
      rebuilds z z' = true ->
      timed z0 (ops ++ [SAccept e s])
        (ps ++ [mkPeriod n (n + Z.of_nat (length ids))%Z (rate (seqs d) (map (freq fl st) (List.seq 0 (dsize d))) (power st))]) 0 z'
  | tm_other ops ps n z op z' : timed z0 ops ps n z -> sstep fl z op z' -> op_fed fl op = [] ->
      timed z0 (ops ++ [op]) ps n z'.

  (** The best rate so far, one at the start. *)
  Definition best (rs : list (F fl)) : F fl := fold_left (fun b r => if fltb fl r b then r else b) rs (fofZ fl 1).
  (** Rebuild number [j] had a better rate than all before it. *)
  Definition improves (rs : list (F fl)) (j : nat) : bool :=
    match nth_error rs j with Some r => fltb fl r (best (firstn j rs)) | None => false end.
  (** The last [k] rebuilds, and no more, brought no improvement. *)
  Definition idle (rs : list (F fl)) (k : nat) : Prop :=
    k <= length rs /\ (forall j, length rs - k <= j < length rs -> improves rs j = false) /\
    (k = length rs \/ improves rs (length rs - k - 1) = true).
  (** Rebuild [j] was at least the fourth in a row without improvement. *)
  Definition stuck (rs : list (F fl)) (j : nat) : bool :=
    Nat.leb 3 j && forallb (fun i => negb (improves rs i)) [j - 3; j - 2; j - 1; j].
  Definition cuts (rs : list (F fl)) : nat := length (filter (stuck rs) (List.seq 0 (length rs))).
  (** 0.1 * 0.8 * ... * 0.8 *)
  Definition prob_after (k : nat) : F fl := Nat.iter k (fun p => p *. flit fl 8 10) (flit fl 1 10).

  (** The number of words to wait for, with the probability [p] of missing a word and the minimum probability [m]. *)
  Definition wait (p m : F fl) : F fl := fneg fl (flog fl p) /. m.
End S.
Arguments mkPeriod {fl}. Arguments p_before {fl}. Arguments p_total {fl}. Arguments p_rate {fl}.
