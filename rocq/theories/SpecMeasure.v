(** SpecMeasure: the code length per symbol of texts that have been read as words. *)
From Verif Require Import Base Spec FloatOps ModelDict ModelStat ModelBuilder SpecStat SpecBuilder.

Section M.
  Context (fl : fops).
  (** (P log P - the sum of f log f) / C for words used [fs] times, [P] times in all, over [C] symbols. *)
  Definition per_symbol (fs : list Z) (P C : Z) : F fl :=
    let xlx f := fmul fl (fofZ fl f) (flog fl (fofZ fl f)) in
    fdiv fl (fadd fl (fold_left (fun a f => if Z.ltb 0 f then fsub fl a (xlx f) else a) fs (fofZ fl 0)) (xlx P)) (fofZ fl C).
End M.

(** The members of [xs] from number [i] up to, not including, [j]. *)
Definition in_window (w : window) (xs : list seq) : list seq := let '(i, j, _) := w in firstn (j - i) (skipn i xs).
(** [log] gives one reading, with words of [ws], for each sequence of the window. *)
Definition readings (w : window) (xs ws : list seq) (log : list (seq * list nat)) : Prop :=
  map fst log = in_window w xs /\ Forall (fun e => spells ws (snd e) (fst e)) log.
(** How often each of [n] words is used. *)
Definition uses (n : nat) (log : list (seq * list nat)) : list Z := map (log_occ log) (List.seq 0 n).

Section W.
  Context (fl : fops).
  (** What code_length() gives after [ops], for the window [w] of the sequences accepted. *)
  Definition measured (w : window) (ops : list (bop fl)) (b : builder fl) : Prop :=
    match snd w with
    | First => code_length fl b = UB NullDeref
    | _ => exists d log, hget fl b (result_ptr fl b) = Ok d /\ readings w (accepted fl ops) (seqs d) log /\
        code_length fl b = Ok (per_symbol fl (uses (dsize d) log) (words_emitted log) (symbols_consumed log))
    end.
End W.
