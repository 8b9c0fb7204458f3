(** SpecLog: what is expected of the lines printed (C93). *)
From Verif Require Import Base Spec FloatOps ModelDict ModelCoder ModelStat ModelBuilder ModelStream ModelVGram ModelLog SpecStat SpecBuilder SpecStream SpecSchedule.

Section S.
  Context (fl : fops).

  (** The result of a call without what it printed. *)
  Definition silence {A} (o : outcome (list (line fl) * A)) : outcome A := p <- o ;; Ok (snd p).

  (** A history of a stream with verbosity [k], and everything it printed. *)
  Inductive talks (k : Z) (z0 : stream fl) : list (sop fl) -> list (line fl) -> stream fl -> Prop :=
  | tk_nil : talks k z0 [] [] z0
  | tk_accept ops out z e s o z' : talks k z0 ops out z -> s_accept_out fl k e z s = Ok (o, z') -> talks k z0 (ops ++ [SAccept e s]) (out ++ o) z'
  | tk_other ops out z op z' : talks k z0 ops out z -> sstep fl z op z' -> op_fed fl op = [] -> talks k z0 (ops ++ [op]) out z'.

  (** A history with the number of rebuilds and a line for the first, third, fifth, ... of them: the number of words of the dictionary, the rate
      (SpecSchedule.v) of what was read with it, and the minimum probability of the statistics. *)
  Inductive shown (z0 : stream fl) : list (sop fl) -> nat -> list (line fl) -> stream fl -> Prop :=
  | sn_nil : shown z0 [] 0 [] z0
  | sn_read ops r out z e s z' : shown z0 ops r out z -> s_accept fl e z s = Ok z' -> rebuilds fl z z' = false -> shown z0 (ops ++ [SAccept e s]) r out z'
  | sn_rebuild ops r out z e s z' ids d st : shown z0 ops r out z -> s_accept fl e z s = Ok z' -> reads fl z s ids d st -> rebuilds fl z z' = true ->
      shown z0 (ops ++ [SAccept e s]) (S r)
        (out ++ if Nat.even r then [Progress (length (seqs d)) (rate fl (seqs d) (map (freq fl st) (List.seq 0 (length (seqs d)))) (power st)) (minp st)] else []) z'
  | sn_other ops r out z op z' : shown z0 ops r out z -> sstep fl z op z' -> op_fed fl op = [] -> shown z0 (ops ++ [op]) r out z'.

  (** The minimum probabilities shown, the first at most [m]; none is above an earlier one. *)
  Definition minps (out : list (line fl)) : list (F fl) := flat_map (fun l => match l with Progress _ _ m => [m] | _ => [] end) out.
  Definition falling (m : F fl) (l : list (F fl)) : Prop :=
    (forall x, In x l -> fltb fl m x = false) /\ forall i j x y, i < j -> nth_error l i = Some x -> nth_error l j = Some y -> fltb fl x y = false.

  (** The lines of the rounds with the numbers from [i] on. *)
  Fixpoint rounds_shown (i : nat) (parts : list (list (line fl))) : list (line fl) :=
    match parts with [] => [] | p :: rest => Round i :: p ++ rounds_shown (S i) rest end.
End S.
