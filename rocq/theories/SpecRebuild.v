(** SpecRebuild: how often a stream has rebuilt its dictionary. *)
From Verif Require Import Base FloatOps ModelDict ModelStat ModelBuilder ModelStream SpecBuilder SpecStream.

Section S.
  Context (fl : fops).
  (** A history with the number of its calls that made the builder replace the dictionary it collects statistics for. *)
  Inductive rebuilt (z0 : stream fl) : list (sop fl) -> nat -> stream fl -> Prop :=
  | rb_nil : rebuilt z0 [] 0 z0
  | rb_step ops n z op z' : rebuilt z0 ops n z -> sstep fl z op z' ->
      rebuilt z0 (ops ++ [op]) (if is_updated fl (zb z) (zb z') then S n else n) z'.
End S.
