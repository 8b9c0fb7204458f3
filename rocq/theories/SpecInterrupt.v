(** SpecInterrupt: vocabulary for C74. *)
From Verif Require Import Base FloatOps ModelDict ModelStat ModelBuilder ModelStream ModelVGram SpecStream SpecVGram.

Section S.
  Context (fl : fops).
  (** [w] without interruptions. *)
  Definition quiet (w : world fl) : world fl := mkWorld (w_rand w) (fun _ => false) (w_env w).
  (** The first call of isTerminated that answers true is the one with number [k]. *)
  Definition first_signal (w : world fl) (k : nat) : Prop := undisturbed fl w k /\ w_term w k = true.
End S.
