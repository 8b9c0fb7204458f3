(** SpecEntropy: the empirical entropy of a table of counts, in exact arithmetic. *)
From Coq Require Import Reals.
From Verif Require Import Base.
Local Open Scope R_scope.

Definition rsum (l : list R) : R := fold_right Rplus 0 l.
(** (sum over the words seen of f * (ln P - ln f)) / C *)
Definition entropy_per_char (fs : list Z) (P C : Z) : R :=
  rsum (map (fun f => if Z.ltb 0 f then IZR f * (ln (IZR P) - ln (IZR f)) else 0) fs) / IZR C.
