(** FloatOps: the operations on C++ `double` used by the library, as a record.
    The model is generic in this record; laws are in FloatLaws.v, the IEEE-754
    instance is in FloatIEEE.v, exact real arithmetic in FloatIdeal.v. *)
From Verif Require Import Base.

Record fops := {
  F : Type;                      (* double *)
  fadd : F -> F -> F;            (* + *)
  fsub : F -> F -> F;            (* - *)
  fmul : F -> F -> F;            (* * *)
  fdiv : F -> F -> F;            (* / *)
  fneg : F -> F;                 (* unary - *)
  flog : F -> F;                 (* std::log *)
  fltb : F -> F -> bool;         (* < *)
  fofZ : Z -> F;                 (* conversion int/size_t -> double *)
  ftrunc : F -> Z;               (* static_cast<int>(double) *)
  flowest : F;                   (* std::numeric_limits<double>::lowest() *)
  fmax : F;                      (* std::numeric_limits<double>::max() *)
  fnan : F -> bool               (* not a number *)
}.

(** Decimal literals p/q of the source (0.1, 0.002, 0.8, 1.3): the correctly rounded
    quotient of two exactly represented integers is the value of the literal. *)
Definition flit (fl : fops) (p q : Z) : F fl := fdiv fl (fofZ fl p) (fofZ fl q).

(** std::min(a, b) returns b if b < a, and a otherwise. *)
Definition fmin (fl : fops) (a b : F fl) : F fl := if fltb fl b a then b else a.
