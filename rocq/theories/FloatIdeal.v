(** FloatIdeal: exact real arithmetic as an instance of the operations on `double`. Used to state
    what a formula of the code computes apart from rounding. *)
From Coq Require Import Reals Lra.
From Verif Require Import Base FloatOps.
Local Open Scope R_scope.

Definition Rtrunc (x : R) : Z := if Rlt_dec x 0 then Z.opp (up (- x) - 1) else (up x - 1)%Z.
(** flowest and fmax stand for two numbers beyond any value of interest. *)
Definition ideal : fops := {|
  F := R; fadd := Rplus; fsub := Rminus; fmul := Rmult; fdiv := Rdiv; fneg := Ropp; flog := ln;
  fltb := fun a b => if Rlt_dec a b then true else false;
  fofZ := IZR; ftrunc := Rtrunc; flowest := - IZR (2 ^ 1000); fmax := IZR (2 ^ 1000);
  fnan := fun _ => false
|}.
