(** SpecJson: vocabulary for what the json files can hold. *)
From Coq Require Import Sorted.
From Verif Require Import Base ModelTok ModelVGram ModelJson SpecVGram.
Local Open Scope Z_scope.

(** Signed chars. *)
Definition chars (s : text) : Prop := Forall (fun c => -128 <= c < 128) s.
(** A number written with a fraction or an exponent: optional minus, digits without a leading zero, and so on. *)
Definition float_literal (t : text) : Prop :=
  exists m i fr ex, t = m ++ i ++ fr ++ ex /\ (m = [] \/ m = [45]) /\ (exists n, numeral i n) /\
    (fr = [] \/ exists d, d <> [] /\ Forall digit d /\ fr = 46 :: d) /\
    (ex = [] \/ exists g d, (g = [] \/ g = [43] \/ g = [45]) /\ d <> [] /\ Forall digit d /\ (ex = 101 :: g ++ d \/ ex = 69 :: g ++ d)) /\
    (fr <> [] \/ ex <> []).
(** A number that is written to the file and read back from there unchanged (as the Grisu2 printer and strtod do for every
    finite number). *)
Definition io_ok {F} (io : float_io F) (x : F) : Prop :=
  exists t, io_show io x = Some t /\ float_literal t /\ io_read io t = Some x.
Definition key_lt {A} (a b : text * A) : Prop := key_ltb (fst a) (fst b) = true.
(** Values that can be written and read back: numbers fit, and keys are sorted. Strings that are not UTF-8 are left to the printer,
    which throws. *)
Inductive printable {F} (io : float_io F) : json F -> Prop :=
| pr_null : printable io JNull
| pr_bool b : printable io (JBool b)
| pr_int z : - 2 ^ 63 <= z < 2 ^ 64 -> printable io (JInt z)
| pr_float x : io_ok io x -> printable io (JFloat x)
| pr_str s : chars s -> printable io (JStr s)
| pr_arr l : Forall (printable io) l -> printable io (JArr l)
| pr_obj m : Forall (fun p => chars (fst p) /\ printable io (snd p)) m -> StronglySorted key_lt m -> printable io (JObj m).
