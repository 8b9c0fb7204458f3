(** SpecMisc: vocabulary for the properties of the small helpers. *)
From Verif Require Import Base ModelMisc SpecVGram.

(** Decimal notation of an integer. *)
Definition signed_numeral (t : list Z) (n : Z) : Prop :=
  ((0 <= n)%Z /\ numeral t n) \/ ((n < 0)%Z /\ exists u, t = 45%Z :: u /\ numeral u (- n)).
(** "(" the numbers with single spaces between them ")". *)
Inductive listing : list Z -> list Z -> Prop :=
| ls_one x t : signed_numeral t x -> listing [x] (t ++ [41%Z])
| ls_cons x t y s r : signed_numeral t x -> listing (y :: s) r -> listing (x :: y :: s) (t ++ 32%Z :: r).
Definition listed_as (s str : list Z) : Prop := exists r, str = 40%Z :: r /\ listing s r.

(** Encoders that come about by completed calls of encode. *)
Inductive encoder_reached {T} (eqb : T -> T -> bool) : encoder (T := T) -> Prop :=
| er_new : encoder_reached eqb new_encoder
| er_step e input out e' out' : encoder_reached eqb e -> encode_items eqb e input out = Ok (e', out') -> encoder_reached eqb e'.
