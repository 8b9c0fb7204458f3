(** SpecSave: well-formed UTF-8, after the table in section 4 of RFC 3629, and the texts a history has met. *)
From Verif Require Import Base FloatOps ModelTok ModelStream ModelString SpecString.
Local Open Scope Z_scope.

Definition tail_byte (b : Z) : Prop := 128 <= b <= 191.
(** The bytes of one character. *)
Inductive utf8_char : list Z -> Prop :=
| u8_1 a : 0 <= a <= 127 -> utf8_char [a]
| u8_2 a b : 194 <= a <= 223 -> tail_byte b -> utf8_char [a; b]
| u8_3a b c : 160 <= b <= 191 -> tail_byte c -> utf8_char [224; b; c]
| u8_3b a b c : 225 <= a <= 236 -> tail_byte b -> tail_byte c -> utf8_char [a; b; c]
| u8_3c b c : 128 <= b <= 159 -> tail_byte c -> utf8_char [237; b; c]
| u8_3d a b c : 238 <= a <= 239 -> tail_byte b -> tail_byte c -> utf8_char [a; b; c]
| u8_4a b c d : 144 <= b <= 191 -> tail_byte c -> tail_byte d -> utf8_char [240; b; c; d]
| u8_4b a b c d : 241 <= a <= 243 -> tail_byte b -> tail_byte c -> tail_byte d -> utf8_char [a; b; c; d]
| u8_4c b c d : 128 <= b <= 143 -> tail_byte c -> tail_byte d -> utf8_char [244; b; c; d].
(** A text is a list of signed chars; its bytes are their values modulo 256. *)
Definition utf8 (s : text) : Prop := exists cs, Forall utf8_char cs /\ map (fun c => c mod 256) s = concat cs.

(** The texts given to accept and to parse. *)
Definition top_met {fl} (op : top fl) : list text := match op with TAccept _ s | TParse s => [s] | TUpdate => [] end.
Definition tmet {fl} (ops : list (top fl)) : list text := flat_map top_met ops.
