(** SpecGrammar: the texts that RFC 8259 allows for a json value, with the value that each stands for. *)
From Coq Require Import Sorted.
From Verif Require Import Base ModelTok ModelJson SpecVGram SpecJson SpecSave.
Local Open Scope Z_scope.

Definition bytes_of (s : text) : list Z := map (fun c => c mod 256) s.
(** Section 2: white space. *)
Definition blank (w : text) : Prop := Forall (fun c => c = 32 \/ c = 9 \/ c = 10 \/ c = 13) w.

(** Section 7: strings. Four hexadecimal digits: *)
Definition hex_digit (c v : Z) : Prop := (48 <= c <= 57 /\ v = c - 48) \/ (65 <= c <= 70 /\ v = c - 55) \/ (97 <= c <= 102 /\ v = c - 87).
Definition hex4 (h : text) (n : Z) : Prop :=
  exists a b c d x y z w, h = [a; b; c; d] /\ hex_digit a x /\ hex_digit b y /\ hex_digit c z /\ hex_digit d w /\
    n = 4096 * x + 256 * y + 16 * z + w.
(** The bytes of the character with number [n], after section 3 of RFC 3629. *)
Definition utf8_of (n : Z) : list Z :=
  if Z.ltb n 128 then [n]
  else if Z.ltb n 2048 then [192 + n / 64; 128 + n mod 64]
  else if Z.ltb n 65536 then [224 + n / 4096; 128 + n / 64 mod 64; 128 + n mod 64]
  else [240 + n / 262144; 128 + n / 4096 mod 64; 128 + n / 64 mod 64; 128 + n mod 64].
(** The escapes with one letter: what follows the backslash, and the character. *)
Definition letters : list (Z * Z) := [(34, 34); (92, 92); (47, 47); (98, 8); (102, 12); (110, 10); (114, 13); (116, 9)].
(** What stands between the quotes, and the string. *)
Inductive string_text : text -> text -> Prop :=
| st_end : string_text [] []
| st_plain c t s : utf8_char (bytes_of c) -> (forall a, c = [a] -> 32 <= a mod 256 /\ a <> 34 /\ a <> 92) ->
    string_text t s -> string_text (c ++ t) (c ++ s)
| st_letter e x t s : In (e, x) letters -> string_text t s -> string_text (92 :: e :: t) (x :: s)
| st_code h n b t s : hex4 h n -> ~ 55296 <= n <= 57343 -> chars b -> bytes_of b = utf8_of n ->
    string_text t s -> string_text (92 :: 117 :: h ++ t) (b ++ s)
| st_pair h n h' n' b t s : hex4 h n -> 55296 <= n <= 56319 -> hex4 h' n' -> 56320 <= n' <= 57343 ->
    chars b -> bytes_of b = utf8_of (65536 + 1024 * (n - 55296) + (n' - 56320)) ->
    string_text t s -> string_text (92 :: 117 :: h ++ 92 :: 117 :: h' ++ t) (b ++ s).

(** Section 6: a number without fraction and exponent. *)
Definition int_literal (t : text) (z : Z) : Prop := numeral t z \/ exists i n, t = 45 :: i /\ numeral i n /\ z = - n.
(** The integers that have 64 bits, signed or not. *)
Definition fits (z : Z) : Prop := - 2 ^ 63 <= z < 2 ^ 64.

(** Section 4: the object with some members, given in the order of the text. It keeps the last of several members with one name;
    its keys are sorted. *)
Definition object_of {A} (kvs m : list (text * A)) : Prop :=
  StronglySorted key_lt m /\ forall k v, In (k, v) m <-> exists pre post, kvs = pre ++ (k, v) :: post /\ ~ In k (map fst post).

Section G.
  Context {F : Type} (io : float_io F).
  Notation json := (json F).
  (** Sections 3 to 5. The number that a fraction stands for is [io_read]'s affair. *)
  Inductive value_text : text -> json -> Prop :=
  | vt_null : value_text [110; 117; 108; 108] JNull
  | vt_true : value_text [116; 114; 117; 101] (JBool true)
  | vt_false : value_text [102; 97; 108; 115; 101] (JBool false)
  | vt_int t z : int_literal t z -> fits z -> value_text t (JInt z)
  | vt_big t z x : int_literal t z -> ~ fits z -> io_read io t = Some x -> value_text t (JFloat x)
  | vt_float t x : float_literal t -> io_read io t = Some x -> value_text t (JFloat x)
  | vt_str t s : string_text t s -> value_text (34 :: t ++ [34]) (JStr s)
  | vt_empty_arr w : blank w -> value_text (91 :: w ++ [93]) (JArr [])
  | vt_arr t l : elements_text t l -> value_text (91 :: t ++ [93]) (JArr l)
  | vt_empty_obj w : blank w -> value_text (123 :: w ++ [125]) (JObj [])
  | vt_obj t kvs m : members_text t kvs -> object_of kvs m -> value_text (123 :: t ++ [125]) (JObj m)
  with elements_text : text -> list json -> Prop :=
  | et_last w t v w' : blank w -> value_text t v -> blank w' -> elements_text (w ++ t ++ w') [v]
  | et_more w t v w' r l : blank w -> value_text t v -> blank w' -> elements_text r l -> elements_text (w ++ t ++ w' ++ 44 :: r) (v :: l)
  with members_text : text -> list (text * json) -> Prop :=
  | mt_last w k key w1 w2 t v w' : blank w -> string_text k key -> blank w1 -> blank w2 -> value_text t v -> blank w' ->
      members_text (w ++ 34 :: k ++ 34 :: w1 ++ 58 :: w2 ++ t ++ w') [(key, v)]
  | mt_more w k key w1 w2 t v w' r kvs : blank w -> string_text k key -> blank w1 -> blank w2 -> value_text t v -> blank w' ->
      members_text r kvs -> members_text (w ++ 34 :: k ++ 34 :: w1 ++ 58 :: w2 ++ t ++ w' ++ 44 :: r) ((key, v) :: kvs).

  (** What may follow a number in the file without belonging to it. *)
  Definition apart_from (v : json) (rest : text) : Prop :=
    match v, rest with
    | (JInt _ | JFloat _), c :: _ => ~ 48 <= c <= 57 /\ c <> 46 /\ c <> 101 /\ c <> 69
    | _, _ => True
    end.
  (** A file: a byte order mark (or none), white space, the text of a value, and anything. *)
  Definition file_text (s : text) (v : json) (rest : text) : Prop :=
    exists bom w t, s = bom ++ w ++ t ++ rest /\ (bom = [] \/ bytes_of bom = [239; 187; 191]) /\ blank w /\ value_text t v.
End G.
