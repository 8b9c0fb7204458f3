(** ModelJson: the part of core/src/main/cpp/interfaces/json.h (nlohmann::json 3.4.0) that saver.h and loader.h use: writing a value
    with `file << std::setw(2) << j` (operator<< at :18197-18210) and reading one with `file >> j`. Characters are signed chars, as elsewhere.
    Simplifications: number_integer and number_unsigned are one kind of value; conversions between double and text (Grisu2,
    strtod; "C" locale) are a parameter; the parser's explicit stack is the recursion of the model; exceptions keep their class
    (type_error, or parse_error; the out_of_range for a number that is not finite is counted as a parse_error). *)
From Coq Require Import Ascii String.
From Verif Require Import Base ModelTok Maps ModelVGram.
Local Open Scope Z_scope.
Local Open Scope list_scope.

(** [io_show]: detail::to_chars (json.h:10822), [None] for numbers that are not finite; [io_read]: strtod, [None] if the
    result is not finite. *)
Record float_io (F : Type) := { io_show : F -> option text; io_read : text -> option F }.
Arguments io_show {F}. Arguments io_read {F}.

(** A value. Object keys are kept sorted (std::map). *)
Inductive json (F : Type) :=
| JNull | JBool (b : bool) | JInt (z : Z) | JFloat (x : F) | JStr (s : text)
| JArr (l : list (json F)) | JObj (m : list (text * json F)).
Arguments JNull {F}. Arguments JBool {F}. Arguments JInt {F}. Arguments JFloat {F}. Arguments JStr {F}. Arguments JArr {F}. Arguments JObj {F}.

(** static_cast<uint8_t>, and the conversion to char. *)
Definition byte (c : Z) : Z := c mod 256.
Definition schar (b : Z) : Z := if Z.ltb b 128 then b else b - 256.
Definition within (lo hi b : Z) : bool := (Z.leb lo b && Z.leb b hi)%bool.

(** std::string operator<: bytes, lexicographically. *)
Fixpoint key_ltb (a b : text) : bool :=
  match a, b with
  | _, [] => false
  | [], _ :: _ => true
  | x :: a', y :: b' => if Z.ltb (byte x) (byte y) then true else if Z.ltb (byte y) (byte x) then false else key_ltb a' b'
  end.
(** obj[k] = v *)
Fixpoint oset {A} (m : list (text * A)) (k : text) (v : A) : list (text * A) :=
  match m with
  | [] => [(k, v)]
  | (k', v') :: t => if key_ltb k k' then (k, v) :: m else if key_ltb k' k then (k', v') :: oset t k v else (k', v) :: t
  end.
Fixpoint ofind {A} (m : list (text * A)) (k : text) : option A :=
  match m with
  | [] => None
  | (k', v) :: t => if seq_eqb k k' then Some v else ofind t k
  end.

(** ** Writing *)

(** json.h:11447-11465: the table of the UTF-8 decoder. *)
Definition utf8_types : list Z :=
  repeat 0 128 ++ repeat 1 16 ++ repeat 9 16 ++ repeat 7 32 ++ [8; 8] ++ repeat 2 30 ++
  [10; 3; 3; 3; 3; 3; 3; 3; 3; 3; 3; 3; 3; 4; 3; 3] ++ [11; 6; 6; 6; 5; 8; 8; 8; 8; 8; 8; 8; 8; 8; 8; 8].
Definition utf8_states : list Z :=
  [0; 1; 2; 3; 5; 8; 7; 1; 1; 1; 4; 6; 1; 1; 1; 1] ++
  [1; 1; 1; 1; 1; 1; 1; 1; 1; 1; 1; 1; 1; 1; 1; 1] ++ [1; 0; 1; 1; 1; 1; 1; 0; 1; 0; 1; 1; 1; 1; 1; 1] ++
  [1; 2; 1; 1; 1; 1; 1; 2; 1; 2; 1; 1; 1; 1; 1; 1] ++ [1; 1; 1; 1; 1; 1; 1; 2; 1; 1; 1; 1; 1; 1; 1; 1] ++
  [1; 2; 1; 1; 1; 1; 1; 1; 1; 2; 1; 1; 1; 1; 1; 1] ++ [1; 1; 1; 1; 1; 1; 1; 3; 1; 3; 1; 1; 1; 1; 1; 1] ++
  [1; 3; 1; 1; 1; 1; 1; 3; 1; 3; 1; 1; 1; 1; 1; 1] ++ [1; 3; 1; 1; 1; 1; 1; 1; 1; 1; 1; 1; 1; 1; 1; 1].
(** json.h:11467-11474: decode. *)
Definition utf8_decode (state codep b : Z) : Z * Z :=
  let type := nth (Z.to_nat b) utf8_types 0 in
  let codep' := if Z.eqb state 0 then Z.land (Z.shiftr 255 type) b else Z.lor (Z.land b 63) (Z.shiftl codep 6) in
  (nth (Z.to_nat (state * 16 + type)) utf8_states 0, codep').

Definition hexdigit (n : Z) : Z := if Z.ltb n 10 then 48 + n else 87 + n.
(** json.h:11087-11167: what is written when a code point is complete; [c] is its last byte. ensure_ascii is false. *)
Definition escaped (codep c : Z) : text :=
  if Z.eqb codep 8 then txt "\b"%string else if Z.eqb codep 9 then txt "\t"%string else if Z.eqb codep 10 then txt "\n"%string
  else if Z.eqb codep 12 then txt "\f"%string else if Z.eqb codep 13 then txt "\r"%string
  else if Z.eqb codep 34 then [92; 34] else if Z.eqb codep 92 then [92; 92]
  else if Z.leb codep 31 then txt "\u00"%string ++ [hexdigit (codep / 16); hexdigit (codep mod 16)]
  else [c].
(** json.h:11075-11270: dump_escaped, with the error handler `strict`. *)
Fixpoint dump_escaped (state codep : Z) (s : text) : outcome text :=
  match s with
  | [] => if Z.eqb state 0 then Ok [] else Throw JsonType
  | c :: r =>
      let (state', codep') := utf8_decode state codep (byte c) in
      if Z.eqb state' 0 then t <- dump_escaped state' codep' r ;; Ok (escaped codep' c ++ t)
      else if Z.eqb state' 1 then Throw JsonType
      else t <- dump_escaped state' codep' r ;; Ok (c :: t)
  end.
Definition dump_string (s : text) : outcome text := t <- dump_escaped 0 0 s ;; Ok (34 :: t ++ [34]).

(** The elements with ",\n" between them. *)
Fixpoint lines (l : list text) : text :=
  match l with
  | [] => []
  | [t] => t
  | t :: r => t ++ 44 :: 10 :: lines r
  end.

Section Json.
  Context {F : Type} (io : float_io F).

  (** json.h:11282-11318: dump_integer writes the decimal digits. :11328-11336, 11351-11357: dump_float. *)
  Definition dump_float (x : F) : text := match io_show io x with None => txt "null"%string | Some t => t end.

  (** json.h:10853-11047: dump, with pretty_print and an indent step of 2. *)
  Fixpoint dump (ind : nat) (j : json F) : outcome text :=
    match j with
    | JNull => Ok (txt "null"%string)
    | JBool true => Ok (txt "true"%string)
    | JBool false => Ok (txt "false"%string)
    | JInt z => Ok (int_to_string z)
    | JFloat x => Ok (dump_float x)
    | JStr s => dump_string s
    | JArr [] => Ok (txt "[]"%string)
    | JArr l =>
        ts <- (fix go (l : list (json F)) : outcome (list text) :=
                 match l with
                 | [] => Ok []
                 | v :: r => t <- dump (2 + ind) v ;; ts <- go r ;; Ok ((repeat 32 (2 + ind) ++ t) :: ts)
                 end) l ;;
        Ok (91 :: 10 :: lines ts ++ 10 :: repeat 32 ind ++ [93])
    | JObj [] => Ok (txt "{}"%string)
    | JObj m =>
        ts <- (fix go (m : list (text * json F)) : outcome (list text) :=
                 match m with
                 | [] => Ok []
                 | (k, v) :: r =>
                     kt <- dump_string k ;; t <- dump (2 + ind) v ;; ts <- go r ;;
                     Ok ((repeat 32 (2 + ind) ++ kt ++ 58 :: 32 :: t) :: ts)
                 end) m ;;
        Ok (123 :: 10 :: lines ts ++ 10 :: repeat 32 ind ++ [125])
    end.

  (** ** Reading *)

  Inductive token :=
  | KBeginArr | KEndArr | KBeginObj | KEndObj | KColon | KComma
  | KTrue | KFalse | KNull | KStr (s : text) | KInt (z : Z) | KFloat (x : F) | KEnd | KErr.

  Definition hexvalue (c : Z) : option Z :=
    if within 48 57 c then Some (c - 48) else if within 65 70 c then Some (c - 55) else if within 97 102 c then Some (c - 87) else None.
  (** json.h:2591-2622: get_codepoint; the rest of the text follows. *)
  Definition get_codepoint (s : text) : option (Z * text) :=
    match s with
    | a :: b :: c :: d :: r =>
        match hexvalue a, hexvalue b, hexvalue c, hexvalue d with
        | Some a, Some b, Some c, Some d => Some (a * 4096 + b * 256 + c * 16 + d, r)
        | _, _, _, _ => None
        end
    | _ => None
    end.
  (** json.h:2796-2825: the bytes of a code point. *)
  Definition utf8_bytes (cp : Z) : text :=
    if Z.ltb cp 128 then [schar cp]
    else if Z.leb cp 2047 then map schar [Z.lor 192 (Z.shiftr cp 6); Z.lor 128 (Z.land cp 63)]
    else if Z.leb cp 65535 then map schar [Z.lor 224 (Z.shiftr cp 12); Z.lor 128 (Z.land (Z.shiftr cp 6) 63); Z.lor 128 (Z.land cp 63)]
    else map schar [Z.lor 240 (Z.shiftr cp 18); Z.lor 128 (Z.land (Z.shiftr cp 12) 63); Z.lor 128 (Z.land (Z.shiftr cp 6) 63); Z.lor 128 (Z.land cp 63)].
  (** json.h:2741-2828: after \u. *)
  Definition scan_unicode (s : text) : option (text * text) :=
    match get_codepoint s with
    | None => None
    | Some (cp1, r) =>
        if within 55296 56319 cp1 then
          match r with
          | x :: y :: r1 =>
              if (Z.eqb x 92 && Z.eqb y 117)%bool then
                match get_codepoint r1 with
                | Some (cp2, r2) =>
                    if within 56320 57343 cp2 then Some (utf8_bytes (cp1 * 1024 + cp2 - 56613888), r2) else None
                | None => None
                end
              else None
          | _ => None
          end
        else if within 56320 57343 cp1 then None
        else Some (utf8_bytes cp1, r)
    end.
  (** json.h:2703-2738 *)
  Definition simple_escape (e : Z) : option Z :=
    if Z.eqb e 34 then Some 34 else if Z.eqb e 92 then Some 92 else if Z.eqb e 47 then Some 47 else if Z.eqb e 98 then Some 8
    else if Z.eqb e 102 then Some 12 else if Z.eqb e 110 then Some 10 else if Z.eqb e 114 then Some 13 else if Z.eqb e 116 then Some 9
    else None.
  (** json.h:3132-3285: the ranges of the bytes that follow a first byte of at least 0x80. *)
  Definition follow_ranges (b : Z) : option (list (Z * Z)) :=
    if within 194 223 b then Some [(128, 191)]
    else if Z.eqb b 224 then Some [(160, 191); (128, 191)]
    else if (within 225 236 b || within 238 239 b)%bool then Some [(128, 191); (128, 191)]
    else if Z.eqb b 237 then Some [(128, 159); (128, 191)]
    else if Z.eqb b 240 then Some [(144, 191); (128, 191); (128, 191)]
    else if within 241 243 b then Some [(128, 191); (128, 191); (128, 191)]
    else if Z.eqb b 244 then Some [(128, 143); (128, 191); (128, 191)]
    else None.
  (** json.h:2641-2663: next_byte_in_range. *)
  Fixpoint take_ranges (rs : list (Z * Z)) (s : text) : option (text * text) :=
    match rs, s with
    | [], _ => Some ([], s)
    | (lo, hi) :: rs', c :: r =>
        if within lo hi (byte c) then
          match take_ranges rs' r with Some (t, r') => Some (c :: t, r') | None => None end
        else None
    | _ :: _, [] => None
    end.
  (** json.h:2686-3290: one round of scan_string. [Some (None, _)]: closing quote. *)
  Definition scan_char (s : text) : option (option text * text) :=
    match s with
    | [] => None
    | c :: r =>
        if Z.eqb c 34 then Some (None, r)
        else if Z.eqb c 92 then
          match r with
          | [] => None
          | e :: r1 =>
              match simple_escape e with
              | Some x => Some (Some [x], r1)
              | None => if Z.eqb e 117 then match scan_unicode r1 with Some (t, r2) => Some (Some t, r2) | None => None end else None
              end
          end
        else if Z.ltb (byte c) 32 then None
        else if Z.ltb (byte c) 128 then Some (Some [c], r)
        else match follow_ranges (byte c) with
             | None => None
             | Some rs => match take_ranges rs r with Some (t, r') => Some (Some (c :: t), r') | None => None end
             end
    end.
  (** json.h:2676-3290: scan_string, after the opening quote. A round takes at least one character. *)
  Fixpoint scan_string (fuel : nat) (s : text) : option (text * text) :=
    match fuel with
    | O => None
    | S f =>
        match scan_char s with
        | None => None
        | Some (None, r) => Some ([], r)
        | Some (Some t, r) => match scan_string f r with Some (t', r') => Some (t ++ t', r') | None => None end
        end
    end.

  Definition is_digit (c : Z) : bool := within 48 57 c.
  Fixpoint span_digits (s : text) : text * text :=
    match s with
    | c :: r => if is_digit c then let (a, b) := span_digits r in (c :: a, b) else ([], s)
    | [] => ([], [])
    end.
  (** json.h:3317-3596: the automaton of scan_number, part by part: [None] is an error. *)
  Definition scan_minus (s : text) : text * text :=
    match s with c :: r => if Z.eqb c 45 then ([45], r) else ([], s) | [] => ([], []) end.
  Definition scan_int (s : text) : option (text * text) :=
    match s with
    | c :: r => if Z.eqb c 48 then Some ([48], r) else if is_digit c then let (a, b) := span_digits r in Some (c :: a, b) else None
    | [] => None
    end.
  Definition scan_frac (s : text) : option (text * text) :=
    match s with
    | c :: r => if Z.eqb c 46 then match span_digits r with ([], _) => None | (a, b) => Some (46 :: a, b) end else Some ([], s)
    | [] => Some ([], [])
    end.
  Definition scan_sign (s : text) : text * text :=
    match s with c :: r => if (Z.eqb c 43 || Z.eqb c 45)%bool then ([c], r) else ([], s) | [] => ([], []) end.
  Definition scan_exp (s : text) : option (text * text) :=
    match s with
    | c :: r =>
        if (Z.eqb c 101 || Z.eqb c 69)%bool then
          let (g, r1) := scan_sign r in
          match span_digits r1 with ([], _) => None | (a, b) => Some (c :: g ++ a, b) end
        else Some ([], s)
    | [] => Some ([], [])
    end.
  Definition digits_value (t : text) : Z := fold_left (fun a c => 10 * a + (c - 48)) t 0.
  (** json.h:3598-3644: the conversion. *)
  Definition number_token (minus : bool) (int_part frac exp : text) : token :=
    let lexeme := (if minus then [45] else []) ++ int_part ++ frac ++ exp in
    let float := match io_read io lexeme with Some x => KFloat x | None => KErr end in
    match frac, exp with
    | [], [] =>
        let v := digits_value int_part in
        if minus then (if Z.leb v (2 ^ 63) then KInt (- v) else float) else (if Z.ltb v (2 ^ 64) then KInt v else float)
    | _, _ => float
    end.
  Definition scan_number (s : text) : token * text :=
    let (m, s1) := scan_minus s in
    match scan_int s1 with
    | None => (KErr, [])
    | Some (i, s2) =>
        match scan_frac s2 with
        | None => (KErr, [])
        | Some (fr, s3) =>
            match scan_exp s3 with
            | None => (KErr, [])
            | Some (ex, s4) => (number_token (match m with [] => false | _ => true end) i fr ex, s4)
            end
        end
    end.

  (** json.h:3651-3663: scan_literal. *)
  Fixpoint strip (lit s : text) : option text :=
    match lit, s with
    | [], _ => Some s
    | a :: l, c :: r => if Z.eqb a c then strip l r else None
    | _ :: _, [] => None
    end.
  Definition scan_literal (lit : text) (k : token) (s : text) : token * text :=
    match strip lit s with Some r => (k, r) | None => (KErr, []) end.
  Definition is_space (c : Z) : bool := (Z.eqb c 32 || Z.eqb c 9 || Z.eqb c 10 || Z.eqb c 13)%bool.
  Fixpoint skip_space (s : text) : text := match s with c :: r => if is_space c then skip_space r else s | [] => [] end.
  (** json.h:3835-3911: scan; the byte order mark is in [parse]. After an error the rest does not matter. *)
  Definition scan (s : text) : token * text :=
    match skip_space s with
    | [] => (KEnd, [])
    | c :: r =>
        if Z.eqb c 91 then (KBeginArr, r) else if Z.eqb c 93 then (KEndArr, r)
        else if Z.eqb c 123 then (KBeginObj, r) else if Z.eqb c 125 then (KEndObj, r)
        else if Z.eqb c 58 then (KColon, r) else if Z.eqb c 44 then (KComma, r)
        else if Z.eqb c 116 then scan_literal (txt "rue"%string) KTrue r
        else if Z.eqb c 102 then scan_literal (txt "alse"%string) KFalse r
        else if Z.eqb c 110 then scan_literal (txt "ull"%string) KNull r
        else if Z.eqb c 34 then match scan_string (length r) r with Some (t, r') => (KStr t, r') | None => (KErr, []) end
        else if (Z.eqb c 45 || is_digit c)%bool then scan_number (c :: r)
        else if Z.eqb c 0 then (KEnd, []) else (KErr, [])
    end.

  (** json.h:4975-5213: sax_parse_internal with json_sax_dom_parser; [k] is last_token, [s] the input after it. A key that
      occurs again overwrites. *)
  Fixpoint jvalue (fuel : nat) (k : token) (s : text) : outcome (json F * text) :=
    match fuel with
    | O => NoTerm
    | S f =>
        match k with
        | KBeginObj => match scan s with (KEndObj, r) => Ok (JObj [], r) | (k1, r) => jmembers f k1 r [] end
        | KBeginArr => match scan s with (KEndArr, r) => Ok (JArr [], r) | (k1, r) => jelements f k1 r [] end
        | KTrue => Ok (JBool true, s)
        | KFalse => Ok (JBool false, s)
        | KNull => Ok (JNull, s)
        | KStr t => Ok (JStr t, s)
        | KInt z => Ok (JInt z, s)
        | KFloat x => Ok (JFloat x, s)
        | _ => Throw JsonParse
        end
    end
  with jmembers (fuel : nat) (k : token) (s : text) (acc : list (text * json F)) : outcome (json F * text) :=
    match fuel with
    | O => NoTerm
    | S f =>
        match k with
        | KStr key =>
            match scan s with
            | (KColon, s1) =>
                let (k2, s2) := scan s1 in
                '(v, s3) <- jvalue f k2 s2 ;;
                match scan s3 with
                | (KComma, s4) => let (k5, s5) := scan s4 in jmembers f k5 s5 (oset acc key v)
                | (KEndObj, s4) => Ok (JObj (oset acc key v), s4)
                | _ => Throw JsonParse
                end
            | _ => Throw JsonParse
            end
        | _ => Throw JsonParse
        end
    end
  with jelements (fuel : nat) (k : token) (s : text) (acc : list (json F)) : outcome (json F * text) :=
    match fuel with
    | O => NoTerm
    | S f =>
        '(v, s1) <- jvalue f k s ;;
        match scan s1 with
        | (KComma, s2) => let (k3, s3) := scan s2 in jelements f k3 s3 (acc ++ [v])
        | (KEndArr, s2) => Ok (JArr (acc ++ [v]), s2)
        | _ => Throw JsonParse
        end
    end.
  (** json.h:3820-3833: skip_bom. *)
  Definition skip_bom (s : text) : option text :=
    match s with
    | c :: r => if Z.eqb (byte c) 239 then
                  match r with a :: b :: r' => if (Z.eqb (byte a) 187 && Z.eqb (byte b) 191)%bool then Some r' else None | _ => None end
                else Some s
    | [] => Some []
    end.
  Definition parse_at (fuel : nat) (s : text) : outcome (json F * text) := let (k, r) := scan s in jvalue fuel k r.
  (** json.h:4888-4940 with strict = false, as operator>> calls it (:18502-18506): what follows the value is not read. *)
  Definition parse (s : text) : outcome (json F) :=
    match skip_bom s with
    | None => Throw JsonParse
    | Some s' => '(v, _) <- parse_at (2 * length s' + 3) s' ;; Ok v
    end.
End Json.
Arguments KBeginArr {F}. Arguments KEndArr {F}. Arguments KBeginObj {F}. Arguments KEndObj {F}. Arguments KColon {F}. Arguments KComma {F}.
Arguments KTrue {F}. Arguments KFalse {F}. Arguments KNull {F}. Arguments KStr {F}. Arguments KInt {F}. Arguments KFloat {F}. Arguments KEnd {F}. Arguments KErr {F}.
