(** ModelTok: core/src/main/cpp/interfaces/tokenizers. *)
From Coq Require Import Ascii String.
From Verif Require Import Base Maps.
Local Open Scope Z_scope.

(** std::string: a list of char values. `char` is signed (x86), -128..127; ASCII is 0..127. *)
Definition text := list Z.

(** String literals, for examples. *)
Fixpoint txt (s : string) : text :=
  match s with
  | EmptyString => []
  | String a r => (let n := Z.of_nat (nat_of_ascii a) in if n <? 128 then n else n - 256) :: txt r
  end.

Inductive tok_kind := CharTok | WordTok.

(** base_tokenizer.h:36-37: forward_coder_ and backward_coder_, and which derived class this is. *)
Record tokenizer := mkTok { tkind : tok_kind; tfwd : list (text * Z); tbwd : list (Z * text) }.

(** BaseTokenizer() = default (base_tokenizer.h:17, char_tokenizer.cc:12, word_tokenizer.cc:10). *)
Definition new_tok (k : tok_kind) : tokenizer := mkTok k [] [].

(** base_tokenizer.cc:14-19: construction from a map; [m] lists it in its iteration order. *)
Definition tok_of_map (k : tok_kind) (m : list (text * Z)) : tokenizer :=
  mkTok k m (fold_left (fun b p => mset Z.eqb b (snd p) (fst p)) m []).

(** isalnum and tolower in the "C" locale. A negative argument other than EOF (-1) is undefined
    behaviour; isalnum(EOF) is false. *)
Definition is_alnum (c : Z) : outcome bool :=
  if c <? 0 then (if c =? -1 then Ok false else UB BadCtype)
  else Ok ((48 <=? c) && (c <=? 57) || (65 <=? c) && (c <=? 90) || (97 <=? c) && (c <=? 122)).
Definition to_lower (c : Z) : outcome Z :=
  if c <? 0 then (if c =? -1 then Ok c else UB BadCtype)
  else Ok (if (65 <=? c) && (c <=? 90) then c + 32 else c).

(** char_tokenizer.cc:17-27: the filtering loop. *)
Fixpoint keep_alnum (s : text) : outcome text :=
  match s with
  | [] => Ok []
  | c :: t => b <- is_alnum c ;; r <- keep_alnum t ;; Ok (if (b : bool) then c :: r else r)
  end.
(** char_tokenizer.cc:28: std::transform(..., ::tolower). *)
Fixpoint lower_all (s : text) : outcome text :=
  match s with
  | [] => Ok []
  | c :: t => c' <- to_lower c ;; r <- lower_all t ;; Ok (c' :: r)
  end.

(** char_tokenizer.cc:16-30 and word_tokenizer.cc:14-16: normalize. *)
Definition normalize (k : tok_kind) (s : text) : outcome text :=
  match k with
  | CharTok => r <- keep_alnum s ;; lower_all r
  | WordTok => Ok s
  end.

(** word_tokenizer.cc:21-31: the loop of WordTokenizer::tokenize; [current] is the word being read. *)
Fixpoint word_loop (s : text) (current : text) : list text :=
  match s with
  | [] => match current with [] => [] | _ => [current] end
  | c :: t =>
      if (c =? 32) && negb (match current with [] => true | _ => false end)
      then current :: word_loop t []
      else word_loop t (current ++ [c])
  end.

(** char_tokenizer.cc:32-38 and word_tokenizer.cc:18-33: tokenize. *)
Definition tokenize (k : tok_kind) (s : text) : list text :=
  match k with
  | CharTok => map (fun c => [c]) s
  | WordTok => word_loop s []
  end.

(** base_tokenizer.cc:35-39. In C++14 the operands of the assignment
    `forward_coder_[symb] = static_cast<int>(forward_coder_.size())` are evaluated in unspecified order:
    [rhs_first] = true evaluates size() before operator[] inserts the key, false after. In line 37 the
    index expression size() is an argument of operator[], so it is always evaluated before the insertion.
    `forward_coder_.at(symb)` finds the key just inserted. *)
Definition code_token (rhs_first : bool) (t : tokenizer) (symb : text) : outcome (Z * tokenizer) :=
  let t1 :=
    match mfind seq_eqb (tfwd t) symb with
    | None =>
        let n := Z.of_nat (length (tfwd t)) in
        mkTok (tkind t)
          (mset seq_eqb (tfwd t) symb (if rhs_first then n else n + 1))
          (mset Z.eqb (tbwd t) (Z.of_nat (length (tbwd t))) symb)
    | Some _ => t
    end in
  match mfind seq_eqb (tfwd t1) symb with
  | Some v => Ok (v, t1)
  | None => Throw OutOfRange
  end.

(** base_tokenizer.cc:30-42: transform(const string&). *)
Definition tok_transform (rhs_first : bool) (t : tokenizer) (s : text) : outcome (seq * tokenizer) :=
  n <- normalize (tkind t) s ;;
  mapM (code_token rhs_first) (tokenize (tkind t) n) t.

(** base_tokenizer.cc:21-28: transform(const vector<string>&). *)
Definition tok_transform_all (rhs_first : bool) (t : tokenizer) (ss : list text)
  : outcome (list seq * tokenizer) := mapM (tok_transform rhs_first) ss t.

(** base_tokenizer.cc:57-65: decode(const vector<int>&); unknown ids are skipped. *)
Fixpoint tok_decode (t : tokenizer) (ids : seq) : text :=
  match ids with
  | [] => []
  | i :: r =>
      match mfind Z.eqb (tbwd t) i with
      | Some w => w ++ tok_decode t r
      | None => tok_decode t r
      end
  end.

(** base_tokenizer.cc:48-55: decode(const vector<vector<int>>&). *)
Definition tok_decode_all (t : tokenizer) (l : list seq) : list text := map (tok_decode t) l.
