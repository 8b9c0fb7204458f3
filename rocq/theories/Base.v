(** Base: outcomes of C++ code, checked vector access, and the order on
    integer sequences used by std::vector<int>::operator<. *)
From Coq Require Export List ZArith Lia Bool Arith.
Export ListNotations.
Set Implicit Arguments.

(** What can go wrong in a C++ run. *)
Inductive ub_kind :=
| OobRead        (* read outside a vector / past the end of a range *)
| OobWrite       (* write outside a vector *)
| NullDeref      (* dereference of a null (shared) pointer *)
| EndDeref       (* dereference of an end() iterator *)
| IterInvalid    (* use of an iterator invalidated by push_back *)
| MixedIters     (* iterator pair from two different containers *)
| BadCtype       (* <cctype> function applied to a negative char *)
| DivByZero      (* integer % 0 *)
| BadCast        (* conversion of a double to int that does not fit *)
| BadOrder.      (* std::sort with a comparison that is not a strict weak ordering (NaN keys) *)

Inductive exn_kind :=
| OutOfRange     (* std::out_of_range from .at *)
| InvalidArg     (* std::invalid_argument *)
| JsonType       (* nlohmann::json type_error *)
| JsonParse.     (* nlohmann::json parse_error *)

(** Result of running a piece of the code: a normal value, undefined behaviour,
    an exception, or a loop that did not finish within the bound that the model
    gives it (each bound is proved sufficient where termination is claimed). *)
Inductive outcome (A : Type) :=
| Ok (a : A)
| UB (k : ub_kind)
| Throw (e : exn_kind)
| NoTerm.
Arguments Ok {A} a.
Arguments UB {A} k.
Arguments Throw {A} e.
Arguments NoTerm {A}.

Definition bind {A B} (m : outcome A) (f : A -> outcome B) : outcome B :=
  match m with
  | Ok a => f a
  | UB k => UB k
  | Throw e => Throw e
  | NoTerm => NoTerm
  end.

Notation "x <- m ;; k" := (bind m (fun x => k))
  (at level 61, m at next level, right associativity).
Notation "' p <- m ;; k" := (bind m (fun p => k))
  (at level 61, p pattern, m at next level, right associativity).

(** IntSeq: int_dict.h:12, `typedef std::vector<int> IntSeq`.
    Simplification: symbols are unbounded integers. *)
Definition seq := list Z.

(** v[i] as an rvalue: out of range is undefined behaviour. *)
Definition vget {A} (l : list A) (i : nat) : outcome A :=
  match nth_error l i with
  | Some a => Ok a
  | None => UB OobRead
  end.

(** v with v[i] replaced; list unchanged if i is out of range (callers check). *)
Fixpoint upd {A} (l : list A) (i : nat) (a : A) : list A :=
  match l, i with
  | [], _ => []
  | _ :: t, O => a :: t
  | x :: t, S j => x :: upd t j a
  end.

(** v[i] = a: out of range is undefined behaviour. *)
Definition vset {A} (l : list A) (i : nat) (a : A) : outcome (list A) :=
  if Nat.ltb i (length l) then Ok (upd l i a) else UB OobWrite.

(** std::vector<int>::operator< : lexicographic comparison. *)
Fixpoint lex_ltb (a b : seq) : bool :=
  match a, b with
  | [], [] => false
  | [], _ :: _ => true
  | _ :: _, [] => false
  | x :: a', y :: b' => if Z.ltb x y then true
                        else if Z.ltb y x then false else lex_ltb a' b'
  end.

(** std::vector<int>::operator== *)
Fixpoint seq_eqb (a b : seq) : bool :=
  match a, b with
  | [], [] => true
  | x :: a', y :: b' => Z.eqb x y && seq_eqb a' b'
  | _, _ => false
  end.

(** std::sort with operator< on sequences. operator< is a total order on
    sequences, so the sorted arrangement is unique and any sorting algorithm gives
    the same result; insertion sort is used here. *)
Fixpoint ins (x : seq) (l : list seq) : list seq :=
  match l with
  | [] => [x]
  | y :: t => if lex_ltb y x then y :: ins x t else x :: l
  end.
Fixpoint isort (l : list seq) : list seq :=
  match l with
  | [] => []
  | x :: t => ins x (isort t)
  end.

(** Run [f] over a list, threading a state. *)
Fixpoint foldM {A S} (f : S -> A -> outcome S) (l : list A) (s : S) : outcome S :=
  match l with
  | [] => Ok s
  | a :: t => s' <- f s a ;; foldM f t s'
  end.

(** Map over a list, threading a state (a loop that pushes one result per element). *)
Fixpoint mapM {A B S} (f : S -> A -> outcome (B * S)) (l : list A) (s : S)
  : outcome (list B * S) :=
  match l with
  | [] => Ok ([], s)
  | a :: t => '(b, s1) <- f s a ;; '(bs, s2) <- mapM f t s1 ;; Ok (b :: bs, s2)
  end.
