(** ModelMisc: core/src/main/cpp/algorithm/int_dict.cc, vector_hash.h and the class Encoder of list_dict.h.
    ListDict and VGramBuilder are templates that are instantiated nowhere (and could not be: list_dict.cc:15 passes a
    vector<int> where a vector<IntSeq> is expected, vgram_builder.h:22-24 returns nothing), so they are left out. *)
From Verif Require Import Base ModelDict Maps ModelTok ModelVGram.

Definition wrap64 (x : Z) : Z := (x mod 2 ^ 64)%Z.

(** int_dict.cc:23-25 (and :11-13): `for (int i = 0; i < seq.size() - 1; i++) res += std::to_string(seq[i]) + " "`. The
    comparison is one of size_t. Writing an int to a stream gives the same characters as std::to_string. [fuel] bounds the
    number of rounds; one more than the length is enough, as the read past the end comes before. *)
Fixpoint print_items (fuel : nat) (s : seq) (i : nat) (res : text) : outcome text :=
  match fuel with
  | O => NoTerm
  | S f =>
      if Z.ltb (wrap64 (Z.of_nat i)) (wrap64 (Z.of_nat (length s) - 1)) then
        x <- vget s i ;; print_items f s (S i) (res ++ int_to_string x ++ [32%Z])
      else Ok res
  end.
(** int_dict.cc:21-30: to_string; :8-19: operator<<. *)
Definition seq_to_string (s : seq) : outcome text :=
  res <- print_items (S (length s)) s 0 [40%Z] ;;
  res <- (match s with [] => Ok res | _ => x <- vget s (length s - 1) ;; Ok (res ++ int_to_string x) end) ;;
  Ok (res ++ [41%Z]).

(** vector_hash.h:11-20. [hasher] is std::hash<int>; size_t has 64 bits. *)
Definition hash_step (hasher : Z -> Z) (seed : Z) (i : Z) : Z :=
  Z.lxor seed (wrap64 (wrap64 (wrap64 (hasher i + 2654435769) + wrap64 (Z.shiftl seed 6)) + Z.shiftr seed 2)).
Definition vector_hash (hasher : Z -> Z) (v : seq) : Z := fold_left (hash_step hasher) v 0%Z.

(** list_dict.h:14-36: Encoder<T>, with T compared by [eqb]. *)
Section Encoder.
  Context {T : Type} (eqb : T -> T -> bool).
  Record encoder := mkEncoder { emap : list (T * Z); enext : Z }.
  Definition new_encoder : encoder := mkEncoder [] 0.
  (** list_dict.h:17-25: [code_ptr] is end() if the item is new, and stays so after the insertion. *)
  Definition encode_item (e : encoder) (x : T) (out : list Z) : outcome (encoder * list Z) :=
    let code_ptr := mfind eqb (emap e) x in
    let e' := match code_ptr with None => mkEncoder (mset eqb (emap e) x (enext e)) (enext e + 1) | Some _ => e end in
    match code_ptr with None => UB EndDeref | Some c => Ok (e', out ++ [c]) end.
  Fixpoint encode_items (e : encoder) (input : list T) (out : list Z) : outcome (encoder * list Z) :=
    match input with
    | [] => Ok (e, out)
    | x :: r => '(e', out') <- encode_item e x out ;; encode_items e' r out'
    end.
End Encoder.
Arguments mkEncoder {T}. Arguments emap {T}. Arguments enext {T}. Arguments new_encoder {T}.
