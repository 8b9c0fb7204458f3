(** Spec: the vocabulary in which the dictionary properties are stated.
    Nothing here refers to the algorithms of the model. *)
From Coq Require Export Sorting.Sorted Sorting.Permutation.
From Verif Require Import Base.

(** [p] is a prefix of [s]. *)
Definition prefix (p s : seq) : Prop := exists r, s = p ++ r.
(** [p] is a contiguous piece of [s]. *)
Definition factor (p s : seq) : Prop := exists a b, s = a ++ p ++ b.

(** Lexicographic order: [a] is a proper prefix of [b], or they first differ at a position
    where [a] has the smaller symbol. *)
Definition lex_lt (a b : seq) : Prop :=
  (exists y r, b = a ++ y :: r) \/
  (exists c x y r1 r2, a = c ++ x :: r1 /\ b = c ++ y :: r2 /\ (x < y)%Z).
Definition lex_le (a b : seq) : Prop := a = b \/ lex_lt a b.

(** A list of words in strictly increasing order (hence without duplicates). *)
Definition strictly_sorted (ws : list seq) : Prop := StronglySorted lex_lt ws.
Definition sorted (ws : list seq) : Prop := StronglySorted lex_le ws.

(** [i] is the index of [w] in [ws]. *)
Definition word_at (ws : list seq) (i : nat) (w : seq) : Prop := nth_error ws i = Some w.

(** [i] indexes the longest word of [ws] that is a prefix of [q], among those with [ok]. *)
Definition longest_prefix (ws : list seq) (ok : nat -> Prop) (q : seq) (i : nat) : Prop :=
  exists w, word_at ws i w /\ prefix w q /\ ok i /\
    forall j v, word_at ws j v -> prefix v q -> ok j -> length v <= length w.

(** No word of [ws] with [ok] is a prefix of [q]. *)
Definition no_prefix (ws : list seq) (ok : nat -> Prop) (q : seq) : Prop :=
  forall j v, word_at ws j v -> prefix v q -> ~ ok j.

(** The indices [ids] name words of [ws] that spell [s] when concatenated. *)
Definition spells (ws : list seq) (ids : list nat) (s : seq) : Prop :=
  exists vs, Forall2 (word_at ws) ids vs /\ concat vs = s.

(** Every symbol of [s] is a one-symbol word of [ws]. *)
Definition covers (ws : list seq) (s : seq) : Prop :=
  forall c, In c s -> In [c] ws.

(** [ids] is the greedy reading of [s]: at each point take the longest allowed word that
    matches; if none matches, skip one symbol. *)
Inductive greedy (ws : list seq) (ok : nat -> Prop) : seq -> list nat -> Prop :=
| greedy_nil : greedy ws ok [] []
| greedy_take : forall i w r ids,
    word_at ws i w -> longest_prefix ws ok (w ++ r) i ->
    greedy ws ok r ids -> greedy ws ok (w ++ r) (i :: ids)
| greedy_skip : forall c r ids,
    no_prefix ws ok (c :: r) ->
    greedy ws ok r ids -> greedy ws ok (c :: r) ids.

(** [k] consecutive symbols learned after [ws]: one-symbol words appended at the end. *)
Definition extends_by_symbols (ws ws' : list seq) : Prop :=
  exists cs : list Z, ws' = ws ++ map (fun c => [c]) cs.

(** Every symbol occurring in a word is itself a one-symbol word. *)
Definition symbol_closed (ws : list seq) : Prop := forall w, In w ws -> covers ws w.

(** Symbols of [xs] that are not words of [ws] come, at their first occurrence, in increasing order,
    each above every symbol of [ws] and every earlier symbol of [xs]. *)
Definition fresh_ascending (ws : list seq) (xs : seq) : Prop :=
  forall a c b, xs = a ++ c :: b -> ~ In [c] ws -> ~ In c a ->
    forall x, In [x] ws \/ In x a -> (x < c)%Z.
