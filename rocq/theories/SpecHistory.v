(** SpecHistory: the dictionary states a user can bring about. *)
From Verif Require Import Base Spec FloatOps ModelDict.

(** [history ws d]: [d] results from constructing a dictionary with the words [ws] and any series of
    successful lookups and parses (each may add words). *)
Inductive history (ws : list seq) : dict -> Prop :=
| h_new d : mk_dict ws = Ok d -> history ws d
| h_search d q ex r d' : history ws d -> search d q ex = Ok (r, d') -> history ws d'
| h_greedy d fuel s out ex o n d' : history ws d ->
    parse_greedy fuel d s out ex = Ok (o, n, d') -> history ws d'
| h_weighted d fl s freqs total out o n d' : history ws d ->
    parse_weighted fl d s freqs total out = Ok (o, n, d') -> history ws d'.

(** [on_chain d i k]: [k] is reached from [i] by one or more parent steps. *)
Inductive on_chain (d : dict) : nat -> nat -> Prop :=
| chain_one i j : parent d i = Ok (Some j) -> on_chain d i j
| chain_more i j k : parent d i = Ok (Some j) -> on_chain d j k -> on_chain d i k.

(** Each symbol sorts after all words and symbols before it. *)
Fixpoint increasing_after (ws : list seq) (cs : list Z) : Prop :=
  match cs with
  | [] => True
  | c :: cs' => (forall w, In w ws -> lex_lt w [c]) /\ increasing_after (ws ++ [[c]]) cs'
  end.
Fixpoint learn_all (d : dict) (cs : list Z) : outcome dict :=
  match cs with
  | [] => Ok d
  | c :: cs' => '(_, d') <- search d [c] None ;; learn_all d' cs'
  end.
