(** ModelDict: core/src/main/cpp/algorithm/int_dict_p.cc, class IntDictImpl. *)
From Verif Require Import Base FloatOps.

(** int_dict_p.h:30-31: seqs_ and parents_. A parent of -1 is [None]. *)
Record dict := mkDict { seqs : list seq; parents : list (option nat) }.

(** `std::mismatch(p.begin(), p.end(), q.begin()).first == p.end()`
    (int_dict_p.cc:44 and :112). The three-iterator form does not know where q ends:
    if q ends first, the next comparison reads past its end. *)
Fixpoint mismatch_is_end (p q : seq) : outcome bool :=
  match p, q with
  | [], _ => Ok true
  | _ :: _, [] => UB OobRead
  | a :: p', b :: q' => if Z.eqb a b then mismatch_is_end p' q' else Ok false
  end.

(** int_dict_p.cc:42-49, the inner while loop of init: pop until the top of the stack is a
    prefix of the current word. The head of the list is the back of parents_stack. *)
Fixpoint init_pop (stack : list (seq * nat)) (cur : seq)
  : outcome (option nat * list (seq * nat)) :=
  match stack with
  | [] => Ok (None, [])
  | (prefix, i) :: st =>
      b <- mismatch_is_end prefix cur ;;
      if b then Ok (Some i, stack) else init_pop st cur
  end.

(** int_dict_p.cc:40-51, the outer for loop of init. [i] is the index of the first word
    of [rest]. The result is parents_ from index i on. *)
Fixpoint init_loop (i : nat) (rest : list seq) (stack : list (seq * nat))
  : outcome (list (option nat)) :=
  match rest with
  | [] => Ok []
  | cur :: rest' =>
      '(par, st) <- init_pop stack cur ;;
      ps <- init_loop (S i) rest' ((cur, i) :: st) ;;
      Ok (par :: ps)
  end.

(** int_dict_p.cc:17-19 and 34-52: IntDictImpl(const std::vector<IntSeq>&) and init. *)
Definition mk_dict (ws : list seq) : outcome dict :=
  let s := isort ws in
  ps <- init_loop 0 s [] ;;
  Ok (mkDict s ps).

(** int_dict_p.cc:12-15: IntDictImpl(). *)
Definition empty_dict : dict := mkDict [] [].

(** int_dict_p.cc:21-27: IntDictImpl(const IntSeq&), one word per symbol. *)
Definition mk_dict_symbols (syms : seq) : outcome dict :=
  mk_dict (map (fun c => [c]) syms).

(** int_dict_p.cc:144-150 and 156-158: get, size, parent (indices >= 0). *)
Definition get (d : dict) (i : nat) : outcome seq := vget (seqs d) i.
Definition dsize (d : dict) : nat := length (seqs d).
Definition parent (d : dict) (i : nat) : outcome (option nat) := vget (parents d) i.

(** std::lower_bound on a random-access range (libstdc++ bits/stl_algobase.h __lower_bound):
    while (len > 0) { half = len >> 1; middle = first + half;
      if ( *middle < val ) { first = middle + 1; len = len - half - 1; } else len = half; }
    Modelled exactly, because after appends (int_dict_p.cc:121) the range need not be sorted.
    [fuel] bounds the number of iterations; len shrinks at each one. *)
Fixpoint lower_bound_loop (fuel first len : nat) (l : list seq) (v : seq) : outcome nat :=
  match fuel with
  | O => if Nat.eqb len 0 then Ok first else NoTerm
  | S fuel' =>
      if Nat.eqb len 0 then Ok first
      else
        let half := Nat.div2 len in
        let middle := first + half in
        m <- vget l middle ;;
        if lex_ltb m v
        then lower_bound_loop fuel' (middle + 1) (len - half - 1) l v
        else lower_bound_loop fuel' first half l v
  end.
Definition lower_bound (l : list seq) (v : seq) : outcome nat :=
  lower_bound_loop (length l) 0 (length l) l v.

(** The `std::unordered_set<int>* excludes` argument: [None] is nullptr. *)
Definition excludes := option (list nat).

(** `excludes == nullptr || excludes->count(index) == 0` (int_dict_p.cc:106 and :113). *)
Definition allowed (ex : excludes) (i : nat) : bool :=
  match ex with
  | None => true
  | Some l => negb (existsb (Nat.eqb i) l)
  end.

(** int_dict_p.cc:111-118: walk up the parents until an allowed prefix of the query is found. *)
Fixpoint up_chain (fuel : nat) (d : dict) (ex : excludes) (q : seq) (index : option nat)
  : outcome (option nat) :=
  match fuel with
  | O => NoTerm
  | S fuel' =>
      match index with
      | None => Ok None
      | Some i =>
          if Nat.ltb i (dsize d) then
            w <- get d i ;;
            b <- mismatch_is_end w q ;;
            if b && allowed ex i then Ok (Some i)
            else (p <- parent d i ;; up_chain fuel' d ex q p)
          else Ok None
      end
  end.

(** `index--` on a non-negative index; -1 is [None]. *)
Definition pred_index (i : nat) : option nat :=
  match i with O => None | S j => Some j end.

(** int_dict_p.cc:103-128: search. Returns the index (or [None] for -1) and the dictionary,
    which grows by the one-symbol word seq[0] when nothing matches and excludes is null. *)
Definition search (d : dict) (q : seq) (ex : excludes) : outcome (option nat * dict) :=
  index <- lower_bound (seqs d) q ;;
  hit <- (if Nat.ltb index (dsize d)
          then (w <- get d index ;; Ok (seq_eqb w q && allowed ex index))
          else Ok false) ;;
  if (hit : bool) then Ok (Some index, d)
  else
    r <- up_chain (S (dsize d)) d ex q (pred_index index) ;;
    match r with
    | Some i => Ok (Some i, d)
    | None =>
        match ex with
        | None =>
            c <- vget q 0 ;;
            Ok (Some (dsize d), mkDict (seqs d ++ [[c]]) (parents d ++ [None]))
        | Some _ => Ok (None, d)
        end
    end.

(** `IntSeq(suffix.begin() + n, suffix.end())`: n beyond the end is undefined behaviour. *)
Definition drop_front (n : nat) (s : seq) : outcome seq :=
  if Nat.leb n (length s) then Ok (skipn n s) else UB OobRead.

(** int_dict_p.cc:54-67: linearParse. One unit of fuel per loop iteration. *)
Fixpoint linear_loop (fuel : nat) (d : dict) (suffix : seq) (builder : list nat) (ex : excludes)
  : outcome (list nat * dict) :=
  match suffix with
  | [] => Ok (builder, d)
  | _ :: _ =>
      match fuel with
      | O => NoTerm
      | S fuel' =>
          '(symbol, d') <- search d suffix ex ;;
          match symbol with
          | None => suffix' <- drop_front 1 suffix ;; linear_loop fuel' d' suffix' builder ex
          | Some s =>
              w <- get d' s ;;
              suffix' <- drop_front (length w) suffix ;;
              linear_loop fuel' d' suffix' (builder ++ [s]) ex
          end
      end
  end.

(** int_dict_p.cc:139-142: parse(seq, output, excludes). The loop bound [fuel] is an argument;
    it returns (output, return value, dictionary). *)
Definition parse_greedy (fuel : nat) (d : dict) (s : seq) (output : list nat) (ex : excludes)
  : outcome (list nat * nat * dict) :=
  '(out, d') <- linear_loop fuel d s output ex ;;
  Ok (out, length out, d').

Section Weighted.
  Context (fl : fops).

  (** int_dict_p.cc:83 and stat_dict_p.cc:255:
      (freqs.size() > sym ? log(freqs[sym] + 1) : 0) - log(total_freq + size()). *)
  Definition sym_log_prob (freqs : list Z) (total : F fl) (size sym : nat) : F fl :=
    fsub fl
      (match nth_error freqs sym with
       | Some f => flog fl (fofZ fl (f + 1))
       | None => fofZ fl 0
       end)
      (flog fl (fadd fl total (fofZ fl (Z.of_nat size)))).

  (** Scores and chosen symbols of the dynamic program: vectors of size len + 1. *)
  Definition dp : Type := (list (F fl) * list nat)%type.

  (** int_dict_p.cc:81-89 and stat_dict_p.cc:253-262: the do-while loop over sym and its
      parents at one position. *)
  Fixpoint relax (fuel : nat) (d : dict) (freqs : list Z) (total : F fl) (pos : nat)
      (sym : nat) (st : dp) : outcome dp :=
    match fuel with
    | O => NoTerm
    | S fuel' =>
        w <- get d sym ;;
        let lp := sym_log_prob freqs total (dsize d) sym in
        old <- vget (fst st) (length w + pos) ;;
        here <- vget (fst st) pos ;;
        st' <- (if fltb fl old (fadd fl here lp)
                then (sc <- vset (fst st) (length w + pos) (fadd fl here lp) ;;
                      sy <- vset (snd st) (length w + pos) sym ;;
                      Ok (sc, sy))
                else Ok st) ;;
        p <- parent d sym ;;
        match p with
        | Some s' => relax fuel' d freqs total pos s' st'
        | None => Ok st'
        end
    end.

  (** int_dict_p.cc:76-90 (skip = true: `if (sym < 0) continue;`) and stat_dict_p.cc:250-263
      (skip = false: no check, so get(-1) when search fails). [suffix] is seq from [pos] on. *)
  Fixpoint dp_loop (skip : bool) (d : dict) (freqs : list Z) (total : F fl) (ex : excludes)
      (pos : nat) (suffix : seq) (st : dp) : outcome (dp * dict) :=
    match suffix with
    | [] => Ok (st, d)
    | _ :: rest =>
        '(sym, d') <- search d suffix ex ;;
        st' <- (match sym with
                | Some s => relax (S (dsize d')) d' freqs total pos s st
                | None => if skip then Ok st else UB OobRead
                end) ;;
        dp_loop skip d' freqs total ex (S pos) rest st'
    end.

  (** int_dict_p.cc:94-98 and stat_dict_p.cc:267-271: backtracking. `solution` has len usable
      slots, filled from the back; one more would be written at index len - (len + 1), which
      wraps around. [slots] counts the free ones; the part of solution filled so far is [acc].
      pos is size_t in int_dict_p.cc (an over-long word wraps, and symbols[pos] is then out of
      range) and int in stat_dict_p.cc (a negative pos ends the loop): [signed] tells which. *)
  Fixpoint backtrack (signed : bool) (d : dict) (symbols : list nat) (slots pos : nat)
      (acc : list nat) : outcome (list nat) :=
    match pos with
    | O => Ok acc
    | S _ =>
        sym <- vget symbols pos ;;
        match slots with
        | O => UB OobWrite
        | S slots' =>
            w <- get d sym ;;
            if Nat.leb (length w) pos
            then backtrack signed d symbols slots' (pos - length w) (sym :: acc)
            else if signed then Ok (sym :: acc) else UB OobRead
        end
    end.

  (** int_dict_p.cc:69-101: IntDictImpl::weightedParse (skip = true, signed = false), and
      stat_dict_p.cc:243-274: StatDictImpl::weightedParse (skip = false, signed = true).
      Returns (parse, score[len], dictionary). *)
  Definition weighted_parse (skip signed : bool) (d : dict) (s : seq) (freqs : list Z)
      (total : F fl) (ex : excludes) : outcome (list nat * F fl * dict) :=
    let len := length s in
    let score0 := fofZ fl 0 :: repeat (flowest fl) len in
    let symbols0 := repeat 0%nat (S len) in
    '(st, d') <- dp_loop skip d freqs total ex 0 s (score0, symbols0) ;;
    res <- backtrack signed d' (snd st) len len [] ;;
    sc <- vget (fst st) len ;;
    Ok (res, sc, d').

  (** int_dict_p.cc:130-137: parse(seq, freqs, total_freq, output), printing not modelled.
      Returns (output, return value, dictionary). *)
  Definition parse_weighted (d : dict) (s : seq) (freqs : list Z) (total : F fl)
      (output : list nat) : outcome (list nat * nat * dict) :=
    '(res, _, d') <- weighted_parse true false d s freqs total None ;;
    Ok (output ++ res, length (output ++ res), d').
End Weighted.
