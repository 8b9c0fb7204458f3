(** ModelStat: core/src/main/cpp/algorithm/stat_dict_p.cc, class StatDictImpl, and
    fast_random.cc. The dictionary behind dict_ (a shared_ptr) is passed separately, because
    other objects hold the same pointer (see ModelBuilder.v). *)
From Verif Require Import Base FloatOps ModelDict Maps.

Definition nat2_eqb (a b : nat * nat) : bool :=
  Nat.eqb (fst a) (fst b) && Nat.eqb (snd a) (snd b).

(** Keys of pairs_freqs_. The code packs two indices into one std::int64_t
    (stat_dict_p.cc:97 `(((std::int64_t) prev) << 32) | symbol`) and unpacks them
    (stat_dict_p.cc:117-118 `code >> 32`, `code & 0xFFFFFFFFL`). The model below keys the table
    by the pair of indices; StatProofs.v relates the two tables for indices below 2^31. *)
Definition pack (prev symbol : Z) : Z := Z.lor (Z.shiftl prev 32) symbol.
Definition unpack_first (code : Z) : Z := Z.shiftr code 32.
Definition unpack_second (code : Z) : Z := Z.land code 4294967295.

(** stat_dict_p.cc:93-98, the pair counting of the loop in parse: one increment per adjacent pair. *)
Fixpoint count_pairs (prev : option nat) (ids : list nat) (m : list ((nat * nat) * Z))
  : list ((nat * nat) * Z) :=
  match ids with
  | [] => m
  | s :: t =>
      let m' := match prev with
                | Some p => mset nat2_eqb m (p, s)
                              (match mfind nat2_eqb m (p, s) with Some c => c + 1 | None => 1 end)%Z
                | None => m
                end in
      count_pairs (Some s) t m'
  end.

(** The same loop with the packed 64-bit keys of the source. *)
Fixpoint count_pairs_code (prev : Z) (ids : list Z) (m : list (Z * Z)) : list (Z * Z) :=
  match ids with
  | [] => m
  | s :: t =>
      let m' := if Z.leb 0 prev
                then mset Z.eqb m (pack prev s)
                       (match mfind Z.eqb m (pack prev s) with Some c => c + 1 | None => 1 end)%Z
                else m in
      count_pairs_code s t m'
  end.

Section Stat.
  Context (fl : fops).

  (** stat_dict_p.h:52-58: the members of StatDictImpl other than dict_. *)
  Record sstat := mkStat {
    sfreqs : list Z;                    (* symbol_freqs_ *)
    pfreqs : list Z;                    (* parse_freqs_ *)
    power : F fl;                       (* power_ *)
    ipower : F fl;                      (* parse_freqs_init_power_ *)
    pairs : list ((nat * nat) * Z);     (* pairs_freqs_ *)
    minp : F fl;                        (* min_probability_ *)
    chars : F fl                        (* total_chars_ *)
  }.

  (** stat_dict_p.h:77-93: StatItem; a first of -1 is [None]. *)
  Record item := mkItem { first : option nat; second : nat; score : F fl; icount : Z }.

  (** What the C++ standard or the platform leaves open in one call of update:
      the iteration order of pairs_freqs_ (unordered_map; the same in the three loops of expand,
      which do not modify it), the result of std::sort on items (not stable), and the values
      of the gamma distributions drawn from a freshly constructed std::default_random_engine
      (fast_random.cc:13: a function of the parameters, since the engine is re-created). *)
  Record env := mkEnv {
    e_pairs : list ((nat * nat) * Z) -> list ((nat * nat) * Z);
    e_sort : list item -> list item;
    e_gamma : list (F fl) -> list (F fl)
  }.

  (** stat_dict_p.h:20: kMaxMinProbability = 0.002 *)
  Definition k_max_min_probability : F fl := flit fl 2 1000.

  (** stat_dict_p.cc:13-19 *)
  Definition empty_stat (mp : F fl) : sstat :=
    mkStat [] [] (fofZ fl 0) (fofZ fl 0) [] mp (fofZ fl 0).

  (** Sums of ints in double: std::accumulate(..., 0.0). *)
  Definition fsumZ (l : list Z) : F fl :=
    fold_left (fun a f => fadd fl a (fofZ fl f)) l (fofZ fl 0).

  (** stat_dict_p.cc:21-34. The words are sorted inside IntDictImpl; init_freqs are not permuted. *)
  Definition mk_stat (ws : list seq) (mp : F fl) (init : option (list Z)) : outcome (dict * sstat) :=
    d <- mk_dict ws ;;
    let '(pf, ip) := match init with
                     | None => (repeat 0%Z (dsize d), fofZ fl 0)
                     | Some l => (l ++ repeat 0%Z (dsize d - length l), fsumZ l)
                     end in
    Ok (d, mkStat (repeat 0%Z (length ws)) pf (fofZ fl 0) ip [] mp (fofZ fl 0)).

  Definition pad (l : list Z) (n : nat) : list Z := l ++ repeat 0%Z (n - length l).

  (** v[i] += f *)
  Definition vadd (l : list Z) (i : nat) (f : Z) : outcome (list Z) :=
    x <- vget l i ;; vset l i (x + f)%Z.

  (** stat_dict_p.cc:36-46. parse_freqs_ is grown only when symbol_freqs_ has to grow. *)
  Definition update_symbol (st : sstat) (i : nat) (f : Z) : outcome sstat :=
    let grow := Nat.leb (length (sfreqs st)) i in
    let sf := if grow then pad (sfreqs st) (i + 1) else sfreqs st in
    let pf := if grow then pad (pfreqs st) (i + 1) else pfreqs st in
    sf' <- vadd sf i f ;;
    pf' <- vadd pf i f ;;
    Ok (mkStat sf' pf' (fadd fl (power st) (fofZ fl f)) (ipower st) (pairs st) (minp st) (chars st)).

  (** stat_dict_p.cc:72-74 *)
  Definition freq (st : sstat) (i : nat) : Z :=
    match nth_error (sfreqs st) i with Some f => f | None => 0%Z end.

  (** x * log(x) for an int x *)
  Definition xlogx (f : Z) : F fl := fmul fl (fofZ fl f) (flog fl (fofZ fl f)).

  (** stat_dict_p.cc:76-84 *)
  Definition code_length_per_char (d : dict) (st : sstat) : F fl :=
    let sum := fold_left (fun a i => if Z.ltb 0 (freq st i) then fsub fl a (xlogx (freq st i)) else a)
                 (List.seq 0 (dsize d)) (fofZ fl 0) in
    fdiv fl (fadd fl sum (fmul fl (power st) (flog fl (power st)))) (chars st).

  (** stat_dict_p.cc:86-88 *)
  Definition enough (st : sstat) (prob : F fl) : bool :=
    fltb fl (fdiv fl (fneg fl (flog fl prob)) (minp st)) (power st).

  (** stat_dict_p.cc:90-101. Returns (parse_result, return value, dictionary, statistics). *)
  Definition stat_parse (d : dict) (st : sstat) (s : seq) (output : list nat)
    : outcome (list nat * nat * dict * sstat) :=
    '(out, _, d') <- parse_weighted fl d s (pfreqs st) (fadd fl (power st) (ipower st)) output ;;
    let st1 := mkStat (sfreqs st) (pfreqs st) (power st) (ipower st) (pairs st) (minp st)
                 (fadd fl (chars st) (fofZ fl (Z.of_nat (length s)))) in
    st2 <- foldM (fun st' i => update_symbol st' i 1) out st1 ;;
    Ok (out, length out, d',
        mkStat (sfreqs st2) (pfreqs st2) (power st2) (ipower st2) (count_pairs None out (pairs st))
          (minp st2) (chars st2)).

  (** stat_dict_p.cc:276-283: stat_item_to_text. *)
  Definition item_text (d : dict) (it : item) : outcome seq :=
    match first it with
    | Some f => a <- get d f ;; b <- get d (second it) ;; Ok (a ++ b)
    | None => get d (second it)
    end.

  (** std::sort(items, -a.score() < -b.score()), stat_dict_p.cc:156 and :239.
      With a NaN score the comparison is not a strict weak ordering, which is undefined. *)
  Definition sort_items (e : env) (l : list item) : outcome (list item) :=
    if existsb (fun it => fnan fl (score it)) l then UB BadOrder else Ok (e_sort e l).

  (** fast_random.cc:10-23: next_dirichlet. *)
  Definition next_dirichlet (e : env) (params : list (F fl)) : list (F fl) :=
    let draws := e_gamma e params in
    let total := fold_left (fadd fl) draws (fofZ fl 0) in
    let inv := fdiv fl (fofZ fl 1) total in
    map (fun g => fmul fl g inv) draws.

  (** stat_dict_p.cc:106-110: the first loop of expand. The range-for holds iterators into the
      vector that search may extend; extending it invalidates them. *)
  Fixpoint expand_words (d : dict) (st : sstat) (ws : list seq) : outcome (list item) :=
    match ws with
    | [] => Ok []
    | w :: t =>
        '(r, d') <- search d w None ;;
        match r with
        | Some i =>
            if Nat.eqb (dsize d') (dsize d)
            then (its <- expand_words d st t ;; Ok (mkItem None i (fmax fl) (freq st i) :: its))
            else UB IterInvalid
        | None => UB OobRead
        end
    end.

  (** v[i] += x on vectors of double *)
  Definition vfadd (l : list (F fl)) (i : nat) (x : F fl) : outcome (list (F fl)) :=
    y <- vget l i ;; vset l i (fadd fl y x).

  (** stat_dict_p.cc:112-121: start_with and ends_with, of the size of symbol_freqs_. *)
  Definition pair_margins (st : sstat) (ps : list ((nat * nat) * Z))
    : outcome (list (F fl) * list (F fl)) :=
    let z := repeat (fofZ fl 0) (length (sfreqs st)) in
    foldM (fun se p =>
             s' <- vfadd (fst se) (fst (fst p)) (fofZ fl (snd p)) ;;
             e' <- vfadd (snd se) (snd (fst p)) (fofZ fl (snd p)) ;;
             Ok (s', e')) ps (z, z).

  (** `score += freq * pAB / (pAY + pAB) * log(pAB / (pAY + pAB) / (pXB + pAB)) / samples_count`
      (stat_dict_p.cc:144): the summand. *)
  Definition round_term (fr : Z) (pAB pAY pXB : F fl) : F fl :=
    let s := fadd fl pAY pAB in
    fdiv fl
      (fmul fl (fdiv fl (fmul fl (fofZ fl fr) pAB) s)
               (flog fl (fdiv fl (fdiv fl pAB s) (fadd fl pXB pAB))))
      (fofZ fl 10).

  (** stat_dict_p.cc:129-145: the score of a pair; [sw] and [ew] are start_with[first] and
      ends_with[second], [tot] is total_pair_freqs. Ten rounds, each with a new generator. *)
  Definition pair_score (e : env) (tot sw ew : F fl) (fr : Z) : outcome (F fl) :=
    let ab := fofZ fl fr in
    let xb := fsub fl ew ab in
    let ay := fsub fl sw ab in
    let xy := fsub fl (fsub fl (fsub fl tot ay) xb) ab in
    let one := fofZ fl 1 in
    let params := [fadd fl ab one; fadd fl ay one; fadd fl xb one; fadd fl xy one] in
    foldM (fun acc (_ : nat) =>
             let sample := next_dirichlet e params in
             pAB <- vget sample 0 ;;
             pAY <- vget sample 1 ;;
             pXB <- vget sample 2 ;;
             Ok (fadd fl acc (round_term fr pAB pAY pXB)))
          (List.seq 0 10) (fofZ fl 0).

  Definition known_in (known : list seq) (t : seq) : bool := existsb (seq_eqb t) known.

  (** stat_dict_p.cc:124-154: the loop over pairs; [items] and [known] as in the source. *)
  Definition expand_pairs (e : env) (d : dict) (tot : F fl) (se : list (F fl) * list (F fl))
      (ps : list ((nat * nat) * Z)) (st0 : list item * list seq) : outcome (list item * list seq) :=
    foldM (fun acc (p : (nat * nat) * Z) =>
             let '(items, known) := acc in
             let '((f, s), fr) := p in
             ew <- vget (snd se) s ;;
             sw <- vget (fst se) f ;;
             sc <- pair_score e tot sw ew fr ;;
             let it := mkItem (Some f) s sc fr in
             t <- item_text d it ;;
             Ok (if known_in known t then (items, known) else (items ++ [it], known ++ [t])))
          ps st0.

  (** stat_dict_p.cc:163-174: the output loop of expand. *)
  Fixpoint expand_out (d : dict) (acc_freqs : F fl) (items : list item) (slots : Z) (mp : F fl)
      (ws : list seq) (fs : list Z) : outcome (list seq * list Z * F fl) :=
    match items with
    | [] => Ok (ws, fs, mp)
    | it :: t =>
        if fltb fl (score it) (fofZ fl 0) then Ok (ws, fs, mp)
        else
          let slots' := (slots - 1)%Z in
          if Z.ltb slots' 0 then Ok (ws, fs, mp)
          else
            w <- item_text d it ;;
            let mp' := match first it with
                       | Some _ => fmin fl mp (fdiv fl (fofZ fl (icount it)) acc_freqs)
                       | None => mp
                       end in
            expand_out d acc_freqs t slots' mp' (ws ++ [w]) (fs ++ [icount it])
    end.

  (** stat_dict_p.cc:103-176: expand. Returns (new_dict, freqs, min probability). *)
  Definition expand (e : env) (d : dict) (st : sstat) (slots : Z)
    : outcome (list seq * list Z * F fl) :=
    its0 <- expand_words d st (seqs d) ;;
    let slots1 := (slots + Z.of_nat (dsize d))%Z in
    let ps := e_pairs e (pairs st) in
    se <- pair_margins st ps ;;
    let tot := fold_left (fadd fl) (fst se) (fofZ fl 0) in
    '(items, _) <- expand_pairs e d tot se ps (its0, seqs d) ;;
    items' <- sort_items e items ;;
    expand_out d (fsumZ (map snd ps)) items' slots1 (minp st) [] [].

  (** stat_dict_p.cc:210-238, the body of the loop of stat_items for one id that is not excluded.
      [base] is code_length. `(parse.size() - 1) * count` is computed in size_t. *)
  Definition stat_item (d : dict) (st : sstat) (ex : list nat) (base : F fl) (id : nat)
    : outcome (list item) :=
    let count := freq st id in
    s <- get d id ;;
    if Nat.ltb 1 (length s) then
      '(p, _, _) <- weighted_parse fl false true d s (sfreqs st) (power st) (Some (id :: ex)) ;;
      let np := fadd fl (power st)
                  (fofZ fl (((Z.of_nat (length p) - 1) mod 2 ^ 64 * count) mod 2 ^ 64)%Z) in
      let c0 := fadd fl (fsub fl (fadd fl base (xlogx count))
                           (fmul fl (power st) (flog fl (power st))))
                  (fmul fl np (flog fl np)) in
      let c1 := fold_left (fun a next =>
                    let old := freq st next in
                    fsub fl a (fsub fl (xlogx (old + count))
                                 (if Z.ltb 0 old then xlogx old else fofZ fl 0))) p c0 in
      let sc := fsub fl c1 base in
      Ok (if fltb fl (fofZ fl 0) sc then [mkItem None id sc count] else [])
    else Ok [mkItem None id (fmax fl) count].

  (** stat_dict_p.cc:210-241: stat_items. *)
  Definition stat_items (e : env) (d : dict) (st : sstat) (ex : list nat) : outcome (list item) :=
    let base := fmul fl (code_length_per_char d st) (chars st) in
    items <- foldM (fun acc id =>
                if existsb (Nat.eqb id) ex then Ok acc
                else (l <- stat_item d st ex base id ;; Ok (acc ++ l)))
               (List.seq 0 (length (sfreqs st))) [] ;;
    sort_items e items.

  (** stat_dict_p.cc:196-208: filter_stat_items. `items->size() > std::min((int)items->size(), slots)`
      compares unsigned with int: nothing is removed when slots is negative. *)
  Definition filter_stat_items (e : env) (d : dict) (st : sstat) (slots : Z) : outcome (list item) :=
    slots' <- foldM (fun acc s => p <- parent d s ;;
                       Ok (match p with None => (acc + 1)%Z | Some _ => acc end))
                (List.seq 0 (length (sfreqs st))) slots ;;
    ex <- foldM (fun acc id => p <- parent d id ;;
                   Ok (match p with
                       | Some _ => if Z.eqb (freq st id) 0 then acc ++ [id] else acc
                       | None => acc
                       end))
            (List.seq 0 (dsize d)) [] ;;
    items <- stat_items e d st ex ;;
    Ok (if Z.ltb slots' 0 then items else firstn (Z.to_nat slots') items).

  (** stat_dict_p.cc:186-192: the output loop of reduce. *)
  Fixpoint reduce_out (d : dict) (pw : F fl) (items : list item) (mp : F fl)
      (ws : list seq) (fs : list Z) : outcome (list seq * list Z * F fl) :=
    match items with
    | [] => Ok (ws, fs, mp)
    | it :: t =>
        let p := fdiv fl (fadd fl (fofZ fl (icount it)) (fofZ fl 1))
                   (fadd fl pw (fofZ fl (Z.of_nat (dsize d)))) in
        par <- parent d (second it) ;;
        let mp' := match par with Some _ => fmin fl p mp | None => mp end in
        w <- get d (second it) ;;
        reduce_out d pw t mp' (ws ++ [w]) (fs ++ [icount it])
    end.

  (** stat_dict_p.cc:178-194: reduce. Returns (new_dict, freqs, min probability). *)
  Definition reduce (e : env) (d : dict) (st : sstat) (slots : Z)
    : outcome (list seq * list Z * F fl) :=
    items <- filter_stat_items e d st slots ;;
    let pw := fsumZ (map icount items) in
    let mp := fmin fl (fdiv fl (fofZ fl 1) (fofZ fl (Z.of_nat (dsize d)))) (minp st) in
    reduce_out d pw items mp [] [].
End Stat.

Arguments mkStat {fl}. Arguments sfreqs {fl}. Arguments pfreqs {fl}. Arguments power {fl}.
Arguments ipower {fl}. Arguments pairs {fl}. Arguments minp {fl}. Arguments chars {fl}.
Arguments mkItem {fl}. Arguments first {fl}. Arguments second {fl}. Arguments score {fl}.
Arguments icount {fl}. Arguments mkEnv {fl}. Arguments e_pairs {fl}. Arguments e_sort {fl}.
Arguments e_gamma {fl}.
