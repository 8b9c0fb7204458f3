(** ModelBuilder: core/src/main/cpp/algorithm/int_vgram_builder_p.cc, class IntVGramBuilderImpl.
    Dictionaries live in a heap because std::shared_ptr<IntDict> is shared between the builder's
    statistics objects and the stream that owns the builder. *)
From Verif Require Import Base FloatOps ModelDict Maps ModelStat.

Section Builder.
  Context (fl : fops).

  (** result_ (int_vgram_builder_p.h:40, a shared_ptr<StatDictImpl>): null, the same
      object as current_ (after a reduction, until the next update), or an older object with its
      own dictionary pointer. *)
  Inductive rptr := RNull | RSame | ROwn (p : nat) (st : sstat fl).

  (** int_vgram_builder_p.h:38-48: members of IntVGramBuilderImpl. *)
  Record builder := mkBuilder {
    bheap : list dict;       (* all dictionaries reachable through shared pointers *)
    bsize : Z;               (* size_ *)
    bsymb : list seq;        (* symb_alphabet_ *)
    bptr : nat;              (* current_->dict_ *)
    bcur : sstat fl;         (* the rest of *current_ *)
    bres : rptr;             (* result_ *)
    bpop : bool;             (* populate_ *)
    bprob : F fl;            (* prob_found_ *)
    bbest : F fl;            (* best_compression_rate_ *)
    bturns : Z               (* no_rate_increase_turns_ *)
  }.

  (** int_vgram_builder.h:13-14 *)
  Definition k_max_power : F fl := fofZ fl 20000000.
  Definition k_extension : F fl := flit fl 13 10.

  (** int_vgram_builder_p.cc:10-16: IntVGramBuilderImpl(int size, int verbose). *)
  Definition new_builder (size : Z) : builder :=
    mkBuilder [empty_dict] size [] 0 (empty_stat fl (k_max_min_probability fl)) RNull true
      (flit fl 1 10) (fofZ fl 1) 0.

  (** int_vgram_builder_p.cc:18-20 and 39-45: IntVGramBuilderImpl(const IntDict&, int, int), init. *)
  Definition new_builder_dict (alphabet : dict) (size : Z) : outcome builder :=
    '(d, st) <- mk_stat fl (seqs alphabet) (k_max_min_probability fl) None ;;
    Ok (mkBuilder [d] size (seqs alphabet) 0 st RNull true (flit fl 1 10) (fofZ fl 1) 0).

  (** int_vgram_builder_p.cc:22-25: IntVGramBuilderImpl(const IntSeq&, int, int). *)
  Definition new_builder_symbols (alphabet : seq) (size : Z) : outcome builder :=
    d <- mk_dict_symbols alphabet ;; new_builder_dict d size.

  (** int_vgram_builder_p.cc:27-37: the constructor used by loading. *)
  Definition new_builder_loaded (d : dict) (freqs : list Z) (alphabet : list seq) (mp : F fl)
    : outcome builder :=
    '(d', st) <- mk_stat fl (seqs d) mp (Some freqs) ;;
    Ok (mkBuilder [d'] (Z.of_nat (dsize d)) alphabet 0 st RSame true (flit fl 1 10) (fofZ fl 1) 0).

  Definition hget (b : builder) (p : nat) : outcome dict := vget (bheap b) p.
  Definition cur_dict (b : builder) : outcome dict := hget b (bptr b).

  (** int_vgram_builder_p.cc:47-49: result(), as a heap pointer. *)
  Definition result_ptr (b : builder) : nat :=
    match bres b with RNull | RSame => bptr b | ROwn p _ => p end.

  (** int_vgram_builder_p.cc:51-56: alpha(), a fresh dictionary with the words of the result. *)
  Definition alpha (b : builder) : outcome dict :=
    d <- hget b (result_ptr b) ;; mk_dict (seqs d).

  (** Replace the dictionary behind a pointer. *)
  Definition hput (b : builder) (p : nat) (d : dict) : builder :=
    mkBuilder (upd (bheap b) p d) (bsize b) (bsymb b) (bptr b) (bcur b) (bres b) (bpop b)
      (bprob b) (bbest b) (bturns b).

  (** The condition of int_vgram_builder_p.cc:61 and :67. *)
  Definition ready (b : builder) : bool :=
    enough fl (bcur b) (bprob b) || fltb fl k_max_power (power (bcur b)).

  (** int_vgram_builder_p.cc:69-84: the compression rate and prob_found_.
      `get(i).size() * freq` is computed in size_t. *)
  Definition update_rate (d : dict) (b : builder) : F fl * F fl * Z :=
    let st := bcur b in
    let ln2 := flog fl (fofZ fl 2) in
    let '(sum, len) :=
      fold_left (fun a i =>
          let f := freq fl st i in
          let w := match nth_error (seqs d) i with Some w => w | None => [] end in
          let len' := fadd fl (snd a) (fofZ fl ((Z.of_nat (length w) * f) mod 2 ^ 64)%Z) in
          (if Z.ltb 0 f then fsub fl (fst a) (fdiv fl (xlogx fl f) ln2) else fst a, len'))
        (List.seq 0 (dsize d)) (fofZ fl 0, fofZ fl 0) in
    let code := fdiv fl (fadd fl sum (fdiv fl (fmul fl (power st) (flog fl (power st))) ln2))
                  (fofZ fl 8) in
    let rate := fdiv fl code len in
    if fltb fl rate (bbest b) then (bprob b, rate, 0%Z)
    else (if Z.ltb 3 (bturns b + 1) then fmul fl (bprob b) (flit fl 8 10) else bprob b,
          bbest b, (bturns b + 1)%Z).

  (** int_vgram_builder_p.cc:108-116: append to symb_alphabet_ the words without a parent from
      number alphabet_size + 1 on. *)
  Fixpoint new_symbols (asize : nat) (k : nat) (ws : list (seq * option nat)) : list seq :=
    match ws with
    | [] => []
    | (w, None) :: t => if Nat.ltb asize k then w :: new_symbols asize (S k) t
                        else new_symbols asize (S k) t
    | (_, Some _) :: t => new_symbols asize k t
    end.

  (** int_vgram_builder_p.cc:95-99: the slots given to expand. *)
  Definition expand_slots (b : builder) (d : dict) : Z :=
    let ext := fmul fl (fofZ fl (Z.of_nat (dsize d))) k_extension in
    if fltb fl ext (fofZ fl 10) then (bsize b - Z.of_nat (length (bsymb b)))%Z else ftrunc fl ext.

  (** int_vgram_builder_p.cc:66-118: update. *)
  Definition update (e : env fl) (b : builder) : outcome builder :=
    if negb (ready b) then Ok b
    else
      d <- cur_dict b ;;
      let '(prob, best, turns) := update_rate d b in
      let asize := length (bsymb b) in
      '(ws, fs, mp) <- (if bpop b then expand fl e d (bcur b) (expand_slots b d)
                        else reduce fl e d (bcur b) (bsize b - Z.of_nat asize)%Z) ;;
      '(d', st') <- mk_stat fl ws mp (Some fs) ;;
      let res := if bpop b
                 then (match bres b with
                       | RNull => RNull
                       | RSame => ROwn (bptr b) (bcur b)
                       | ROwn p st => ROwn p st
                       end)
                 else RSame in
      Ok (mkBuilder (bheap b ++ [d']) (bsize b)
            (bsymb b ++ new_symbols asize 0 (combine (seqs d') (parents d')))
            (length (bheap b)) st' res (negb (bpop b)) prob best turns).

  (** int_vgram_builder_p.cc:58-64: accept. *)
  Definition accept (e : env fl) (b : builder) (s : seq) : outcome builder :=
    d <- cur_dict b ;;
    '(_, _, d', st') <- stat_parse fl d (bcur b) s [] ;;
    let b' := mkBuilder (upd (bheap b) (bptr b) d') (bsize b) (bsymb b) (bptr b) st' (bres b)
                (bpop b) (bprob b) (bbest b) (bturns b) in
    if ready b' then update e b' else Ok b'.

  (** int_vgram_builder_p.cc:120-130: result_freqs(stat_dict, freqs): symbol_freqs_ is grown to the
      size of the dictionary (parse_freqs_ is not) and appended to freqs. *)
  Definition grow_freqs (d : dict) (st : sstat fl) : sstat fl :=
    mkStat (pad (sfreqs st) (dsize d)) (pfreqs st) (power st) (ipower st) (pairs st) (minp st) (chars st).

  (** int_vgram_builder_p.cc:132-137: result_freqs(freqs). *)
  Definition result_freqs (b : builder) (freqs : list Z) : outcome (list Z * builder) :=
    d <- hget b (result_ptr b) ;;
    match bres b with
    | RNull | RSame =>
        let st := grow_freqs d (bcur b) in
        Ok (freqs ++ sfreqs st,
            mkBuilder (bheap b) (bsize b) (bsymb b) (bptr b) st (bres b) (bpop b) (bprob b)
              (bbest b) (bturns b))
    | ROwn p st0 =>
        let st := grow_freqs d st0 in
        Ok (freqs ++ sfreqs st,
            mkBuilder (bheap b) (bsize b) (bsymb b) (bptr b) (bcur b) (ROwn p st) (bpop b) (bprob b)
              (bbest b) (bturns b))
    end.

  (** int_vgram_builder_p.cc:139-141: code_length(). *)
  Definition code_length (b : builder) : outcome (F fl) :=
    match bres b with
    | RNull => UB NullDeref
    | RSame => d <- cur_dict b ;; Ok (code_length_per_char fl d (bcur b))
    | ROwn p st => d <- hget b p ;; Ok (code_length_per_char fl d st)
    end.

  (** int_vgram_builder_p.cc:143-145 *)
  Definition get_min_probability (b : builder) : F fl :=
    match bres b with
    | RNull => fofZ fl (-1)
    | RSame => minp (bcur b)
    | ROwn _ st => minp st
    end.
End Builder.

Arguments RNull {fl}. Arguments RSame {fl}. Arguments ROwn {fl}.
Arguments mkBuilder {fl}. Arguments bheap {fl}. Arguments bsize {fl}. Arguments bsymb {fl}.
Arguments bptr {fl}. Arguments bcur {fl}. Arguments bres {fl}. Arguments bpop {fl}.
Arguments bprob {fl}. Arguments bbest {fl}. Arguments bturns {fl}.
