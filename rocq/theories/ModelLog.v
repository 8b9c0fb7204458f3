(** ModelLog: what the objects print to std::cout when [verbose] is above 0 (int_vgram_builder_p.cc:91-94, int_vgram.cc:38-40 and 60-62). The functions of
    ModelBuilder.v, ModelStream.v, ModelVGram.v and ModelString.v once more, with the lines printed. How operator<< writes a double is not modelled: a line
    holds the numbers. The line "log_prob > 0" (int_dict_p.cc:133-135) does not depend on verbose and is left out. *)
From Verif Require Import Base FloatOps ModelDict ModelCoder ModelTok Maps ModelStat ModelBuilder ModelStream ModelVGram ModelString.

Section Log.
  Context (fl : fops).

  Inductive line :=
  | Progress (size : nat) (rate minp : F fl)   (* "Size: ... rate: ... minimal probability: ..." *)
  | Round (i : nat)                            (* "...-th iteration" *)
  | Recount.                                   (* "recompute freqs" *)

  (** Where an object comes from: a constructor called with [verbose], or a file. int_stream_vgram.cc:18-26 hands verbose to the builder and keeps it;
      a loaded object has 1 in its builder (int_stream_vgram.cc:95, int_vgram.cc:128) and, if it is an IntVGram, 1 of its own (int_vgram.cc:122 with
      int_stream_vgram.cc:15-16). A loaded stream does not initialize its own verbose_ and does not read it. *)
  Inductive origin := Made (verbose : Z) | Loaded.
  Definition verbosity (o : origin) : Z := match o with Made k => k | Loaded => 1 end.
  Definition say (k : Z) (l : line) : list line := if Z.ltb 0 k then [l] else [].

  (** int_vgram_builder_p.cc:69-78: compression_rate. *)
  Definition compression_rate (d : dict) (st : sstat fl) : F fl :=
    let ln2 := flog fl (fofZ fl 2) in
    let '(sum, len) :=
      fold_left (fun a i =>
          let f := freq fl st i in
          let w := match nth_error (seqs d) i with Some w => w | None => [] end in
          let len' := fadd fl (snd a) (fofZ fl ((Z.of_nat (length w) * f) mod 2 ^ 64)%Z) in
          (if Z.ltb 0 f then fsub fl (fst a) (fdiv fl (xlogx fl f) ln2) else fst a, len'))
        (List.seq 0 (dsize d)) (fofZ fl 0, fofZ fl 0) in
    fdiv fl (fdiv fl (fadd fl sum (fdiv fl (fmul fl (power st) (flog fl (power st))) ln2)) (fofZ fl 8)) len.

  (** int_vgram_builder_p.cc:66-118: update. *)
  Definition update_out (k : Z) (e : env fl) (b : builder fl) : outcome (list line * builder fl) :=
    if negb (ready fl b) then Ok ([], b)
    else
      d <- cur_dict fl b ;;
      let '(prob, best, turns) := update_rate fl d b in
      let asize := length (bsymb b) in
      '(out, ws, fs, mp) <- (if bpop b
        then '(ws, fs, mp) <- expand fl e d (bcur b) (expand_slots fl b d) ;;
             Ok (say k (Progress (dsize d) (compression_rate d (bcur b)) (minp (bcur b))), ws, fs, mp)
        else '(ws, fs, mp) <- reduce fl e d (bcur b) (bsize b - Z.of_nat asize)%Z ;; Ok ([], ws, fs, mp)) ;;
      '(d', st') <- mk_stat fl ws mp (Some fs) ;;
      let res := if bpop b
                 then (match bres b with RNull => RNull | RSame => ROwn (bptr b) (bcur b) | ROwn p st => ROwn p st end)
                 else RSame in
      Ok (out, mkBuilder (bheap b ++ [d']) (bsize b)
            (bsymb b ++ new_symbols asize 0 (combine (seqs d') (parents d')))
            (length (bheap b)) st' res (negb (bpop b)) prob best turns).
  (** int_vgram_builder_p.cc:58-64: accept. *)
  Definition accept_out (k : Z) (e : env fl) (b : builder fl) (s : seq) : outcome (list line * builder fl) :=
    d <- cur_dict fl b ;;
    '(_, _, d', st') <- stat_parse fl d (bcur b) s [] ;;
    let b' := mkBuilder (upd (bheap b) (bptr b) d') (bsize b) (bsymb b) (bptr b) st' (bres b) (bpop b) (bprob b) (bbest b) (bturns b) in
    if ready fl b' then update_out k e b' else Ok ([], b').

  (** int_stream_vgram.cc:28-30 *)
  Definition s_accept_out (k : Z) (e : env fl) (z : stream fl) (s : seq) : outcome (list line * stream fl) :=
    let (codes, c) := encode (zcoder z) s in
    '(out, b) <- accept_out k e (zb z) codes ;;
    Ok (out, mkStream (zsize z) b (zdict z) c (zfreqs z) (ztotal z) (zminp z)).

  (** int_vgram.cc:41-46 *)
  Fixpoint sample_out (k : Z) (w : world fl) (xs : list seq) (n t : nat) (z : stream fl) : outcome (list line * (bool * nat * stream fl)) :=
    match n with
    | O => Ok ([], (false, t, z))
    | S n' =>
        x <- vget xs (Z.to_nat (w_rand w t mod Z.of_nat (length xs))) ;;
        '(o, z') <- s_accept_out k (w_env w t) z x ;;
        if w_term w t then Ok (o, (true, S t, z'))
        else '(o', r) <- sample_out k w xs n' (S t) z' ;; Ok (o ++ o', r)
    end.
  (** int_vgram.cc:37-53; [i] is the number of the round. *)
  Fixpoint rounds_out (k : Z) (w : world fl) (xs : list seq) (n i t : nat) (z : stream fl) : outcome (list line * (bool * nat * stream fl)) :=
    match n with
    | O => Ok ([], (false, t, z))
    | S n' =>
        '(o, (stop, t', z')) <- sample_out k w xs (length xs) t z ;;
        if (stop : bool) then Ok (say k (Round i) ++ o, (true, t', z'))
        else z'' <- s_update fl z' ;;
             '(o', r) <- rounds_out k w xs n' (S i) t' z'' ;; Ok (say k (Round i) ++ o ++ o', r)
    end.
  (** int_vgram.cc:59-80; nothing called in recompute_freqs prints. *)
  Definition recompute_out (k : Z) (w : world fl) (xs : list seq) (t : nat) (z : stream fl) : outcome (list line * (nat * stream fl)) :=
    r <- recompute_freqs fl w xs t z ;; Ok (say k Recount, r).
  (** int_vgram.cc:28-57: fit. *)
  Definition fit_out (k : Z) (w : world fl) (v : vgram fl) (xs : list seq) : outcome (list line * (bool * vgram fl)) :=
    if vfitted v then
      if vcomputed v then Ok ([], (true, v))
      else '(o, (_, z)) <- recompute_out k w xs 0 (vs v) ;; Ok (o, (true, mkVGram z (viter v) true true))
    else
      '(o, (stop, t, z)) <- rounds_out k w xs (Z.to_nat (viter v)) 0 0 (vs v) ;;
      if (stop : bool) then Ok (o, (false, on_stream fl v z))
      else '(o', (_, z')) <- recompute_out k w xs t z ;; Ok (o ++ o', (true, mkVGram z' (viter v) true true)).

  (** string_stream_vgram.cc:38-40 and string_vgram.cc:25-28 *)
  Definition t_accept_out (rhs_first : bool) (k : Z) (e : env fl) (z : tstream fl) (s : text) : outcome (list line * tstream fl) :=
    '(ids, tk) <- tok_transform rhs_first (ttok z) s ;;
    '(o, z') <- s_accept_out k e (tst z) ids ;;
    Ok (o, mkTStream z' tk (twords z) (tinner z)).
  Definition tv_fit_out (rhs_first : bool) (k : Z) (w : world fl) (v : tvgram fl) (xs : list text) : outcome (list line * tvgram fl) :=
    '(ids, tk) <- tok_transform_all rhs_first (tvtok v) xs ;;
    '(o, (_, v')) <- fit_out k w (tv v) ids ;;
    Ok (o, mkTVGram v' tk).
End Log.
Arguments Progress {fl}. Arguments Round {fl}. Arguments Recount {fl}.
