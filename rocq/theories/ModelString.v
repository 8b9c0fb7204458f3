(** ModelString: core/src/main/cpp/interfaces/vgram_builders/string_stream_vgram.cc and string_vgram.cc.
    The tokenizer behind a shared_ptr is taken to be owned by the object. Printing is not modelled. *)
From Verif Require Import Base FloatOps ModelDict ModelCoder ModelTok Maps ModelStat ModelBuilder ModelStream ModelVGram.

Section Strings.
  Context (fl : fops).
  (** Evaluation order in BaseTokenizer::transform, see ModelTok.v. *)
  Context (rhs_first : bool).

  (** string_stream_vgram.h:39-44 *)
  Record tstream := mkTStream { tst : stream fl; ttok : tokenizer; twords : bool; tinner : bool }.

  (** string_stream_vgram.cc:70-74: check_args *)
  Definition check_args (z : tstream) : outcome tstream :=
    if twords z && tinner z then Throw InvalidArg else Ok z.

  (** string_stream_vgram.cc:14-28 *)
  Definition new_tstream (size : Z) (inner_words_split words_are_tokens : bool) : outcome tstream :=
    check_args (mkTStream (new_stream fl size) (new_tok (if words_are_tokens then WordTok else CharTok))
                  words_are_tokens inner_words_split).

  (** string_stream_vgram.cc:30-36 *)
  Definition tstream_of (z : stream fl) (t : tokenizer) (inner_words_split words_are_tokens : bool) : outcome tstream :=
    check_args (mkTStream z t words_are_tokens inner_words_split).

  (** string_stream_vgram.cc:38-40 *)
  Definition t_accept (e : env fl) (z : tstream) (s : text) : outcome tstream :=
    '(ids, tk) <- tok_transform rhs_first (ttok z) s ;;
    z' <- s_accept fl e (tst z) ids ;;
    Ok (mkTStream z' tk (twords z) (tinner z)).

  (** string_stream_vgram.cc:46-50: the loop of parse. *)
  Fixpoint token_words (z : stream fl) (tk : tokenizer) (ids : list nat) : outcome (list text) :=
    match ids with
    | [] => Ok []
    | i :: r =>
        '(_, d) <- the_dict fl z ;;
        raw <- vget (seqs d) i ;;
        v <- decode (zcoder z) raw ;;
        l <- token_words z tk r ;;
        Ok (tok_decode tk v :: l)
    end.
  (** string_stream_vgram.cc:42-52. parse is const, but the tokenizer learns the tokens of the text. *)
  Definition t_parse (z : tstream) (s : text) : outcome (list text * tstream) :=
    '(ids, tk) <- tok_transform rhs_first (ttok z) s ;;
    '(r, z') <- s_parse fl (tst z) ids ;;
    l <- token_words z' tk r ;;
    Ok (l, mkTStream z' tk (twords z) (tinner z)).

  (** string_stream_vgram.cc:54-64 *)
  Definition t_update (z : tstream) : outcome tstream :=
    z' <- s_update fl (tst z) ;; Ok (mkTStream z' (ttok z) (twords z) (tinner z)).
  Definition t_alphabet (z : tstream) : outcome (list text) :=
    al <- s_alphabet fl (tst z) ;; Ok (tok_decode_all (ttok z) al).
  Definition t_freqs (z : tstream) : list Z := s_freqs fl (tst z).

  (** string_vgram.h:41-42 *)
  Record tvgram := mkTVGram { tv : vgram fl; tvtok : tokenizer }.

  (** string_vgram.cc:11-23: a character tokenizer, or a given one. *)
  Definition new_tvgram (size iter : Z) : tvgram := mkTVGram (new_vgram fl size iter) (new_tok CharTok).
  Definition new_tvgram_with (size iter : Z) (t : tokenizer) : tvgram := mkTVGram (new_vgram fl size iter) t.

  (** string_vgram.cc:25-28: fit. The result of the inner fit is ignored: an interrupted fit looks like a completed one. *)
  Definition tv_fit (w : world fl) (v : tvgram) (xs : list text) : outcome tvgram :=
    '(ids, tk) <- tok_transform_all rhs_first (tvtok v) xs ;;
    '(_, v') <- fit fl w (tv v) ids ;;
    Ok (mkTVGram v' tk).

  (** string_vgram.cc:36-41: one string; [acc] is decoded_words. *)
  Fixpoint decoded (tk : tokenizer) (al : list seq) (ids : list nat) (acc : text) : outcome text :=
    match ids with
    | [] => Ok acc
    | i :: r =>
        word <- vget al i ;;
        decoded tk al r ((match acc with [] => [] | _ => acc ++ [32%Z] end) ++ tok_decode tk word)
    end.
  Fixpoint decoded_all (tk : tokenizer) (al : list seq) (l : list (list nat)) : outcome (list text) :=
    match l with
    | [] => Ok []
    | ids :: r => s <- decoded tk al ids [] ;; t <- decoded_all tk al r ;; Ok (s :: t)
    end.
  (** string_vgram.cc:30-45: transform. alphabet() is called even if there is no text. *)
  Definition tv_transform (w : world fl) (v : tvgram) (xs : list text) : outcome (list text * tvgram) :=
    '(ids, tk) <- tok_transform_all rhs_first (tvtok v) xs ;;
    '(r, v') <- transform fl w (tv v) ids ;;
    al <- s_alphabet fl (vs v') ;;
    l <- decoded_all tk al r ;;
    Ok (l, mkTVGram v' tk).

  (** string_vgram.cc:51-57 *)
  Definition tv_freqs (v : tvgram) : list Z := s_freqs fl (vs (tv v)).
  Definition tv_alphabet (v : tvgram) : outcome (list text) :=
    al <- s_alphabet fl (vs (tv v)) ;; Ok (tok_decode_all (tvtok v) al).
End Strings.
Arguments mkTStream {fl}. Arguments tst {fl}. Arguments ttok {fl}. Arguments twords {fl}. Arguments tinner {fl}.
Arguments mkTVGram {fl}. Arguments tv {fl}. Arguments tvtok {fl}.
