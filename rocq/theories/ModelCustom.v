(** ModelCustom: text objects with a tokenizer of the user's own, a class derived from BaseTokenizer that overrides normalize and
    tokenize (base_tokenizer.h:31-33) and is passed by pointer (string_vgram.h:22-26) or as a shared_ptr
    (string_stream_vgram.h:23-25). The two functions are const and are taken to depend on their argument only; they may fail.
    The rest of the tokenizer, the two maps, is that of ModelTok.v; its field [tkind] is not looked at here. *)
From Verif Require Import Base FloatOps ModelDict ModelCoder ModelTok Maps ModelStat ModelBuilder ModelStream ModelVGram ModelString.

Section Custom.
  Context (fl : fops) (norm : text -> outcome text) (toks : text -> outcome (list text)).

  (** base_tokenizer.cc:30-42: transform(const string&), with the overriding functions. *)
  Definition c_transform (t : tokenizer) (s : text) : outcome (seq * tokenizer) :=
    n <- norm s ;; ws <- toks n ;; mapM (code_token true) ws t.
  (** base_tokenizer.cc:21-28 *)
  Definition c_transform_all (t : tokenizer) (ss : list text) : outcome (list seq * tokenizer) := mapM c_transform ss t.

  (** A tokenizer as its default constructor makes it (base_tokenizer.h:17). *)
  Definition c_new : tokenizer := new_tok CharTok.

  (** string_stream_vgram.cc:30-36 with a new inner stream *)
  Definition c_stream (size : Z) : tstream fl := mkTStream (new_stream fl size) c_new false false.
  (** string_stream_vgram.cc:38-40 *)
  Definition c_accept (e : env fl) (z : tstream fl) (s : text) : outcome (tstream fl) :=
    '(ids, tk) <- c_transform (ttok z) s ;;
    z' <- s_accept fl e (tst z) ids ;;
    Ok (mkTStream z' tk (twords z) (tinner z)).
  (** string_stream_vgram.cc:42-52 *)
  Definition c_parse (z : tstream fl) (s : text) : outcome (list text * tstream fl) :=
    '(ids, tk) <- c_transform (ttok z) s ;;
    '(r, z') <- s_parse fl (tst z) ids ;;
    l <- token_words fl z' tk r ;;
    Ok (l, mkTStream z' tk (twords z) (tinner z)).

  (** string_vgram.cc:17-23 *)
  Definition c_vgram (size iter : Z) : tvgram fl := new_tvgram_with fl size iter c_new.
  (** string_vgram.cc:25-28 *)
  Definition c_fit (w : world fl) (v : tvgram fl) (xs : list text) : outcome (tvgram fl) :=
    '(ids, tk) <- c_transform_all (tvtok v) xs ;;
    '(_, v') <- fit fl w (tv v) ids ;;
    Ok (mkTVGram v' tk).
  (** string_vgram.cc:30-45 *)
  Definition c_apply (w : world fl) (v : tvgram fl) (xs : list text) : outcome (list text * tvgram fl) :=
    '(ids, tk) <- c_transform_all (tvtok v) xs ;;
    '(r, v') <- transform fl w (tv v) ids ;;
    al <- s_alphabet fl (vs v') ;;
    l <- decoded_all tk al r ;;
    Ok (l, mkTVGram v' tk).
End Custom.
