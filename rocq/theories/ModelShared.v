(** ModelShared: text objects that use one tokenizer together. The constructors that take a shared_ptr to a tokenizer
    (string_stream_vgram.h:22-25, string_stream_vgram.cc:30-36; string_vgram.h:27, string_vgram.cc:59-60) keep the pointer,
    not a copy, so that what one object makes the tokenizer learn the others find there. *)
From Verif Require Import Base FloatOps ModelDict ModelCoder ModelTok Maps ModelStat ModelBuilder ModelStream ModelVGram ModelString.

Section Shared.
  Context (fl : fops).

  (** A StringStreamVGram or a StringVGram without its tokenizer: the inner object (string_stream_vgram.h:39, string_vgram.h:41)
      and, for the former, words_are_tokens and inner_words_split. *)
  Inductive member := MStream (z : stream fl) (words inner : bool) | MVGram (v : vgram fl).

  (** The member functions of the two classes (string_stream_vgram.h:27-37, string_vgram.h:31-39), save excepted, and what
      they return. *)
  Inductive mcall :=
  | CAccept (e : env fl) (s : text) | CParse (s : text) | CUpdate
  | CFit (w : world fl) (xs : list text) | CTransform (w : world fl) (xs : list text)
  | CAlphabet | CFreqs.
  Inductive answer := ADone | ATexts (l : list text) | ACounts (l : list Z).

  (** One call on [m] while the tokenizer is [tk]. A function that the class does not have cannot be called; here this is
      an exception, which no series of calls that came back contains. *)
  Definition m_call (m : member) (tk : tokenizer) (k : mcall) : outcome (answer * member * tokenizer) :=
    match m, k with
    | MStream z w n, CAccept e s =>
        z' <- t_accept fl true e (mkTStream z tk w n) s ;; Ok (ADone, MStream (tst z') w n, ttok z')
    | MStream z w n, CParse s =>
        '(l, z') <- t_parse fl true (mkTStream z tk w n) s ;; Ok (ATexts l, MStream (tst z') w n, ttok z')
    | MStream z w n, CUpdate =>
        z' <- t_update fl (mkTStream z tk w n) ;; Ok (ADone, MStream (tst z') w n, ttok z')
    | MStream z w n, CAlphabet => l <- t_alphabet fl (mkTStream z tk w n) ;; Ok (ATexts l, m, tk)
    | MStream z w n, CFreqs => Ok (ACounts (t_freqs fl (mkTStream z tk w n)), m, tk)
    | MVGram v, CFit w xs => v' <- tv_fit fl true w (mkTVGram v tk) xs ;; Ok (ADone, MVGram (tv v'), tvtok v')
    | MVGram v, CTransform w xs =>
        '(l, v') <- tv_transform fl true w (mkTVGram v tk) xs ;; Ok (ATexts l, MVGram (tv v'), tvtok v')
    | MVGram v, CAlphabet => l <- tv_alphabet fl (mkTVGram v tk) ;; Ok (ATexts l, m, tk)
    | MVGram v, CFreqs => Ok (ACounts (tv_freqs fl (mkTVGram v tk)), m, tk)
    | _, _ => Throw InvalidArg
    end.

  (** Several objects and the tokenizer they share. *)
  Record group := mkGroup { gmem : list member; gtok : tokenizer }.

  (** A call on the [i]-th object, or BaseTokenizer::transform (base_tokenizer.cc:30-42) called by the owner of the tokenizer. *)
  Inductive gcall := On (i : nat) (k : mcall) | Direct (s : text).
  Definition g_call (g : group) (c : gcall) : outcome (answer * group) :=
    match c with
    | On i k =>
        m <- vget (gmem g) i ;;
        '(a, m', tk) <- m_call m (gtok g) k ;;
        Ok (a, mkGroup (upd (gmem g) i m') tk)
    | Direct s => '(_, tk) <- tok_transform true (gtok g) s ;; Ok (ADone, mkGroup (gmem g) tk)
    end.
End Shared.
Arguments MStream {fl}. Arguments MVGram {fl}. Arguments CAccept {fl}. Arguments CParse {fl}. Arguments CUpdate {fl}.
Arguments CFit {fl}. Arguments CTransform {fl}. Arguments CAlphabet {fl}. Arguments CFreqs {fl}.
Arguments mkGroup {fl}. Arguments gmem {fl}. Arguments gtok {fl}. Arguments On {fl}. Arguments Direct {fl}.
