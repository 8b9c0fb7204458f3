(** PropsAlike: C95. *)
From Coq Require Import Ascii String.
From Verif Require Import Base FloatOps FloatExample ModelTok ModelDict Maps ModelCoder ModelStat ModelBuilder
  ModelStream ModelVGram ModelString ModelShared SpecTok DictProofs EnvExample AlikeProofs SpecStream SpecVGram SpecString SpecShared SpecAlike.
Local Open Scope string_scope.
Local Open Scope list_scope.

(** C95: case, punctuation and spaces do not matter. A call with texts that differ in these only does the same, whatever the
    object and its state, and whether it succeeds or not. *)
Theorem C95_call : forall fl m t k k', calls_alike fl (tkind t) k k' -> m_call fl m t k = m_call fl m t k'.
Proof. exact call_alike. Qed.
Print Assumptions C95_call.

(** Two series of such calls get the same answers and leave the same objects. *)
Theorem C95_history : forall fl m t log m' t', mhist fl m t log m' t' ->
  forall ks, Forall2 (calls_alike fl (tkind t)) (map fst log) ks -> mhist fl m t (combine ks (map snd log)) m' t'.
Proof. exact hist_alike. Qed.
Print Assumptions C95_history.

(** Nothing else is overlooked: texts that the tokenizers do not tell apart differ in these only. *)
Theorem C95_chars_only : forall s s', ascii_text s -> ascii_text s' ->
  (exists n, normalize CharTok s = Ok n /\ normalize CharTok s' = Ok n) -> alike CharTok s s'.
Proof. exact chars_only. Qed.
Print Assumptions C95_chars_only.

Theorem C95_words_only : forall s s', tokenize WordTok s = tokenize WordTok s' -> s = s' \/ s' = (s ++ [32%Z])%list \/ s = (s' ++ [32%Z])%list.
Proof. exact tokens_end. Qed.
Print Assumptions C95_words_only.

(** With words as tokens the claim fails: a second space between two words belongs to the next word, and case matters. *)
Fixpoint run_m (m : member exf) (t : tokenizer) (ks : list (mcall exf)) : outcome (list answer) :=
  match ks with
  | [] => Ok []
  | k :: r => '(a, m1, t1) <- m_call exf m t k ;; l <- run_m m1 t1 r ;; Ok (a :: l)
  end.
Definition words_with (s : text) : list (mcall exf) := [CAccept exenv (txt "to be"); CUpdate; CParse s].
Theorem C95_refuted_words :
  run_m (MStream (new_stream exf 10) true false) (new_tok WordTok) (words_with (txt "to be")) = Ok [ADone; ADone; ATexts [txt "to"; txt "be"]] /\
  run_m (MStream (new_stream exf 10) true false) (new_tok WordTok) (words_with (txt "to be ")) = Ok [ADone; ADone; ATexts [txt "to"; txt "be"]] /\
  run_m (MStream (new_stream exf 10) true false) (new_tok WordTok) (words_with (txt "to  be")) = Ok [ADone; ADone; ATexts [txt "to"]] /\
  run_m (MStream (new_stream exf 10) true false) (new_tok WordTok) (words_with (txt "To be")) = Ok [ADone; ADone; ATexts [txt "be"]].
Proof. vm_compute. auto. Qed.
Print Assumptions C95_refuted_words.

(** Two series of calls with characters as tokens. *)
Definition shouted : list (mcall exf) := [CAccept exenv (txt "Cab, a!"); CUpdate; CParse (txt "B A C k")].
Definition whispered : list (mcall exf) := [CAccept exenv (txt "caba"); CUpdate; CParse (txt "back")].
Example C95_case :
  Forall2 (calls_alike exf CharTok) shouted whispered /\
  run_m (MStream (new_stream exf 10) false false) (new_tok CharTok) shouted = Ok [ADone; ADone; ATexts [txt "b"; txt "a"; txt "c"]].
Proof.
  assert (A : forall s s', (forall c, In c s -> 0 <= c < 128)%Z -> (forall c, In c s' -> 0 <= c < 128)%Z -> normalize CharTok s = normalize CharTok s' -> alike CharTok s s').
  { intros s s' H H' E. cbn. split; [exact H|]. split; [exact H'|]. now apply (char_alike s s' H H'). }
  split; [|vm_compute; reflexivity].
  constructor; [apply al_accept|constructor; [apply al_same|constructor; [apply al_parse|constructor]]];
    apply A; try (vm_compute; reflexivity); intros c I; vm_compute in I; repeat destruct I as [<-|I]; try contradiction; split; easy.
Qed.
