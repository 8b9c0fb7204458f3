(** Properties of objects with a tokenizer of the user's own: C96. Vocabulary: SpecCustom.v, SpecString.v, SpecVGram.v. *)
From Coq Require Import Ascii String.
From Verif Require Import Base Spec FloatOps FloatLaws FloatIEEE FloatExample ModelTok ModelDict ModelCoder ModelStat ModelBuilder ModelStream ModelVGram ModelString ModelCustom
  SpecTok TokProofs SpecStat SpecBuilder EnvExample StreamRuns VGramRuns StringRuns DictProofs VGramProofs CustomProofs CustomRuns SpecStream SpecVGram SpecString SpecCustom.
Local Open Scope string_scope.
Local Open Scope list_scope.

(** C96: for any tokenizer, after an update, parsing a text gives words of the alphabet that spell the tokens of the text which
    occur in an accepted text. Only the text parsed has to be one the tokenizer can cut. *)
Theorem C96_stream : forall fl, flaws fl -> forall norm toks size N ops z s ws, chist fl norm toks (c_stream fl size) ops z ->
  cnormal fl norm toks N ops -> In TUpdate ops -> cut norm toks s ws ->
  (chandled fl norm toks ops + Z.of_nat (length ws) <= 2 ^ 48)%Z -> (Z.of_nat (length ws) <= 2 ^ 40)%Z ->
  exists pieces z' al, c_parse fl norm toks z s = Ok (pieces, z') /\ t_alphabet fl z' = Ok al /\ incl pieces al /\
    exists ks, only (cut_in norm toks (tfed fl ops)) ws ks /\ concat pieces = concat ks.
Proof. exact custom_lossless. Qed.
Print Assumptions C96_stream.

(** After a good fit on texts without an empty token, transform gives words of the alphabet separated by single spaces. *)
Theorem C96_texts : forall fl, flaws fl -> forall norm toks size N iter w texts codes tk ops al,
  c_transform_all norm toks c_new texts = Ok (codes, tk) -> ~ cut_in norm toks texts [] ->
  good_fit fl size N [] w (new_vgram fl size iter) codes ops al ->
  exists v, c_fit fl norm toks w (c_vgram fl size iter) texts = Ok v /\
  forall v1, applied fl norm toks v v1 -> forall ys, (forall y, In y ys -> (exists ws, cut norm toks y ws) /\ (width norm toks y <= 2 ^ 40)%Z) ->
  exists outs words v2, tv_alphabet fl v2 = Ok words /\ Forall2 (turned norm toks texts words) ys outs /\
    forall w', exists m, kept (w_term w') (length ys) m /\ c_apply fl norm toks w' v1 ys = Ok (firstn m outs, v2).
Proof. exact cfitted_texts. Qed.
Print Assumptions C96_texts.

(** Only the tokens count: texts, even of different tokenizers, with the same tokens are indistinguishable. *)
Theorem C96_tokens : forall fl norm norm' toks toks',
  let same s s' := exists ws, cut norm toks s ws /\ cut norm' toks' s' ws in
  (forall s s', same s s' -> forall e z, c_accept fl norm toks e z s = c_accept fl norm' toks' e z s') /\
  (forall s s', same s s' -> forall z, c_parse fl norm toks z s = c_parse fl norm' toks' z s') /\
  (forall ss ss', Forall2 same ss ss' -> forall w v, c_fit fl norm toks w v ss = c_fit fl norm' toks' w v ss') /\
  (forall ss ss', Forall2 same ss ss' -> forall w v, c_apply fl norm toks w v ss = c_apply fl norm' toks' w v ss').
Proof. exact same_calls. Qed.
Print Assumptions C96_tokens.

(** The objects of the package are the special case of its own two tokenizers. *)
Theorem C96_own : forall fl k,
  (forall e z s, tkind (ttok z) = k -> t_accept fl true e z s = c_accept fl (normalize k) (own_toks k) e z s) /\
  (forall z s, tkind (ttok z) = k -> t_parse fl true z s = c_parse fl (normalize k) (own_toks k) z s) /\
  (forall w v ss, tok_ok (tvtok v) -> tkind (tvtok v) = k -> tv_fit fl true w v ss = c_fit fl (normalize k) (own_toks k) w v ss) /\
  (forall w v ss, tok_ok (tvtok v) -> tkind (tvtok v) = k -> tv_transform fl true w v ss = c_apply fl (normalize k) (own_toks k) w v ss).
Proof. exact own_calls. Qed.
Print Assumptions C96_own.

(** When a training text has an empty token, C96_texts fails: with the tokenizer of the README, the words of "a  a" are not separated by
    single spaces, and " a" is turned into the same text as "a", without the separator its two words need. *)
Theorem C96_refuted_empty : exists texts codes tk ops al v outs v2, c_transform_all Ok by_space c_new texts = Ok (codes, tk) /\
  good_fit exf 10 10 [] (listed [0; 1]%Z 100) (new_vgram exf 10 1) codes ops al /\
  c_fit exf Ok by_space (listed [0; 1]%Z 100) (c_vgram exf 10 1) texts = Ok v /\
  c_apply exf Ok by_space (listed [] 100) v [txt "a  a"; txt " a"; txt "a"] = Ok (outs, v2) /\
  (exists out, nth_error outs 0 = Some out /\ forall words, ~ turned Ok by_space texts words (txt "a  a") out) /\
  nth_error outs 1 = nth_error outs 2 /\ cut Ok by_space (txt " a") [[]; txt "a"] /\ cut Ok by_space (txt "a") [txt "a"].
Proof.
  destruct gap_codes as [tk Et]. pose proof gap_out as H. apply bind_ok in H as (v & Hv & H). apply bind_ok in H as ([r v2] & Hr & H). injection H as ->.
  exists gap_texts, [[0; 1; 0]; [1]]%Z, tk, [feed [0; 1; 0]; feed [1]; SUpdate]%Z, [[0]; [1]]%Z, v, [txt "a  a"; txt "a"; txt "a"], v2.
  split; [exact Et|]. split; [exact pair_good|]. split; [exact Hv|]. split; [exact Hr|].
  split; [exists (txt "a  a"); split; [reflexivity|exact gap_not]|]. split; [reflexivity|]. split; eexists; (split; reflexivity).
Qed.
Print Assumptions C96_refuted_empty.

(** The tokenizer of the README: "to" and "or" are known, "not" is not. *)
Example C96_case : cnormal exf Ok by_space 10 cs_ops /\ In TUpdate cs_ops /\ cut Ok by_space (txt "or not to") [txt "or"; txt "not"; txt "to"] /\
  exists z z', chist exf Ok by_space (c_stream exf 10) cs_ops z /\ c_parse exf Ok by_space z (txt "or not to") = Ok ([txt "or"; txt "to"], z').
Proof.
  split; [exact cs_normal|]. split; [right; now left|]. split; [eexists; split; reflexivity|].
  pose proof run_cs as H. apply bind_ok in H as (z & Hz & H). apply bind_ok in H as ([p z'] & Hp & H). injection H as ->. exists z, z'.
  split; [exact (run_c_ok _ _ [] _ _ (ch_nil _ _ _ _) Hz)|exact Hp].
Qed.
Example C96_texts_case : ~ cut_in Ok by_space cs_texts [] /\ (exists codes tk ops al, c_transform_all Ok by_space c_new cs_texts = Ok (codes, tk) /\
    good_fit exf 10 10 [] (listed [0; 1]%Z 100) (new_vgram exf 10 1) codes ops al) /\
  (v <- c_fit exf Ok by_space (listed [0; 1]%Z 100) (c_vgram exf 10 1) cs_texts ;;
   '(r, _) <- c_apply exf Ok by_space (listed [] 100) v [txt "or not to"] ;; Ok r) = Ok [txt "or to"].
Proof. split; [exact cs_solid|]. split; [|exact cs_out]. destruct cs_codes as [tk E]. do 4 eexists. split; [exact E|exact pair_good]. Qed.
