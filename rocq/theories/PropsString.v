(** Properties of the text interfaces: C48-C50, C61. Vocabulary: SpecString.v, SpecVGram.v, SpecTok.v. *)
From Coq Require Import Ascii String.
From Verif Require Import Base Spec FloatOps FloatLaws FloatIEEE FloatExample ModelTok ModelDict ModelCoder ModelStat ModelBuilder ModelStream ModelVGram ModelString
  SpecTok TokProofs TokBatch SpecStat SpecBuilder EnvExample StreamRuns VGramRuns StringRuns PropsStreamLemmas PropsVGramLemmas PropsStringLemmas VGramProofs SpecStream SpecVGram SpecString.
Local Open Scope string_scope.
Local Open Scope list_scope.

(** C48: after an update, parsing an ASCII text gives words of the alphabet whose concatenation is the normalized text
    without the characters that no accepted text has. *)
Theorem C48_chars : forall fl, flaws fl -> forall size inner z0 N ops z s, new_tstream fl size inner false = Ok z0 ->
  thist fl z0 ops z -> tnormal fl N ops -> In TUpdate ops -> ascii_text s ->
  (thandled fl ops + Z.of_nat (length s) <= 2 ^ 48)%Z -> (Z.of_nat (length s) <= 2 ^ 40)%Z ->
  exists pieces z' al n r, t_parse fl true z s = Ok (pieces, z') /\ t_alphabet fl z' = Ok al /\ incl pieces al /\
    normal_form s n /\ only (fun c => exists t m, In t (tfed fl ops) /\ normal_form t m /\ In c m) n r /\ concat pieces = r.
Proof. exact text_chars. Qed.
Print Assumptions C48_chars.

(** With words as tokens: the words of the text that occur in an accepted text, without the blanks. *)
Theorem C48_words : forall fl, flaws fl -> forall size inner z0 N ops z s, new_tstream fl size inner true = Ok z0 ->
  thist fl z0 ops z -> tnormal fl N ops -> In TUpdate ops ->
  (thandled fl ops + Z.of_nat (length s) <= 2 ^ 48)%Z -> (Z.of_nat (length s) <= 2 ^ 40)%Z ->
  exists pieces z' al ks, t_parse fl true z s = Ok (pieces, z') /\ t_alphabet fl z' = Ok al /\ incl pieces al /\
    only (fun w => exists t, In t (tfed fl ops) /\ In w (tokenize WordTok t)) (tokenize WordTok s) ks /\ concat pieces = concat ks.
Proof. exact text_words. Qed.
Print Assumptions C48_words.

Theorem C48_double : forall lg, log_ok lg -> forall size inner z0 N ops z s, new_tstream (ieee lg) size inner false = Ok z0 ->
  thist (ieee lg) z0 ops z -> tnormal (ieee lg) N ops -> In TUpdate ops -> ascii_text s ->
  (thandled (ieee lg) ops + Z.of_nat (length s) <= 2 ^ 48)%Z -> (Z.of_nat (length s) <= 2 ^ 40)%Z ->
  exists pieces z' al n r, t_parse (ieee lg) true z s = Ok (pieces, z') /\ t_alphabet (ieee lg) z' = Ok al /\ incl pieces al /\
    normal_form s n /\ only (fun c => exists t m, In t (tfed (ieee lg) ops) /\ normal_form t m /\ In c m) n r /\ concat pieces = r.
Proof. exact (fun lg H => text_chars (ieee lg) (ieee_laws lg H)). Qed.
Print Assumptions C48_double.

Example C48_case : tnormal exf 10 text_ops /\ In TUpdate text_ops /\ exists z0 z z', new_tstream exf 10 false false = Ok z0 /\ thist exf z0 text_ops z /\
  t_parse exf true z (txt "A cab, x!") = Ok ([txt "a"; txt "a"; txt "b"], z').
Proof. split; [exact text_normal|]. split; [right; now left|]. exact (pieces_ok _ _ _ _ run_chars). Qed.
Example C48_words_case : exists z0 z z', new_tstream exf 10 false true = Ok z0 /\ thist exf z0 [tfeed (txt "to be or"); TUpdate] z /\
  t_parse exf true z (txt "be not to") = Ok ([txt "be"; txt "to"], z').
Proof. exact (pieces_ok _ _ _ _ run_words). Qed.

(** C49: after a fit that runs well (good_fit, on the codes of the texts), and after any further transforms, transform of ASCII texts
    gives for each text words of the alphabet separated by single spaces; without the spaces it is the normalized text without the
    characters that are not in the training texts. Interruption shortens the list only. *)
Theorem C49_chars : forall fl, flaws fl -> forall size N iter w texts codes tk ops al, tok_transform_all true (new_tok CharTok) texts = Ok (codes, tk) ->
  good_fit fl size N [] w (new_vgram fl size iter) codes ops al ->
  exists v, tv_fit fl true w (new_tvgram fl size iter) texts = Ok v /\
  forall v1, transformed fl v v1 -> forall ys, (forall y, In y ys -> ascii_text y /\ (Z.of_nat (length y) <= 2 ^ 40)%Z) ->
  exists outs words v2, tv_alphabet fl v2 = Ok words /\
    Forall2 (fun y out => exists n r pieces, normal_form y n /\ only (fun c => exists t m, In t texts /\ normal_form t m /\ In c m) n r /\
      spaced out pieces /\ incl pieces words /\ concat pieces = r /\ no_spaces out = r) ys outs /\
    forall w', exists m, kept (w_term w') (length ys) m /\ tv_transform fl true w' v1 ys = Ok (firstn m outs, v2).
Proof. exact fitted_chars. Qed.
Print Assumptions C49_chars.

(** The same for an object made with either tokenizer. *)
Theorem C49_texts : forall fl, flaws fl -> forall k size N iter w texts codes tk ops al, tok_transform_all true (new_tok k) texts = Ok (codes, tk) ->
  good_fit fl size N [] w (new_vgram fl size iter) codes ops al ->
  exists v, tv_fit fl true w (new_tvgram_with fl size iter (new_tok k)) texts = Ok v /\
  forall v1, transformed fl v v1 -> forall ys, (forall y, In y ys -> readable k y /\ (Z.of_nat (length y) <= 2 ^ 40)%Z) ->
  exists outs words v2, tv_alphabet fl v2 = Ok words /\ Forall2 (reads k texts words) ys outs /\
    forall w', exists m, kept (w_term w') (length ys) m /\ tv_transform fl true w' v1 ys = Ok (firstn m outs, v2).
Proof. exact fitted_texts. Qed.
Print Assumptions C49_texts.

Example C49_case : (exists codes tk ops al, tok_transform_all true (new_tok CharTok) pair_texts = Ok (codes, tk) /\
    good_fit exf 10 10 [] (listed [0; 1]%Z 100) (new_vgram exf 10 1) codes ops al) /\
  (v <- tv_fit exf true (listed [0; 1]%Z 100) (new_tvgram exf 10 1) pair_texts ;;
   '(r, _) <- tv_transform exf true (listed [] 100) v [txt "Bab, z"; []] ;; Ok r) = Ok [txt "b a b"; []].
Proof. split; [|exact pair_out]. destruct pair_codes as [tk E]. do 4 eexists. split; [exact E|exact pair_good]. Qed.

(** C50: only the combination of both options is rejected; otherwise a new stream hands its integer stream one number per token
    (word, or character of the normal form), the same number exactly for the same token. *)
Theorem C50_options : forall fl size inner words,
  (new_tstream fl size inner words = Throw InvalidArg <-> inner = true /\ words = true) /\
  (~ (inner = true /\ words = true) -> exists z, new_tstream fl size inner words = Ok z /\
    forall e s z', t_accept fl true e z s = Ok z' -> exists ws ids, tokens_of (if words then WordTok else CharTok) s ws /\
      s_accept fl e (new_stream fl size) ids = Ok (tst z') /\ length ws = length ids /\
      forall i j w w' x y, nth_error ws i = Some w -> nth_error ws j = Some w' -> nth_error ids i = Some x -> nth_error ids j = Some y -> (w = w' <-> x = y)).
Proof. exact options. Qed.
Print Assumptions C50_options.
(** The same for a stream over a given integer stream and tokenizer; there the options have no other effect. *)
Theorem C50_given : forall fl z t inner words,
  (tstream_of fl z t inner words = Throw InvalidArg <-> inner = true /\ words = true) /\
  (~ (inner = true /\ words = true) -> exists y, tstream_of fl z t inner words = Ok y /\ t_freqs fl y = s_freqs fl z /\
     forall e s, t_accept fl true e y s = ('(ids, tk) <- tok_transform true t s ;; z' <- s_accept fl e z ids ;; Ok (mkTStream z' tk words inner))).
Proof. exact given_options. Qed.
Print Assumptions C50_given.
Example C50_case : exists z z', new_tstream exf 10 true false = Ok z /\ t_accept exf true exenv z (txt "Ab a") = Ok z'.
Proof.
  pose proof run_option as H. destruct (new_tstream exf 10 true false) as [z| | |]; try discriminate H. cbn [bind] in H.
  destruct (t_accept exf true exenv z (txt "Ab a")) as [z'| | |] eqn:E; try discriminate H. exists z, z'. split; [reflexivity|exact E].
Qed.

(** C61: an interruption during the sampling of VGram.fit is not reported, the object returned is not fitted; when it comes before
    the end of the first round, every transform, even of no text, dereferences a null dictionary. So does transform before fit. *)
Theorem C61_unreported : forall fl, flaws fl -> forall size iter w texts N codes tk k, tok_transform_all true (new_tok CharTok) texts = Ok (codes, tk) ->
  normal fl N (sampling fl w codes (Z.to_nat iter)) -> roomy fl size (sampling fl w codes (Z.to_nat iter)) ->
  k < Z.to_nat iter * length codes -> w_term w k = true ->
  exists v, tv_fit fl true w (new_tvgram fl size iter) texts = Ok v /\ vfitted (tv v) = false /\
    (k < length texts -> forall w' ys, (forall y, In y ys -> ascii_text y) -> tv_transform fl true w' v ys = UB NullDeref).
Proof. exact interrupted_text. Qed.
Print Assumptions C61_unreported.
Theorem C61_before_fit : forall fl, flaws fl -> forall size iter w ys, (forall y, In y ys -> ascii_text y) ->
  tv_transform fl true w (new_tvgram fl size iter) ys = UB NullDeref.
Proof. exact transform_before_fit. Qed.
Print Assumptions C61_before_fit.
Example C61_case : exists codes tk, tok_transform_all true (new_tok CharTok) pair_texts = Ok (codes, tk) /\
  normal exf 10 (sampling exf (listed [0; 1]%Z 0) codes (Z.to_nat 1)) /\ roomy exf 10 (sampling exf (listed [0; 1]%Z 0) codes (Z.to_nat 1)) /\
  0 < Z.to_nat 1 * length codes /\ w_term (listed [0; 1]%Z 0) 0 = true.
Proof.
  destruct pair_codes as [tk E]. do 2 eexists. split; [exact E|]. destruct pair_good as (_ & _ & _ & _ & _ & Hn & Hr & _).
  split; [exact Hn|]. split; [exact Hr|]. split; [cbn; lia|reflexivity].
Qed.
