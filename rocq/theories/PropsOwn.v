(** Text objects and integer objects on numbered tokens: C86. Vocabulary: SpecOwn.v, SpecString.v, SpecExtra.v. *)
From Coq Require Import Ascii String.
From Verif Require Import Base Spec FloatOps FloatExample ModelTok ModelDict ModelCoder ModelStat ModelBuilder ModelStream ModelVGram ModelString
  SpecTok SpecStat SpecBuilder EnvExample StreamRuns VGramRuns StringRuns OwnProofs PropsOwnLemmas SpecStream SpecVGram SpecExtra SpecString SpecOwn.
Local Open Scope string_scope.
Local Open Scope list_scope.

(** C86: beside a StringVGram there is, after the same calls with the tokens numbered in any one-to-one way, an IntVGram with the
    same frequencies, the same words, the same outcome of fit, and the same division of every text into words. *)
Theorem C86_vgram : forall k num, numbering k num -> forall fl size iter cs v calls,
  tvlife fl (new_tvgram_with fl size iter (new_tok k)) cs v -> Forall2 (own_call fl k num) cs calls ->
  exists v', vlife fl (new_vgram fl size iter) calls v' /\ tv_freqs fl v = s_freqs fl (vs v') /\ vfitted (tv v) = vfitted v' /\
    alike (same_words num) (tv_alphabet fl v) (s_alphabet fl (vs v')) /\
    (forall w xs qs, Forall (readable k) xs -> Forall2 (numbers k num) xs qs ->
       alike (fun a b => vfitted (tv a) = vfitted (snd b) /\ tv_freqs fl a = s_freqs fl (vs (snd b)) /\
         alike (same_words num) (tv_alphabet fl a) (s_alphabet fl (vs (snd b)))) (tv_fit fl true w v xs) (fit fl w v' qs)) /\
    (forall w xs qs r v1, Forall2 (numbers k num) xs qs -> tv_transform fl true w v xs = Ok (r, v1) ->
       exists r' v1' al, transform fl w v' qs = Ok (r', v1') /\ s_alphabet fl (vs v1') = Ok al /\
         (~ In [] al -> Forall2 (fun ids out => exists pieces, texts_at num al ids pieces /\ spaced out pieces) r' r)).
Proof. exact own_vgram. Qed.
Print Assumptions C86_vgram.

(** The same for the streams. *)
Theorem C86_stream : forall fl size inner words num, numbering (if words : bool then WordTok else CharTok) num ->
  forall z0 ops z iops, new_tstream fl size inner words = Ok z0 -> thist fl z0 ops z -> Forall2 (own_op fl (if words then WordTok else CharTok) num) ops iops ->
  exists z', shist fl (new_stream fl size) iops z' /\ t_freqs fl z = s_freqs fl z' /\ alike (same_words num) (t_alphabet fl z) (s_alphabet fl z') /\
    (forall e s q, readable (if words then WordTok else CharTok) s -> numbers (if words then WordTok else CharTok) num s q ->
       alike (fun _ _ => True) (t_accept fl true e z s) (s_accept fl e z' q)) /\
    alike (fun _ _ => True) (t_update fl z) (s_update fl z') /\
    (forall s q pieces z1, numbers (if words then WordTok else CharTok) num s q -> t_parse fl true z s = Ok (pieces, z1) ->
       exists ids z1', s_parse fl z' q = Ok (ids, z1') /\ forall al, s_alphabet fl z1' = Ok al -> texts_at num al ids pieces).
Proof. exact own_stream. Qed.
Print Assumptions C86_stream.

(** Texts with the same tokens (that differ in case and punctuation only) can be exchanged for each other. *)
Theorem C86_same_tokens : forall fl k size iter cs v w xs xs', tvlife fl (new_tvgram_with fl size iter (new_tok k)) cs v ->
  Forall2 (fun s s' => readable k s /\ readable k s' /\ exists ws, tokens_of k s ws /\ tokens_of k s' ws) xs xs' ->
  tv_fit fl true w v xs = tv_fit fl true w v xs' /\ tv_transform fl true w v xs = tv_transform fl true w v xs'.
Proof. exact same_tokens. Qed.
Print Assumptions C86_same_tokens.

(** But the numbers that transform returns are indices of words, not numbers of tokens: decoding them with the tokenizer, as the
    example of the README does, gives another text even when every word is a single character. *)
Theorem C86_refuted_decode : exists codes tk v b ids v', tok_transform_all true (new_tok CharTok) pair_texts = Ok (codes, tk) /\
  fit exf back (new_vgram exf 10 1) codes = Ok (b, v) /\ transform exf (listed [] 100) v codes = Ok (ids, v') /\
  tok_decode_all tk codes = [txt "aba"; txt "b"] /\ tok_decode_all tk (map (map Z.of_nat) ids) = [txt "bab"; txt "a"].
Proof. exact readme_decode. Qed.
Print Assumptions C86_refuted_decode.

(** The characters numbered downwards from 1000; a fit and a transform with texts and with numbers. *)
Example C86_case : numbering CharTok down /\ exists v v', tvlife exf (new_tvgram_with exf 10 1 (new_tok CharTok)) [TFit back pair_texts] v /\
  Forall2 (own_call exf CharTok down) [TFit back pair_texts] [VFit back [[903; 902; 903]; [902]]]%Z /\
  vlife exf (new_vgram exf 10 1) [VFit back [[903; 902; 903]; [902]]]%Z v' /\
  tv_alphabet exf v = Ok [txt "b"; txt "a"] /\ s_alphabet exf (vs v') = Ok [[902]; [903]]%Z /\
  tv_freqs exf v = [2; 2]%Z /\ s_freqs exf (vs v') = [2; 2]%Z /\
  (exists v1, tv_transform exf true (listed [] 100) v [txt "Bab, z"] = Ok ([txt "b a b"], v1)) /\
  exists v1', transform exf (listed [] 100) v' [[902; 903; 902; 878]]%Z = Ok ([[0; 1; 0]], v1').
Proof. split; [exact down_numbering|exact own_case]. Qed.
Example C86_stream_case : exists z0 z l z', new_tstream exf 10 false false = Ok z0 /\ thist exf z0 [tfeed (txt "Aba"); TUpdate] z /\
  Forall2 (own_op exf CharTok down) [tfeed (txt "Aba"); TUpdate] [SAccept exenv [903; 902; 903]; SUpdate]%Z /\ t_parse exf true z (txt "Bab, z") = Ok (l, z').
Proof. exact own_stream_case. Qed.
Example C86_same_case : Forall2 (fun s s' => readable CharTok s /\ readable CharTok s' /\ exists ws, tokens_of CharTok s ws /\ tokens_of CharTok s' ws)
  [txt "Aba, "] [txt "a-bA"].
Proof. exact same_case. Qed.
