(** Texts are divided into the most probable words: C92. Vocabulary: SpecTextBest.v, SpecBest.v, SpecString.v. *)
From Coq Require Import Reals Ascii String.
From Verif Require Import Base Spec FloatOps FloatLaws FloatIEEE FloatExample FloatTrueLog DictProofs ModelTok ModelDict Maps ModelCoder ModelStat ModelBuilder ModelStream ModelVGram ModelString ModelJson ModelPersist
  SpecTok TokProofs SpecStat SpecBuilder EnvExample StreamRuns VGramRuns StringRuns PersistRuns PropsKeep PropsCut PropsTextBestLemmas SpecStream SpecVGram SpecString SpecCounts SpecWeight SpecBest SpecKeep SpecTextBest.
Local Open Scope string_scope.
Local Open Scope list_scope.

(** A text stream of characters, at any time: what is known of the text is divided in the best way by the alphabet and the frequencies that the stream reports. *)
Theorem C92_stream : forall fl, flaws fl -> forall size inner z0 N ops z s al, new_tstream fl size inner false = Ok z0 -> thist fl z0 ops z -> tnormal fl N ops ->
  troomy fl CharTok size ops -> tcalm fl z0 ops -> t_alphabet fl z = Ok al -> ascii_text s -> (Z.of_nat (length s) <= 2 ^ 40)%Z ->
  (forall w, token_in CharTok [s] w -> token_in CharTok (tfed fl ops) w -> In w al) ->
  exists ids pieces r z', t_parse fl true z s = Ok (pieces, z') /\ Forall2 (word_at al) ids pieces /\ known_part (tfed fl ops) s r /\ most_probable fl (t_freqs fl z) al ids r.
Proof. exact text_best. Qed.
Print Assumptions C92_stream.
Theorem C92_stream_double : forall lg, log_ok lg -> forall size inner z0 N ops z s al, new_tstream (ieee lg) size inner false = Ok z0 -> thist (ieee lg) z0 ops z -> tnormal (ieee lg) N ops ->
  troomy (ieee lg) CharTok size ops -> tcalm (ieee lg) z0 ops -> t_alphabet (ieee lg) z = Ok al -> ascii_text s -> (Z.of_nat (length s) <= 2 ^ 40)%Z ->
  (forall w, token_in CharTok [s] w -> token_in CharTok (tfed (ieee lg) ops) w -> In w al) ->
  exists ids pieces r z', t_parse (ieee lg) true z s = Ok (pieces, z') /\ Forall2 (word_at al) ids pieces /\ known_part (tfed (ieee lg) ops) s r /\ most_probable (ieee lg) (t_freqs (ieee lg) z) al ids r.
Proof. exact (fun lg H => text_best (ieee lg) (ieee_laws lg H)). Qed.
Print Assumptions C92_stream_double.

(** A fitted text model, for every batch of texts. *)
Theorem C92_fitted : forall fl, flaws fl -> forall size N iter w texts codes tk ops al, tok_transform_all true (new_tok CharTok) texts = Ok (codes, tk) ->
  good_fit fl size N [] w (new_vgram fl size iter) codes ops al ->
  exists v, tv_fit fl true w (new_tvgram fl size iter) texts = Ok v /\
  forall v1, transformed fl v v1 -> forall ys, (forall y, In y ys -> ascii_text y /\ (Z.of_nat (length y) <= 2 ^ 40)%Z) ->
  exists outs words v2, tv_alphabet fl v2 = Ok words /\ Forall2 (best_reading fl (tv_freqs fl v2) texts words) ys outs /\
    forall w', exists m, kept (w_term w') (length ys) m /\ tv_transform fl true w' v1 ys = Ok (firstn m outs, v2).
Proof. exact text_fitted_best. Qed.
Print Assumptions C92_fitted.

(** In exact numbers, with doubles and a logarithm that is right up to 2^-46: no division of the text is more probable than the one shown by more than
    a factor close to 1. *)
Theorem C92_near : forall lg, log_ok lg -> log_close lg -> forall size N iter w texts codes tk ops al, tok_transform_all true (new_tok CharTok) texts = Ok (codes, tk) ->
  good_fit (ieee lg) size N [] w (new_vgram (ieee lg) size iter) codes ops al ->
  exists v, tv_fit (ieee lg) true w (new_tvgram (ieee lg) size iter) texts = Ok v /\
  forall v1, transformed (ieee lg) v v1 -> forall ys, (forall y, In y ys -> ascii_text y /\ (Z.of_nat (length y) <= 2 ^ 40)%Z) ->
  exists outs words v2, tv_alphabet (ieee lg) v2 = Ok words /\ Forall2 (near_best_reading (tv_freqs (ieee lg) v2) texts words) ys outs /\
    forall w', exists m, kept (w_term w') (length ys) m /\ tv_transform (ieee lg) true w' v1 ys = Ok (firstn m outs, v2).
Proof. exact text_fitted_near. Qed.
Print Assumptions C92_near.

(** The words a, ab and b, read from a file with two tables of frequencies. *)
Definition abc_file (fa fab fb : string) : text := txt ("{""alphabet"": [{""freq"": " ++ fa ++ ", ""vec"": [0], ""text"": ""a""}, {""freq"": " ++ fab ++ ", ""vec"": [0, 1], ""text"": ""ab""}, {""freq"": " ++ fb ++
  ", ""vec"": [1], ""text"": ""b""}], ""size"": 5, ""min_prob"": 1, ""coder"": [5, 8], ""freqs_computed"": true, ""fitted"": true}")%string.
Definition abc_read (file s : text) : outcome (list text) :=
  v <- load_tvgram exf {| io_show := fun _ => None; io_read := fun _ => None |} file ;; '(r, _) <- tv_transform exf true (listed [] 100) v [s] ;; Ok r.
Example C92_case : abc_read (abc_file "3" "2" "4") (txt "Ab, xa") = Ok [txt "ab a"] /\ abc_read (abc_file "60" "0" "50") (txt "Ab, xa") = Ok [txt "a b a"].
Proof. split; vm_compute; reflexivity. Qed.

(** A stream (as in C91_text_case) and a fit (as in C49_case) that meet the hypotheses, and the logarithm. *)
Example C92_hypotheses_case : (exists z0 z al, new_tstream exf 10 false false = Ok z0 /\ thist exf z0 (keep_train ++ keep_parse) z /\ tnormal exf 10 (keep_train ++ keep_parse) /\
    troomy exf CharTok 10 (keep_train ++ keep_parse) /\ tcalm exf z0 (keep_train ++ keep_parse) /\ t_alphabet exf z = Ok al /\
    (forall w, token_in CharTok [txt "Ab, xc"] w -> token_in CharTok (tfed exf (keep_train ++ keep_parse)) w -> In w al)) /\
  (exists codes tk ops al, tok_transform_all true (new_tok CharTok) pair_texts = Ok (codes, tk) /\ good_fit exf 10 10 [] (listed [0; 1]%Z 100) (new_vgram exf 10 1) codes ops al) /\
  log_ok lg_true /\ log_close lg_true.
Proof.
  split; [destruct C91_text_case as (z0 & z & al & z' & H1 & H2 & H3 & H4 & H5 & H6 & H7 & _); exists z0, z, al; repeat (split; [assumption|]); exact H7|].
  split; [|split; [exact lg_true_ok|exact lg_true_close]]. destruct pair_codes as [tk E]. do 4 eexists. split; [exact E|exact pair_good].
Qed.
