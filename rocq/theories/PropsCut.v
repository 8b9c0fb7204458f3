(** Dividing again what has been divided: C91. Vocabulary: SpecStream.v, SpecString.v, SpecVGram.v. *)
From Coq Require Import Ascii String.
From Verif Require Import Base Spec FloatOps FloatLaws FloatIEEE FloatExample DictProofs ModelTok ModelDict Maps ModelCoder ModelStat ModelBuilder ModelStream ModelVGram ModelString
  SpecTok TokProofs SpecStat SpecBuilder EnvExample StreamRuns VGramRuns StringRuns PropsStreamLemmas PropsVGramLemmas BestRuns PropsKeep PropsCutLemmas SpecStream SpecVGram SpecString SpecCounts SpecKeep.
Local Open Scope string_scope.
Local Open Scope list_scope.

(** A stream divides s into the words ids = a ++ b. A sequence whose known symbols are spelled by a, the first of these words, is divided into exactly a. *)
Theorem C91_stream : forall fl, flaws fl -> forall size N ops z s al ids z' a b s1,
  shist fl (new_stream fl size) ops z -> normal fl N ops -> roomy fl size ops -> calm fl [] (new_stream fl size) ops ->
  s_alphabet fl z = Ok al -> covers al (restrict (seen fl ops) s) -> (Z.of_nat (length s) <= 2 ^ 40)%Z ->
  s_parse fl z s = Ok (ids, z') -> ids = a ++ b -> spells al a (restrict (seen fl ops) s1) -> s_parse fl z' s1 = Ok (a, z').
Proof. exact fresh_cut. Qed.
Print Assumptions C91_stream.

Theorem C91_loaded : forall fl, flaws fl -> forall N syms c freqs ws size mp z0, (0 <= N <= 2 ^ 40)%Z ->
  loadable fl N syms c freqs ws mp -> loaded_stream fl c freqs ws size mp = Ok z0 -> forall ops z s al ids z' a b s1,
  shist fl z0 ops z -> normal fl N ops -> roomy_loaded fl syms ws ops -> calm fl syms z0 ops ->
  s_alphabet fl z = Ok al -> covers al (restrict (syms ++ seen fl ops) s) -> (Z.of_nat (length s) <= 2 ^ 40)%Z ->
  s_parse fl z s = Ok (ids, z') -> ids = a ++ b -> spells al a (restrict (syms ++ seen fl ops) s1) -> s_parse fl z' s1 = Ok (a, z').
Proof. exact loaded_cut. Qed.
Print Assumptions C91_loaded.

(** A model after fit. *)
Theorem C91_fitted : forall fl, flaws fl -> forall size N ops0 w v xs ops al v' s, good_fit fl size N ops0 w v xs ops al -> fit fl w v xs = Ok (true, v') ->
  covers al (restrict (seen fl ops) s) -> (Z.of_nat (length s) <= 2 ^ 40)%Z ->
  exists ids, (forall w1, transform fl w1 v' [s] = Ok ([ids], v')) /\
    forall a b s1, ids = a ++ b -> spells al a (restrict (seen fl ops) s1) -> forall w1, transform fl w1 v' [s1] = Ok ([a], v').
Proof. exact fitted_cut. Qed.
Print Assumptions C91_fitted.

(** A text stream of characters. Any text with the normal form of the first pieces is divided into these pieces. *)
Theorem C91_text_stream : forall fl, flaws fl -> forall size inner z0 N ops z s al p q z', new_tstream fl size inner false = Ok z0 -> thist fl z0 ops z -> tnormal fl N ops ->
  troomy fl CharTok size ops -> tcalm fl z0 ops -> t_alphabet fl z = Ok al -> ascii_text s -> (Z.of_nat (length s) <= 2 ^ 40)%Z ->
  (forall w, token_in CharTok [s] w -> token_in CharTok (tfed fl ops) w -> In w al) -> t_parse fl true z s = Ok (p ++ q, z') ->
  forall y, ascii_text y -> normal_form y (concat p) -> exists z'', t_parse fl true z' y = Ok (p, z'').
Proof. exact text_cut. Qed.
Print Assumptions C91_text_stream.
Theorem C91_text_stream_double : forall lg, log_ok lg -> forall size inner z0 N ops z s al p q z', new_tstream (ieee lg) size inner false = Ok z0 -> thist (ieee lg) z0 ops z -> tnormal (ieee lg) N ops ->
  troomy (ieee lg) CharTok size ops -> tcalm (ieee lg) z0 ops -> t_alphabet (ieee lg) z = Ok al -> ascii_text s -> (Z.of_nat (length s) <= 2 ^ 40)%Z ->
  (forall w, token_in CharTok [s] w -> token_in CharTok (tfed (ieee lg) ops) w -> In w al) -> t_parse (ieee lg) true z s = Ok (p ++ q, z') ->
  forall y, ascii_text y -> normal_form y (concat p) -> exists z'', t_parse (ieee lg) true z' y = Ok (p, z'').
Proof. exact (fun lg H => text_cut (ieee lg) (ieee_laws lg H)). Qed.
Print Assumptions C91_text_stream_double.

(** A text model after fit. The last clause, with q empty: what transform gives is transformed into itself. *)
Theorem C91_text_fitted : forall fl, flaws fl -> forall size N iter w texts codes tk ops al, tok_transform_all true (new_tok CharTok) texts = Ok (codes, tk) ->
  good_fit fl size N [] w (new_vgram fl size iter) codes ops al ->
  exists v, tv_fit fl true w (new_tvgram fl size iter) texts = Ok v /\
  forall v1 s, transformed fl v v1 -> ascii_text s -> (Z.of_nat (length s) <= 2 ^ 40)%Z ->
  exists pieces v2, (forall w1, tv_transform fl true w1 v1 [s] = Ok ([join pieces], v2)) /\ ~ In [] pieces /\
    (forall p q y, pieces = p ++ q -> ascii_text y -> normal_form y (concat p) -> exists v3, forall w1, tv_transform fl true w1 v2 [y] = Ok ([join p], v3)) /\
    (forall p q, pieces = p ++ q -> exists v3, forall w1, tv_transform fl true w1 v2 [join p] = Ok ([join p], v3)).
Proof. exact text_fitted_again. Qed.
Print Assumptions C91_text_fitted.
Theorem C91_text_fitted_double : forall lg, log_ok lg -> forall size N iter w texts codes tk ops al, tok_transform_all true (new_tok CharTok) texts = Ok (codes, tk) ->
  good_fit (ieee lg) size N [] w (new_vgram (ieee lg) size iter) codes ops al ->
  exists v, tv_fit (ieee lg) true w (new_tvgram (ieee lg) size iter) texts = Ok v /\
  forall v1 s, transformed (ieee lg) v v1 -> ascii_text s -> (Z.of_nat (length s) <= 2 ^ 40)%Z ->
  exists pieces v2, (forall w1, tv_transform (ieee lg) true w1 v1 [s] = Ok ([join pieces], v2)) /\ ~ In [] pieces /\
    (forall p q y, pieces = p ++ q -> ascii_text y -> normal_form y (concat p) -> exists v3, forall w1, tv_transform (ieee lg) true w1 v2 [y] = Ok ([join p], v3)) /\
    (forall p q, pieces = p ++ q -> exists v3, forall w1, tv_transform (ieee lg) true w1 v2 [join p] = Ok ([join p], v3)).
Proof. exact (fun lg H => text_fitted_again (ieee lg) (ieee_laws lg H)). Qed.
Print Assumptions C91_text_fitted_double.

(** 5 8 | 5 begins with 5 8, which stays together; with other frequencies 5 | 8 | 5 begins with 5 | 8, which stays apart. *)
Definition pair_again (freqs : list Z) (s s1 : list Z) : outcome (list nat * list nat) :=
  z <- loaded_stream exf pair_coder freqs [[0]; [1]; [0; 1]]%Z 100 (flit exf 2 1000) ;; '(ids, z') <- s_parse exf z s ;; '(ids1, _) <- s_parse exf z' s1 ;; Ok (ids, ids1).
Example C91_case : pair_again [3; 2; 4]%Z [5; 8; 5]%Z [5; 77; 8]%Z = Ok ([1; 0], [1]) /\ pair_again [60; 0; 50]%Z [5; 8; 5]%Z [5; 8]%Z = Ok ([0; 2; 0], [0; 2]).
Proof. split; vm_compute; reflexivity. Qed.

(** Hypotheses: the histories of C88_hypotheses_case and C49_case, and here the text stream of C90_case. *)
Example C91_hypotheses_case : exists z s ids z', shist exf (new_stream exf 10) small_ops z /\ normal exf 10 small_ops /\ roomy exf 10 small_ops /\
  calm exf [] (new_stream exf 10) small_ops /\ s_alphabet exf z = Ok [[5]; [8]]%Z /\ covers [[5]; [8]]%Z (restrict (seen exf small_ops) s) /\ (Z.of_nat (length s) <= 2 ^ 40)%Z /\
  s_parse exf z s = Ok (ids, z') /\ (exists a b s1, a <> [] /\ b <> [] /\ ids = a ++ b /\ spells [[5]; [8]]%Z a (restrict (seen exf small_ops) s1)).
Proof.
  destruct small_case as (z & H1 & H2 & H3 & _ & H5 & _ & H7 & H8). exists z, [8; 3; 5]%Z. destruct (PropsBestLemmas.fresh_best exf exl 10 10 small_ops z [8; 3; 5]%Z _ H1 H2 H3 H7 H5 H8) as (ids & Ep & Hsp & _); [cbn; lia|].
  exists ids, z. repeat (split; [assumption|]). split; [cbn; lia|]. split; [exact Ep|].
  assert (E : restrict (seen exf small_ops) [8; 3; 5]%Z = [8; 5]%Z) by reflexivity. rewrite E in Hsp. destruct Hsp as (us & Hu & Hc).
  destruct Hu as [|i u ids us Hi Hu]; [discriminate Hc|]. 
  assert (Hw : forall j v, word_at [[5]; [8]]%Z j v -> v = [5]%Z \/ v = [8]%Z).
  { intros j v Hj. unfold word_at in Hj. destruct j as [|[|j]]; cbn in Hj; [left|right|destruct j; discriminate Hj]; congruence. }
  destruct (Hw _ _ Hi) as [-> | ->]; cbn [concat app] in Hc; [discriminate Hc|]. injection Hc as Hc. destruct Hu as [|i' u' ids' us' Hi' Hu']; [discriminate Hc|].
  exists [i], (i' :: ids'), [8]%Z. split; [discriminate|]. split; [discriminate|]. split; [reflexivity|]. exists [[8]]%Z. split; [now repeat constructor|reflexivity].
Qed.
Lemma run_cut : (z0 <- new_tstream exf 10 false false ;; z1 <- run_t z0 keep_train ;; '(_, z2) <- t_parse exf true z1 (txt "cab") ;; '(_, z) <- t_parse exf true z2 (txt "xa") ;;
  '(p, z') <- t_parse exf true z (txt "Ab, xc") ;; '(p', _) <- t_parse exf true z' (txt " a?B") ;; Ok (p, p')) = Ok ([txt "a"; txt "b"; txt "c"], [txt "a"; txt "b"]).
Proof. vm_compute. reflexivity. Qed.
Example C91_text_case : exists z0 z al z', new_tstream exf 10 false false = Ok z0 /\ thist exf z0 (keep_train ++ keep_parse) z /\ tnormal exf 10 (keep_train ++ keep_parse) /\
  troomy exf CharTok 10 (keep_train ++ keep_parse) /\ tcalm exf z0 (keep_train ++ keep_parse) /\ t_alphabet exf z = Ok al /\
  (forall w, token_in CharTok [txt "Ab, xc"] w -> token_in CharTok (tfed exf (keep_train ++ keep_parse)) w -> In w al) /\ t_parse exf true z (txt "Ab, xc") = Ok ([txt "a"; txt "b"; txt "c"], z').
Proof.
  destruct C90_case as (io & z0 & z & al & H1 & H2 & H3 & H4 & H5 & H6 & H7 & H8 & _).
  pose proof run_cut as E. apply bind_ok in E as (y0 & E0 & E). rewrite H1 in E0. injection E0 as <-. apply bind_ok in E as (z1 & E1 & E). apply bind_ok in E as ([p2 z2] & E2 & E). apply bind_ok in E as ([p3 z3] & E3 & E).
  apply bind_ok in E as ([p z'] & E4 & E). apply bind_ok in E as ([p' z''] & E5 & E). injection E as -> ->.
  pose proof (run_t_ok z0 keep_train [] z0 z1 (tt_nil _ _) E1) as G1. cbn [app] in G1.
  pose proof (tt_step exf _ _ _ (TParse (txt "cab")) _ G1 (ex_intro _ _ E2)) as G2. pose proof (tt_step exf _ _ _ (TParse (txt "xa")) _ G2 (ex_intro _ _ E3)) as G3. rewrite <- app_assoc in G3.
  change (thist exf z0 (keep_train ++ keep_parse) z3) in G3. rewrite (thist_det _ _ _ _ G3 _ H2) in E4.
  exists z0, z, al, z'. repeat (split; [assumption|]). split; [|exact E4]. intros w _ Hw. apply H7.
  destruct Hw as (s & ws & Hs & Hw). exists s, ws. split; [|exact Hw]. cbn in Hs. cbn. tauto.
Qed.
