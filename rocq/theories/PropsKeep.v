(** Saving and loading text streams: C90. Vocabulary: SpecKeep.v, SpecString.v, SpecPersist.v. *)
From Coq Require Import Ascii String.
From Verif Require Import Base Spec FloatOps FloatLaws FloatIEEE FloatExample ModelTok ModelDict ModelCoder ModelStat ModelBuilder ModelStream ModelVGram ModelString ModelJson ModelPersist
  SpecTok TokProofs SpecStat SpecBuilder EnvExample StreamRuns VGramRuns StringRuns PersistRuns CountsProofs KeepProofs SpecStream SpecVGram SpecString SpecPersist SpecCounts SpecSave SpecKeep.
Local Open Scope string_scope.
Local Open Scope list_scope.

(** A text stream of characters, trained and updated in [a], has met in [a] only characters that are words of its alphabet; in [b] texts may be
    parsed that have other characters. With a complete frequency table it is saved, and the stream loaded from the file has the same alphabet,
    frequencies, size and minimum probability, and divides every text in the same way, in every series of calls. *)
Theorem C90_roundtrip : forall fl, flaws fl -> forall (io : float_io (F fl)) size inner z0 N a b z al, let ops := a ++ b in
  new_tstream fl size inner false = Ok z0 -> thist fl z0 ops z -> tnormal fl N ops -> troomy fl CharTok size ops -> tcalm fl z0 ops ->
  t_alphabet fl z = Ok al -> (forall w, token_in CharTok (tmet a) w -> In w al) -> (forall w, token_in CharTok (tfed fl b) w -> token_in CharTok (tmet a) w) ->
  length (t_freqs fl z) = length al -> int32 size -> Forall int32 (t_freqs fl z) -> minp_exact fl io (tst z) ->
  exists file z', save_tstream fl io true z = Ok file /\ load_tstream fl io file = Ok z' /\
    t_alphabet fl z' = Ok al /\ t_freqs fl z' = t_freqs fl z /\ zsize (tst z') = zsize (tst z) /\ zminp (tst z') = zminp (tst z) /\
    forall ys, (forall y, In y ys -> ascii_text y /\ (Z.of_nat (length y) <= 2 ^ 40)%Z) ->
      exists outs, tparses fl z ys = Ok outs /\ tparses fl z' ys = Ok outs.
Proof. exact text_stream_back. Qed.
Print Assumptions C90_roundtrip.
Theorem C90_double : forall lg, log_ok lg -> forall (io : float_io (F (ieee lg))) size inner z0 N a b z al, let ops := a ++ b in
  new_tstream (ieee lg) size inner false = Ok z0 -> thist (ieee lg) z0 ops z -> tnormal (ieee lg) N ops -> troomy (ieee lg) CharTok size ops -> tcalm (ieee lg) z0 ops ->
  t_alphabet (ieee lg) z = Ok al -> (forall w, token_in CharTok (tmet a) w -> In w al) -> (forall w, token_in CharTok (tfed (ieee lg) b) w -> token_in CharTok (tmet a) w) ->
  length (t_freqs (ieee lg) z) = length al -> int32 size -> Forall int32 (t_freqs (ieee lg) z) -> minp_exact (ieee lg) io (tst z) ->
  exists file z', save_tstream (ieee lg) io true z = Ok file /\ load_tstream (ieee lg) io file = Ok z' /\
    t_alphabet (ieee lg) z' = Ok al /\ t_freqs (ieee lg) z' = t_freqs (ieee lg) z /\ zsize (tst z') = zsize (tst z) /\ zminp (tst z') = zminp (tst z) /\
    forall ys, (forall y, In y ys -> ascii_text y /\ (Z.of_nat (length y) <= 2 ^ 40)%Z) ->
      exists outs, tparses (ieee lg) z ys = Ok outs /\ tparses (ieee lg) z' ys = Ok outs.
Proof. exact (fun lg H => text_stream_back (ieee lg) (ieee_laws lg H)). Qed.
Print Assumptions C90_double.

(** Two texts, an update, a text with known characters and one with an unknown one. *)
Definition keep_train : list (top exf) := [tfeed (txt "Abba, c"); tfeed (txt "b!"); TUpdate].
Definition keep_parse : list (top exf) := [TParse (txt "cab"); TParse (txt "xa")].
Lemma run_keep : (z0 <- new_tstream exf 10 false false ;; z1 <- run_t z0 keep_train ;; al1 <- t_alphabet exf z1 ;; '(_, z2) <- t_parse exf true z1 (txt "cab") ;; al2 <- t_alphabet exf z2 ;;
  '(_, z) <- t_parse exf true z2 (txt "xa") ;; al <- t_alphabet exf z ;; Ok (al1, al2, al, t_freqs exf z, is_minus1 (tst z))) =
  Ok ([txt "a"; txt "b"; txt "c"], [txt "a"; txt "b"; txt "c"], [txt "a"; txt "b"; txt "c"], [2; 3; 1]%Z, true).
Proof. vm_compute. reflexivity. Qed.
Lemma keep_ascii s : In s [txt "Abba, c"; txt "b!"; txt "cab"; txt "xa"] -> ascii_text s.
Proof. intros Hs. repeat (destruct Hs as [<-|Hs]; [intros c Hc; repeat (destruct Hc as [<-|Hc]; [split; [apply Z.leb_le|apply Z.ltb_lt]; reflexivity|]); destruct Hc|]). destruct Hs. Qed.
Lemma keep_tokens s ws : In s [txt "Abba, c"; txt "b!"; txt "cab"] -> tokens_of CharTok s ws -> forall w, In w ws -> In w [txt "a"; txt "b"; txt "c"].
Proof.
  intros Hs Hw w Hi. assert (Ha : ascii_text s) by (apply keep_ascii; cbn in *; tauto). destruct Hs as [<-|[<-|[<-|[]]]].
  - rewrite (CountsProofs.char_tokens _ (txt "abbac") ws Ha eq_refl Hw) in Hi. cbn in Hi. cbn. intuition subst; auto.
  - rewrite (CountsProofs.char_tokens _ (txt "b") ws Ha eq_refl Hw) in Hi. cbn in Hi. cbn. intuition subst; auto.
  - rewrite (CountsProofs.char_tokens _ (txt "cab") ws Ha eq_refl Hw) in Hi. cbn in Hi. cbn. intuition subst; auto.
Qed.
Lemma thist_det fl z0 ops z1 : thist fl z0 ops z1 -> forall z2, thist fl z0 ops z2 -> z1 = z2.
Proof.
  induction 1 as [|ops z op z' H IH Hs]; intros z2 H2; [inversion H2 as [|ops' ? ? ? ? ? E]; [reflexivity|destruct ops'; discriminate E]|].
  inversion H2 as [E|ops' y op' y' H3 Hs' E]; [destruct ops; discriminate E|]. apply app_inj_tail in E as [-> ->]. rewrite <- (IH _ H3) in Hs'. destruct op; cbn [tstep] in *; [congruence| |congruence].
  destruct Hs as (p & Hs), Hs' as (p' & Hs'). congruence.
Qed.
Example C90_case : exists io z0 z al, new_tstream exf 10 false false = Ok z0 /\ thist exf z0 (keep_train ++ keep_parse) z /\ tnormal exf 10 (keep_train ++ keep_parse) /\
  troomy exf CharTok 10 (keep_train ++ keep_parse) /\ tcalm exf z0 (keep_train ++ keep_parse) /\ t_alphabet exf z = Ok al /\
  (forall w, token_in CharTok (tmet keep_train) w -> In w al) /\ (forall w, token_in CharTok (tfed exf keep_parse) w -> token_in CharTok (tmet keep_train) w) /\
  length (t_freqs exf z) = length al /\ int32 10 /\ Forall int32 (t_freqs exf z) /\ minp_exact exf io (tst z).
Proof.
  pose proof run_keep as E. apply DictProofs.bind_ok in E as (z0 & E0 & E). apply DictProofs.bind_ok in E as (z1 & E1 & E). apply DictProofs.bind_ok in E as (al1 & Ea1 & E).
  apply DictProofs.bind_ok in E as ([p2 z2] & E2 & E). apply DictProofs.bind_ok in E as (al2 & Ea2 & E). apply DictProofs.bind_ok in E as ([p3 z] & E3 & E). apply DictProofs.bind_ok in E as (al & Ea & E).
  injection E as -> -> -> Ef Em.
  pose proof (run_t_ok z0 keep_train [] z0 z1 (tt_nil _ _) E1) as H1. cbn [app] in H1.
  pose proof (tt_step exf _ _ _ (TParse (txt "cab")) _ H1 (ex_intro _ _ E2)) as H2. pose proof (tt_step exf _ _ _ (TParse (txt "xa")) _ H2 (ex_intro _ _ E3)) as H3. rewrite <- app_assoc in H3.
  change (thist exf z0 (keep_train ++ keep_parse) z) in H3.
  assert (He : forall e s, In (TAccept e s) (keep_train ++ keep_parse) -> e = exenv) by (intros e s [X|[X|[X|[X|[X|[]]]]]]; first [discriminate X | now injection X]).
  exists (toy minus1), z0, z, [txt "a"; txt "b"; txt "c"]. split; [exact E0|]. split; [exact H3|].
  split; [split; [intros e s Hi; rewrite (He e s Hi); exact exenv_ok|split; [lia|split; [repeat constructor; cbn; lia|split; vm_compute; discriminate]]]|].
  split.
  { split; [intros e s Hi; rewrite (He e s Hi); exact exenv_draws|]. split; [lia|]. exists [txt "a"; txt "b"; txt "c"]. split; [cbn; lia|].
    intros w (s & ws & Hs & Hw & Hi). apply (keep_tokens s ws); [|exact Hw|exact Hi]. cbn in Hs. cbn. tauto. }
  split.
  { assert (K : forall y, token_in CharTok (tfed exf keep_train) y -> In y [txt "a"; txt "b"; txt "c"]) by (intros y (s & ws & Hs & Hw & Hi); apply (keep_tokens s ws); [|exact Hw|exact Hi]; cbn in Hs; cbn; tauto).
    intros a s b y al X Hy Hal w _ Hw. destruct a as [|x1 a]; [discriminate X|]. destruct a as [|x2 a]; [discriminate X|]. destruct a as [|x3 a]; [discriminate X|]. injection X as <- <- <- X.
    destruct a as [|x4 a].
    - rewrite (thist_det _ _ _ _ Hy _ H1), Ea1 in Hal. injection Hal as <-. exact (K w Hw).
    - injection X as <- X. destruct a as [|x5 a]; [|destruct a; discriminate X]. rewrite (thist_det _ _ _ _ Hy _ H2), Ea2 in Hal. injection Hal as <-. exact (K w Hw). }
  split; [exact Ea|]. split; [intros w (s & ws & Hs & Hw & Hi); apply (keep_tokens s ws); [|exact Hw|exact Hi]; cbn in Hs; cbn; tauto|].
  split; [intros w (s & ws & [] & _)|]. split; [now rewrite Ef|]. split; [unfold int32; lia|]. split; [rewrite Ef; repeat constructor; unfold int32; lia|exact (minus1_exact _ Em)].
Qed.
