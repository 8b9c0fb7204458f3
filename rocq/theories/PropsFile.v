(** What a saved file says: C89. Vocabulary: SpecFile.v, SpecGrammar.v, SpecPersist.v. *)
From Coq Require Import Ascii String Permutation.
From Verif Require Import Base Spec FloatOps FloatLaws FloatIEEE FloatExample ModelTok ModelDict ModelCoder ModelStat ModelBuilder ModelStream ModelVGram ModelString ModelJson ModelPersist
  SpecTok TokProofs SpecStat SpecBuilder EnvExample StreamRuns VGramRuns StringRuns PersistRuns PropsVGramLemmas PropsPersistLemmas TextPersist PropsPersist PropsCounts CountsProofs FileProofs PropsOwnLemmas
  SpecJson SpecStream SpecVGram SpecString SpecPersist SpecCounts SpecSave SpecGrammar SpecFile.
Local Open Scope string_scope.
Local Open Scope list_scope.

(** An integer stream. The file is an object with four members: the requested size, the minimum probability, the symbols in the order in which they
    occur in the sequences accepted, and the v-grams. The numbers of a v-gram are positions in the list of symbols; read like this, the v-grams
    are the words of alphabet(), in the same order, and their frequencies are those of freqs(). *)
Theorem C89_stream : forall fl, flaws fl -> forall (io : float_io (F fl)) size N ops z file, shist fl (new_stream fl size) ops z -> normal fl N ops -> save_stream fl io true z = Ok file ->
  int32 size -> Forall int32 (seen fl ops) -> Forall int32 (s_freqs fl z) -> (Z.of_nat (distinct (fed fl ops)) <= 2 ^ 31)%Z -> minp_file fl io z ->
  exists al x items, s_alphabet fl z = Ok al /\ zminp z = Some x /\ model_file io file size x (firsts Z.eq_dec (seen fl ops)) items None /\
    Forall2 (stands_for (firsts Z.eq_dec (seen fl ops))) items al /\ map it_freq items = firstn (length al) (s_freqs fl z) /\ Forall (fun it => it_text it = None) items.
Proof. exact stream_file. Qed.
Print Assumptions C89_stream.
Theorem C89_double : forall lg, log_ok lg -> forall (io : float_io (F (ieee lg))) size N ops z file, shist (ieee lg) (new_stream (ieee lg) size) ops z -> normal (ieee lg) N ops ->
  save_stream (ieee lg) io true z = Ok file ->
  int32 size -> Forall int32 (seen (ieee lg) ops) -> Forall int32 (s_freqs (ieee lg) z) -> (Z.of_nat (distinct (fed (ieee lg) ops)) <= 2 ^ 31)%Z -> minp_file (ieee lg) io z ->
  exists al x items, s_alphabet (ieee lg) z = Ok al /\ zminp z = Some x /\ model_file io file size x (firsts Z.eq_dec (seen (ieee lg) ops)) items None /\
    Forall2 (stands_for (firsts Z.eq_dec (seen (ieee lg) ops))) items al /\ map it_freq items = firstn (length al) (s_freqs (ieee lg) z) /\ Forall (fun it => it_text it = None) items.
Proof. exact (fun lg H => stream_file (ieee lg) (ieee_laws lg H)). Qed.
Print Assumptions C89_double.
Example C89_case : exists io z file, shist exf (new_stream exf 10) kept_ops z /\ normal exf 10 kept_ops /\ save_stream exf io true z = Ok file /\ int32 10 /\
  Forall int32 (seen exf kept_ops) /\ Forall int32 (s_freqs exf z) /\ (Z.of_nat (distinct (fed exf kept_ops)) <= 2 ^ 31)%Z /\ minp_file exf io z.
Proof.
  destruct C51_case as (io & z & H1 & H2 & H3 & H4 & H5 & H6 & H7 & H8 & H9 & H10).
  destruct (fresh_back exf exl io 10 10 kept_ops z _ H1 H2 H3 H4 H5) as (file & z' & Hs & _); trivial; [now rewrite H6|]. exists io, z, file.
  split; [exact H1|]. split; [exact H2|]. split; [exact Hs|]. split; [exact H7|]. split; [exact H8|]. split; [exact H9|]. split; [vm_compute; discriminate|]. intros x Hx. right. now apply H10.
Qed.

Lemma run_word_file : (z0 <- new_tstream exf 10 false true ;; z <- run_t z0 word_ops ;; file <- save_tstream exf (toy minus1) true z ;; Ok (t_freqs exf z, is_minus1 (tst z))) =
  Ok ([1; 1; 1]%Z, true).
Proof. vm_compute. reflexivity. Qed.
Lemma word_normal : tnormal exf 10 word_ops.
Proof.
  split; [|split; [lia|split; [repeat constructor; cbn; lia|split; vm_compute; discriminate]]].
  intros e s [E|[E|[]]]; [|discriminate E]. injection E as <- _. exact exenv_ok.
Qed.
(** A text stream. Every v-gram has its text, the text that alphabet() shows; the numbers of a v-gram are positions in the list of the
    characters, or words, in the order in which they occur in the texts accepted. *)
Theorem C89_text : forall fl, flaws fl -> forall (io : float_io (F fl)) size inner words z0 N ops z file, new_tstream fl size inner words = Ok z0 -> thist fl z0 ops z -> tnormal fl N ops ->
  Forall chars (tmet ops) -> save_tstream fl io true z = Ok file -> int32 size -> Forall int32 (t_freqs fl z) -> minp_file fl io (tst z) -> (thandled fl ops <= 2 ^ 31)%Z ->
  exists al toks coder x items, t_alphabet fl z = Ok al /\ Forall2 (tokens_of (if words then WordTok else CharTok)) (tfed fl ops) toks /\ zminp (tst z) = Some x /\
    model_file io file size x coder items None /\ length coder = length (firsts text_dec (concat toks)) /\ NoDup coder /\
    Forall2 (fun it t => it_text it = Some t /\ exists ws, stands_for (firsts text_dec (concat toks)) it ws /\ t = concat ws) items al /\
    map it_freq items = firstn (length al) (t_freqs fl z).
Proof. exact text_file. Qed.
Print Assumptions C89_text.

Example C89_text_case : exists io z0 z file, new_tstream exf 10 false true = Ok z0 /\ thist exf z0 word_ops z /\ tnormal exf 10 word_ops /\ Forall chars (tmet word_ops) /\
  save_tstream exf io true z = Ok file /\ int32 10 /\ Forall int32 (t_freqs exf z) /\ minp_file exf io (tst z) /\ (thandled exf word_ops <= 2 ^ 31)%Z /\
  t_freqs exf z = [1; 1; 1]%Z.
Proof.
  pose proof run_word_file as H. apply DictProofs.bind_ok in H as (z0 & H0 & H). apply DictProofs.bind_ok in H as (z & H1 & H). apply DictProofs.bind_ok in H as (file & H2 & H). injection H as Hf Hm.
  exists (toy minus1), z0, z, file. split; [exact H0|]. split; [exact (run_t_ok z0 word_ops [] z0 z (tt_nil _ _) H1)|]. split; [exact word_normal|].
  split; [constructor; [apply Forall_forall; intros c Hc; repeat (destruct Hc as [<-|Hc]; [split; [apply Z.leb_le|apply Z.ltb_lt]; reflexivity|]); destruct Hc|constructor]|]. split; [exact H2|]. split; [unfold int32; lia|]. split; [rewrite Hf; repeat constructor; unfold int32; lia|].
  split; [intros x Hx; right; exact (minus1_exact _ Hm x Hx)|]. split; [vm_compute; discriminate|exact Hf].
Qed.

(** A fitted model of texts: the flags are there, and the characters are listed in the order in which the texts were drawn by fit. *)
Theorem C89_fitted : forall fl, flaws fl -> forall (io : float_io (F fl)) size N iter w texts codes tk ops al, tok_transform_all true (new_tok CharTok) texts = Ok (codes, tk) ->
  good_fit fl size N [] w (new_vgram fl size iter) codes ops al -> int32 size ->
  exists v toks, tv_fit fl true w (new_tvgram fl size iter) texts = Ok v /\ Forall2 (tokens_of CharTok) texts toks /\
  let order := firsts text_dec (concat (map (fun t => nth (Z.to_nat (w_rand w t mod Z.of_nat (length texts))) toks []) (List.seq 0 (Z.to_nat iter * length texts)))) in
  Permutation order (firsts text_dec (concat toks)) /\
  forall v1 file, transformed fl v v1 -> Forall int32 (tv_freqs fl v1) -> minp_file fl io (vs (tv v1)) -> save_tvgram fl io true v1 = Ok file ->
  exists words coder x items, tv_alphabet fl v1 = Ok words /\ zminp (vs (tv v1)) = Some x /\ model_file io file size x coder items (Some (true, true)) /\
    length coder = length order /\ NoDup coder /\
    Forall2 (fun it t => it_text it = Some t /\ exists ws, stands_for order it ws /\ t = concat ws) items words /\ map it_freq items = tv_freqs fl v1.
Proof. exact fitted_file. Qed.
Print Assumptions C89_fitted.
Example C89_fitted_case : exists codes tk ops al v io file, tok_transform_all true (new_tok CharTok) pair_texts = Ok (codes, tk) /\
  good_fit exf 10 10 [] (listed [0; 1]%Z 100) (new_vgram exf 10 1) codes ops al /\ int32 10 /\
  tv_fit exf true (listed [0; 1]%Z 100) (new_tvgram exf 10 1) pair_texts = Ok v /\ Forall int32 (tv_freqs exf v) /\ minp_file exf io (vs (tv v)) /\ save_tvgram exf io true v = Ok file.
Proof.
  destruct C52_case as (codes & tk & ops & al & v & io & H1 & H2 & H3 & H4 & H5 & H6).
  destruct (text_back exf exl io _ _ _ _ _ _ _ _ _ H1 H2 H3) as (v0 & E & Hv). rewrite H4 in E. injection E as <-.
  destruct (Hv v (tf_refl _ _) H5 H6) as (file & _ & Hs & _). exists codes, tk, ops, al, v, io, file.
  split; [exact H1|]. split; [exact H2|]. split; [exact H3|]. split; [exact H4|]. split; [exact H5|]. split; [intros x Hx; right; now apply H6|exact Hs].
Qed.

(** A fitted model of integers: the file has no flags. *)
Theorem C89_fitted_int : forall fl, flaws fl -> forall (io : float_io (F fl)) size N ops0 w v xs ops al, good_fit fl size N ops0 w v xs ops al -> int32 size -> Forall int32 (seen fl ops) ->
  exists v', fit fl w v xs = Ok (true, v') /\ (Forall int32 (s_freqs fl (vs v')) -> minp_file fl io (vs v') -> forall file, save_vgram fl io true v' = Ok file ->
    exists x items, zminp (vs v') = Some x /\ model_file io file size x (firsts Z.eq_dec (seen fl ops)) items None /\
      Forall2 (stands_for (firsts Z.eq_dec (seen fl ops))) items al /\ map it_freq items = s_freqs fl (vs v') /\ Forall (fun it => it_text it = None) items).
Proof. exact fitted_int_file. Qed.
Print Assumptions C89_fitted_int.

Example C89_fitted_int_case : exists io v file ops al, good_fit exf 10 10 [] (listed [0; 1]%Z 100) (new_vgram exf 10 1) [[1; 2; 1]; [2]]%Z ops al /\ int32 10 /\ Forall int32 (seen exf ops) /\
  fit exf (listed [0; 1]%Z 100) (new_vgram exf 10 1) [[1; 2; 1]; [2]]%Z = Ok (true, v) /\ Forall int32 (s_freqs exf (vs v)) /\ minp_file exf io (vs v) /\ save_vgram exf io true v = Ok file.
Proof.
  destruct (sight_ok _ _ _ _ _ run_plain) as (v & H1 & H2 & H3 & _). destruct (toy_exact (vs v)) as [io Hio].
  destruct (fit_saved exf exl io _ _ _ _ _ _ _ _ plain_good) as (v' & Ev & Hv); [unfold int32; lia|repeat constructor; unfold int32; lia|].
  rewrite H1 in Ev. injection Ev as <-. destruct Hv as (file & z' & A & _); [rewrite H3; repeat constructor; unfold int32; lia|exact Hio|].
  exists io, v, file. do 2 eexists. split; [exact plain_good|]. split; [unfold int32; lia|]. split; [repeat constructor; unfold int32; lia|]. split; [exact H1|].
  split; [rewrite H3; repeat constructor; unfold int32; lia|]. split; [intros x Hx; right; now apply Hio|exact A].
Qed.

(** After fit the symbols are not listed as they occur in the data: 7 was drawn before 5. *)
Definition coder_member (io : float_io (F exf)) (file : text) : outcome (json (F exf)) := j <- parse io file ;; jfield exf j (txt "coder").
Lemma run_drawn : ('(b, v) <- fit exf back (new_vgram exf 10 1) [[5; 7]; [7]]%Z ;; file <- save_vgram exf (toy minus1) true v ;; c <- coder_member (toy minus1) file ;; Ok (b, c)) =
  Ok (true, JArr [JInt 7; JInt 5]%Z).
Proof. vm_compute. reflexivity. Qed.
Theorem C89_refuted_order : exists xs v io file, fit exf back (new_vgram exf 10 1) xs = Ok (true, v) /\ save_vgram exf io true v = Ok file /\
  coder_member io file = Ok (JArr (map JInt [7; 5]%Z)) /\ firsts Z.eq_dec (concat xs) = [5; 7]%Z.
Proof.
  pose proof run_drawn as E. apply DictProofs.bind_ok in E as ([b v] & Ev & E). apply DictProofs.bind_ok in E as (file & Ef & E). apply DictProofs.bind_ok in E as (c & Ec & E).
  injection E as -> ->. exists [[5; 7]; [7]]%Z, v, (toy minus1), file. split; [exact Ev|]. split; [exact Ef|]. split; [exact Ec|reflexivity].
Qed.
Print Assumptions C89_refuted_order.
