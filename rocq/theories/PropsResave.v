(** C69 (update called again), C70 (the file of a loaded model), C71 (training a loaded model). Vocabulary: SpecStream.v, SpecVGram.v,
    SpecPersist.v, SpecResave.v. *)
From Coq Require Import Ascii String.
From Verif Require Import Base Spec FloatOps FloatLaws FloatIEEE FloatExample ModelTok ModelDict ModelCoder ModelStat ModelBuilder ModelStream ModelVGram ModelString ModelJson ModelPersist
  SpecTok TokProofs SpecStat SpecBuilder EnvExample StreamRuns VGramRuns StringRuns PersistRuns PropsStreamLemmas PropsVGramLemmas PropsPersistLemmas TextPersist ResaveProofs ResaveRuns PropsPersist
  SpecJson SpecStream SpecVGram SpecString SpecPersist SpecResave.
Local Open Scope string_scope.
Local Open Scope list_scope.

(** C69: a second update() right after the first one changes nothing. *)
Theorem C69_idempotent : forall fl z z', s_update fl z = Ok z' -> s_update fl z' = Ok z'.
Proof. exact update_twice. Qed.
Print Assumptions C69_idempotent.
(** update() replaces the dictionary object, or it leaves the whole stream as it is. *)
Theorem C69_all_or_nothing : forall fl z z', s_update fl z = Ok z' -> zdict z' = zdict z -> z' = z.
Proof. exact update_same_dict. Qed.
Print Assumptions C69_all_or_nothing.
(** Whatever is accepted after an update(), as long as the builder makes no new dictionary: freqs() stays the same and update() does
    nothing. *)
Theorem C69_stale : forall fl z z1 ops z2, s_update fl z = Ok z1 -> shist fl z1 ops z2 -> length (bheap (zb z2)) = length (bheap (zb z1)) ->
  s_update fl z2 = Ok z2 /\ s_freqs fl z2 = s_freqs fl z1 /\ zdict z2 = zdict z1.
Proof. exact stale. Qed.
Print Assumptions C69_stale.
(** So update() does not bring the frequencies up to date: three occurrences of the only symbol, counted as one. *)
Theorem C69_refuted : exists ops z, shist exf (new_stream exf 10) (ops ++ [SUpdate]) z /\ seen exf ops = [1; 1; 1]%Z /\
  s_alphabet exf z = Ok [[1]]%Z /\ s_freqs exf z = [1]%Z.
Proof.
  destruct (look_ok _ _ _ _ run_stale) as (z & H & Ha & Hf). exists [feed [1]; SUpdate; feed [1; 1]]%Z, z. split; [exact H|]. split; [reflexivity|]. now split.
Qed.
Print Assumptions C69_refuted.
Example C69_case : exists z z1 z2, shist exf (new_stream exf 10) [feed [1]]%Z z /\ s_update exf z = Ok z1 /\ shist exf z1 [feed [1; 1]]%Z z2 /\
  length (bheap (zb z2)) = length (bheap (zb z1)) /\ s_freqs exf z = [] /\ s_freqs exf z1 = [1]%Z.
Proof. exact (glance_ok _ _ _ _ _ run_glance). Qed.

(** C70: every copy of a saved stream, made by saving and loading any number of times with parses in between, gives the very same file. *)
Theorem C70_files : forall fl, flaws fl -> forall (io : float_io (F fl)) size N ops z al, shist fl (new_stream fl size) ops z -> normal fl N ops -> roomy fl size ops ->
  calm fl [] (new_stream fl size) ops -> s_alphabet fl z = Ok al -> length (s_freqs fl z) = length al ->
  int32 size -> Forall int32 (seen fl ops) -> Forall int32 (s_freqs fl z) -> minp_exact fl io z ->
  exists file, forall z', copies fl io (seen fl ops) al z z' -> save_stream fl io true z' = Ok file /\ same_stream fl z z'.
Proof. exact int_copies. Qed.
Print Assumptions C70_files.
Theorem C70_double : forall lg, log_ok lg -> forall (io : float_io (F (ieee lg))) size N ops z al, shist (ieee lg) (new_stream (ieee lg) size) ops z ->
  normal (ieee lg) N ops -> roomy (ieee lg) size ops -> calm (ieee lg) [] (new_stream (ieee lg) size) ops -> s_alphabet (ieee lg) z = Ok al ->
  length (s_freqs (ieee lg) z) = length al ->
  int32 size -> Forall int32 (seen (ieee lg) ops) -> Forall int32 (s_freqs (ieee lg) z) -> minp_exact (ieee lg) io z ->
  exists file, forall z', copies (ieee lg) io (seen (ieee lg) ops) al z z' -> save_stream (ieee lg) io true z' = Ok file /\ same_stream (ieee lg) z z'.
Proof. exact (fun lg H => int_copies (ieee lg) (ieee_laws lg H)). Qed.
Print Assumptions C70_double.
(** The same for a fitted text model, with transforms in between; all copies also have the same alphabet, frequencies and results. *)
Theorem C70_texts : forall fl, flaws fl -> forall (io : float_io (F fl)) size N iter w texts data tk ops al,
  tok_transform_all true (new_tok CharTok) texts = Ok (data, tk) ->
  good_fit fl size N [] w (new_vgram fl size iter) data ops al -> int32 size ->
  exists v, tv_fit fl true w (new_tvgram fl size iter) texts = Ok v /\
  (Forall int32 (tv_freqs fl v) -> minp_exact fl io (vs (tv v)) ->
  exists file words, forall v', text_copies fl io v v' ->
    save_tvgram fl io true v' = Ok file /\ tv_alphabet fl v' = Ok words /\ tv_freqs fl v' = tv_freqs fl v /\
    forall w' ys, (forall y, In y ys -> ascii_text y /\ (Z.of_nat (length y) <= 2 ^ 40)%Z) ->
      exists outs v1 v1', tv_transform fl true w' v ys = Ok (outs, v1) /\ tv_transform fl true w' v' ys = Ok (outs, v1')).
Proof. exact copied_text. Qed.
Print Assumptions C70_texts.
(** The hypotheses are those of C51_roundtrip and C52_roundtrip (C51_case, C52_case); a loaded copy exists. *)
Example C70_case : exists io z file z', shist exf (new_stream exf 10) kept_ops z /\ save_stream exf io true z = Ok file /\ load_stream exf io file = Ok z' /\
  copies exf io (seen exf kept_ops) [[1]; [2]]%Z z z'.
Proof.
  destruct C51_case as (io & z & H & Hn & Hr & Hc & Ha & Hf & Hs & Hsy & Hi & Hio).
  destruct (fresh_back exf exl io _ _ _ _ _ H Hn Hr Hc Ha) as (file & z' & Hx & Hl & _); try assumption; [now rewrite Hf|]. exists io, z, file, z'. split; [exact H|].
  split; [exact Hx|]. split; [exact Hl|]. exact (cp_load _ _ _ _ _ _ _ _ (cp_refl _ _ _ _ _) Hx Hl).
Qed.

(** C71: fit on a loaded model never draws a sample: its result does not depend on what rand() returns. *)
Theorem C71_no_draws : forall fl (io : float_io (F fl)) file v w w' xs, load_vgram fl io file = Ok v -> (forall k, w_term w k = w_term w' k) ->
  fit fl w v xs = fit fl w' v xs.
Proof. exact loaded_no_draws. Qed.
Print Assumptions C71_no_draws.
Theorem C71_no_draws_text : forall fl (io : float_io (F fl)) file v w w' xs, load_tvgram fl io file = Ok v -> (forall k, w_term w k = w_term w' k) ->
  tv_fit fl true w v xs = tv_fit fl true w' v xs.
Proof. exact loaded_text_no_draws. Qed.
Print Assumptions C71_no_draws_text.
(** A loaded model that is not fitted, or whose frequencies are not computed, keeps its alphabet in fit; only the frequencies are
    counted; afterwards it counts as fitted. *)
Theorem C71_alphabet_kept : forall fl, flaws fl -> forall fitted computed N syms c freqs ws size mp v w xs, (fitted && computed)%bool = false ->
  (0 <= N <= 2 ^ 40)%Z -> loadable fl N syms c freqs ws mp -> loaded_vgram fl c freqs ws size mp fitted computed = Ok v -> undisturbed fl w (length xs) ->
  (forall x, In x xs -> (forall k, In k x -> In k syms) /\ (Z.of_nat (length x) <= 2 ^ 40)%Z) ->
  exists al v', s_alphabet fl (vs v) = Ok al /\ fit fl w v xs = Ok (true, v') /\ vfitted v' = true /\ s_alphabet fl (vs v') = Ok al /\
    counts_readings al xs (s_freqs fl (vs v')) /\ weight al (s_freqs fl (vs v')) = total_symbols xs.
Proof. exact loaded_refit. Qed.
Print Assumptions C71_alphabet_kept.
(** So training cannot be resumed from a file: a model whose training was stopped in the second round goes on to learn a new letter when
    fit is called again, but its loaded copy runs out of bounds. *)
Theorem C71_refuted : exists io v file v' u w, tv_fit exf true (listed [0; 1; 0]%Z 2) (new_tvgram exf 10 2) pair_texts = Ok v /\ vfitted (tv v) = false /\
  minp_exact exf io (vs (tv v)) /\ save_tvgram exf io true v = Ok file /\ load_tvgram exf io file = Ok v' /\ vfitted (tv v') = false /\
  tv_fit exf true w v more_texts = Ok u /\ tv_alphabet exf u = Ok [txt "a"; txt "b"; txt "c"] /\
  tv_fit exf true w v' more_texts = UB OobRead.
Proof.
  pose proof run_resume as H. apply DictProofs.bind_ok in H as (v & H1 & H). apply DictProofs.bind_ok in H as (file & H2 & H). apply DictProofs.bind_ok in H as (v' & H3 & H).
  apply DictProofs.bind_ok in H as (u & H4 & H). assert (E := f_equal (fun o => match o with Ok a => Some a | _ => None end) H). clear H. cbv beta iota in E. apply some_inj in E.
  apply pair_equal_spec in E as [E E4]. apply pair_equal_spec in E as [E E3]. apply pair_equal_spec in E as [E1 E2]. apply pair_equal_spec in E2 as [E2 _]. apply pair_equal_spec in E2 as [E2 E5]. apply pair_equal_spec in E3 as [E3 _].
  exists (toy minus1), v, file, v', u, (listed [0; 1; 0; 1]%Z 100). split; [exact H1|]. split; [exact E2|]. split; [exact (minus1_exact _ E1)|].
  split; [exact H2|]. split; [exact H3|]. split; [exact E5|]. split; [exact H4|]. split; [exact E3|].
  destruct (tv_fit exf true (listed [0; 1; 0; 1]%Z 100) v' more_texts) as [a|k|e|]; try discriminate E4. destruct k; try discriminate E4. reflexivity.
Qed.
Print Assumptions C71_refuted.
Example C71_case : exists io file v, load_vgram exf io file = Ok v /\ vfitted v = false.
Proof.
  destruct C71_refuted as (io & v & file & v' & u & w & H1 & H2 & H3 & H4 & H5 & H6 & _). unfold load_tvgram in H5. apply DictProofs.bind_ok in H5 as (v0 & H5 & H7). exists io, file, v0. split; [exact H5|].
  apply DictProofs.bind_ok in H7 as (tk & _ & [= <-]). exact H6.
Qed.
Example C71_loaded_case : exists v, loadable exf 10 [5; 8]%Z (mkCoder [(8, 1); (5, 0)] [(0, 5); (1, 8)])%Z [3; 2; 0]%Z [[0]; [1]; [0; 1]]%Z (flit exf 2 1000) /\
  loaded_vgram exf (mkCoder [(8, 1); (5, 0)] [(0, 5); (1, 8)])%Z [3; 2; 0]%Z [[0]; [1]; [0; 1]]%Z 10 (flit exf 2 1000) false false = Ok v /\
  undisturbed exf (listed [] 100) 1.
Proof.
  assert (E : (match loaded_vgram exf (mkCoder [(8, 1); (5, 0)] [(0, 5); (1, 8)])%Z [3; 2; 0]%Z [[0]; [1]; [0; 1]]%Z 10 (flit exf 2 1000) false false with Ok _ => true | _ => false end) = true)
    by (vm_compute; reflexivity).
  destruct (loaded_vgram exf (mkCoder [(8, 1); (5, 0)] [(0, 5); (1, 8)])%Z [3; 2; 0]%Z [[0]; [1]; [0; 1]]%Z 10 (flit exf 2 1000) false false) as [v| | |]; try discriminate E.
  exists v. split; [exact loadable_case|]. split; [reflexivity|]. intros [|k] Hk; [reflexivity|lia].
Qed.
