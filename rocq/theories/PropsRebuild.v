(** C76-C78: how seldom a stream rebuilds its dictionary, and what a file of an early state does. Vocabulary: SpecStream.v, SpecVGram.v, SpecRebuild.v.
    [rlaws fl L thr] (FloatRebuild.v): on these floats a rebuild needs at least [thr] words; [rm] is a set of minimum probabilities that
    contains 0.002. For doubles [thr] is 1152 and [rm] holds of every value from 2^-300 to 0.002000001, if std::log is right about 0.1. *)
From Coq Require Import Reals Lra.
From Flocq Require Import Core BinarySingleNaN.
From Verif Require Import Base Spec FloatOps FloatLaws FloatIEEE FloatExample FloatRebuild ModelDict ModelCoder ModelStat ModelBuilder ModelStream ModelVGram ModelJson ModelPersist
  SpecStat SpecBuilder EnvExample BuilderRuns StreamRuns VGramRuns ExtraRuns StringRuns RebuildRuns PropsStreamLemmas PropsRebuildLemmas SpecPersist SpecStream SpecVGram SpecRebuild.
Local Close Scope R_scope.
Local Open Scope nat_scope.

(** C76: a new stream rebuilds its dictionary at most once for every [thr] symbols it accepts. *)
Theorem C76_rebuilds : forall fl L thr (Rl : rlaws fl L thr) size N ops n z, rebuilt fl (new_stream fl size) ops n z -> normal fl N ops ->
  (thr * Z.of_nat n <= Z.of_nat (length (seen fl ops)))%Z.
Proof. exact fresh_count. Qed.
Print Assumptions C76_rebuilds.
(** A word of more than 2^k symbols takes at least (2k + 1) * [thr] symbols of training. *)
Theorem C76_long_words : forall fl L thr (Rl : rlaws fl L thr) size N ops z al w k, shist fl (new_stream fl size) ops z -> normal fl N ops ->
  s_alphabet fl z = Ok al -> In w al -> 2 ^ k < length w -> (thr * (2 * Z.of_nat k + 1) <= Z.of_nat (length (seen fl ops)))%Z.
Proof. exact fresh_length. Qed.
Print Assumptions C76_long_words.
(** The same for fit: at most iter * (number of sequences) * (longest sequence) symbols are accepted. *)
Theorem C76_fit : forall fl L thr (Rl : rlaws fl L thr) size N w iter xs ops al M v', good_fit fl size N [] w (new_vgram fl size iter) xs ops al ->
  (forall x : seq, In x xs -> (Z.of_nat (length x) <= M)%Z) -> (0 <= M)%Z -> fit fl w (new_vgram fl size iter) xs = Ok (true, v') ->
  s_alphabet fl (vs v') = Ok al /\ forall u k, In u al -> 2 ^ k < length u -> (thr * (2 * Z.of_nat k + 1) <= iter * Z.of_nat (length xs) * M)%Z.
Proof. exact fit_length. Qed.
Print Assumptions C76_fit.
Theorem C76_loaded : forall fl L thr (Rl : rlaws fl L thr) N syms c freqs ws size mp z0, (0 <= N <= 2 ^ 40)%Z -> loadable fl N syms c freqs ws mp ->
  loaded_stream fl c freqs ws size mp = Ok z0 -> forall ops n z, rm fl L thr Rl mp -> rebuilt fl z0 ops n z -> normal fl N ops ->
  (thr * Z.of_nat n <= Z.of_nat (length (seen fl ops)))%Z.
Proof. exact loaded_count. Qed.
Print Assumptions C76_loaded.
Theorem C76_double : forall lg, log_ok lg -> log_tenth lg -> forall size N ops n z, rebuilt (ieee lg) (new_stream (ieee lg) size) ops n z -> normal (ieee lg) N ops ->
  (1152 * Z.of_nat n <= Z.of_nat (length (seen (ieee lg) ops)))%Z.
Proof. exact (fun lg H T => fresh_count (ieee lg) (ieee_laws lg H) 1152 (ieee_rlaws lg H T)). Qed.
Print Assumptions C76_double.
Theorem C76_double_words : forall lg, log_ok lg -> log_tenth lg -> forall size N ops z al w, shist (ieee lg) (new_stream (ieee lg) size) ops z -> normal (ieee lg) N ops ->
  s_alphabet (ieee lg) z = Ok al -> In w al -> (Z.of_nat (length (seen (ieee lg) ops)) < 1152)%Z -> length w <= 1.
Proof.
  intros lg H T size N ops z al w Hs Hn Ha Hw Hl. destruct (Nat.le_gt_cases (length w) 1) as [Hc|Hc]; [exact Hc|exfalso].
  pose proof (fresh_length (ieee lg) (ieee_laws lg H) 1152 (ieee_rlaws lg H T) size N ops z al w 0 Hs Hn Ha Hw Hc). lia.
Qed.
Print Assumptions C76_double_words.
(** 2380 symbols, one rebuild, words of two symbols; a fit that meets the hypotheses. *)
Example C76_case : (exists z, rebuilt exf (new_stream exf 100) saved_ops 1 z /\ normal exf 2380 saved_ops /\ s_alphabet exf z = Ok [[5]; [5; 8]; [8]; [8; 5]]%Z /\
    length (seen exf saved_ops) = 2380) /\
  (exists al, good_fit exf 10 10 [] (listed [0; 1]%Z 100) (new_vgram exf 10 1) [[0; 1; 0]; [1]]%Z [feed [0; 1; 0]; feed [1]; SUpdate]%Z al).
Proof.
  split; [|eexists; exact pair_good].
  destruct (hazard_ok _ _ _ _ _ _ run_hazard) as (io & z & file & z' & u & u' & H & Ha & Hf & Hh & _). exists z.
  destruct (rebuilt_exists exf _ _ _ H) as [n Hr]. pose proof (rebuilt_heap exf _ _ _ _ Hr) as E. rewrite Hh in E. cbn [new_stream zb new_builder bheap length] in E.
  assert (n = 1) by lia. subst n. split; [exact Hr|]. split; [exact saved_normal|]. split; [exact Ha|reflexivity].
Qed.

(** C77: what a new stream gets as minimum probability when it is updated (save writes it into the file): -1 before the second rebuild,
    a usable one after it. *)
Theorem C77_saved : forall fl L thr (Rl : rlaws fl L thr) size N ops n z z', rebuilt fl (new_stream fl size) ops n z -> normal fl N ops -> s_update fl z = Ok z' ->
  exists m, zminp z' = Some m /\ (n < 2 -> m = fofZ fl (-1)) /\ (2 <= n -> rm fl L thr Rl m).
Proof. exact fresh_saved_minp. Qed.
Print Assumptions C77_saved.
Theorem C77_early : forall fl L thr (Rl : rlaws fl L thr) size N ops z z', shist fl (new_stream fl size) ops z -> normal fl N ops ->
  (Z.of_nat (length (seen fl ops)) < 2 * thr)%Z -> s_update fl z = Ok z' -> zminp z' = Some (fofZ fl (-1)).
Proof. exact fresh_early_minp. Qed.
Print Assumptions C77_early.
(** A stream loaded with -1 rebuilds its dictionary at every accept, even of nothing. *)
Theorem C77_every_accept : forall fl L thr (Rl : rlaws fl L thr) N syms c freqs ws size mp z0, (0 <= N <= 2 ^ 40)%Z -> loadable fl N syms c freqs ws mp ->
  loaded_stream fl c freqs ws size mp = Ok z0 -> forall ops z e s z', mp = fofZ fl (-1) -> shist fl z0 ops z -> normal fl N (ops ++ [SAccept e s]) ->
  s_accept fl e z s = Ok z' -> updated fl (zb z) (zb z') /\ bpop (zb z') = negb (bpop (zb z)).
Proof. exact loaded_always. Qed.
Print Assumptions C77_every_accept.
(** Two accepts, whatever is accepted, and an update: only words of one symbol are left. *)
Theorem C77_broken : forall fl L thr (Rl : rlaws fl L thr) N syms c freqs ws size mp z0, (0 <= N <= 2 ^ 40)%Z -> loadable fl N syms c freqs ws mp ->
  loaded_stream fl c freqs ws size mp = Ok z0 -> forall ops z z' al, mp = fofZ fl (-1) -> shist fl z0 ops z -> 2 <= length (fed fl ops) ->
  normal fl N (ops ++ [SUpdate]) -> roomy_loaded fl syms ws ops -> s_update fl z = Ok z' -> s_alphabet fl z' = Ok al ->
  Forall (fun w : seq => length w = 1) al.
Proof. exact loaded_broken. Qed.
Print Assumptions C77_broken.
(** A stream loaded with a usable minimum probability has one after every update, and it keeps the words of the file until it has
    accepted 2 * [thr] symbols. *)
Theorem C77_stays : forall fl L thr (Rl : rlaws fl L thr) N syms c freqs ws size mp z0, (0 <= N <= 2 ^ 40)%Z -> loadable fl N syms c freqs ws mp ->
  loaded_stream fl c freqs ws size mp = Ok z0 -> forall ops z z', rm fl L thr Rl mp -> shist fl z0 ops z -> normal fl N ops -> s_update fl z = Ok z' ->
  exists m, zminp z' = Some m /\ rm fl L thr Rl m.
Proof. exact loaded_saved_minp. Qed.
Print Assumptions C77_stays.
Theorem C77_kept : forall fl L thr (Rl : rlaws fl L thr) N syms c freqs ws size mp z0, (0 <= N <= 2 ^ 40)%Z -> loadable fl N syms c freqs ws mp ->
  loaded_stream fl c freqs ws size mp = Ok z0 -> forall ops z al0 al, rm fl L thr Rl mp -> shist fl z0 ops z -> normal fl N ops ->
  (Z.of_nat (length (seen fl ops)) < 2 * thr)%Z -> s_alphabet fl z0 = Ok al0 -> s_alphabet fl z = Ok al -> incl al0 al.
Proof. exact loaded_kept. Qed.
Print Assumptions C77_kept.
Theorem C77_double : forall lg, log_ok lg -> log_tenth lg -> forall N syms c freqs ws size mp z0, (0 <= N <= 2 ^ 40)%Z -> loadable (ieee lg) N syms c freqs ws mp ->
  loaded_stream (ieee lg) c freqs ws size mp = Ok z0 -> forall ops z al0 al, is_finite mp = true -> (bpow radix2 (-300) <= B2R mp <= 2000001 / 1000000000)%R ->
  shist (ieee lg) z0 ops z -> normal (ieee lg) N ops -> (Z.of_nat (length (seen (ieee lg) ops)) < 2304)%Z -> s_alphabet (ieee lg) z0 = Ok al0 ->
  s_alphabet (ieee lg) z = Ok al -> incl al0 al.
Proof.
  intros lg H T N syms c freqs ws size mp z0 HN HL E0 ops z al0 al Hf Hb.
  exact (loaded_kept (ieee lg) (ieee_laws lg H) 1152 (ieee_rlaws lg H T) N syms c freqs ws size mp z0 HN HL E0 ops z al0 al (conj Hf Hb)).
Qed.
Print Assumptions C77_double.
Theorem C77_double_broken : forall lg, log_ok lg -> log_tenth lg -> forall N syms c freqs ws size z0, (0 <= N <= 2 ^ 40)%Z ->
  loadable (ieee lg) N syms c freqs ws (fofZ (ieee lg) (-1)) -> loaded_stream (ieee lg) c freqs ws size (fofZ (ieee lg) (-1)) = Ok z0 ->
  forall ops z z' al, shist (ieee lg) z0 ops z -> 2 <= length (fed (ieee lg) ops) -> normal (ieee lg) N (ops ++ [SUpdate]) -> roomy_loaded (ieee lg) syms ws ops ->
  s_update (ieee lg) z = Ok z' -> s_alphabet (ieee lg) z' = Ok al -> Forall (fun w : seq => length w = 1) al.
Proof.
  intros lg H T N syms c freqs ws size z0 HN HL E0 ops z z' al.
  exact (loaded_broken (ieee lg) (ieee_laws lg H) 1152 (ieee_rlaws lg H T) N syms c freqs ws size _ z0 HN HL E0 ops z z' al eq_refl).
Qed.
Print Assumptions C77_double_broken.
(** So a saved and loaded stream does not train as the stream itself does: here both accept nothing, twice, and are updated; the stream
    keeps its alphabet, the loaded one loses its words of two symbols. *)
Theorem C77_refuted : exists io z file z' u u', shist exf (new_stream exf 100) saved_ops z /\ s_alphabet exf z = Ok [[5]; [5; 8]; [8]; [8; 5]]%Z /\
  minp_exact exf io z /\ save_stream exf io true z = Ok file /\ load_stream exf io file = Ok z' /\ s_alphabet exf z' = s_alphabet exf z /\
  shist exf z idle_ops u /\ s_alphabet exf u = s_alphabet exf z /\ shist exf z' idle_ops u' /\ s_alphabet exf u' = Ok [[5]; [8]]%Z.
Proof.
  destruct (hazard_ok _ _ _ _ _ _ run_hazard) as (io & z & file & z' & u & u' & H & Ha & Hf & Hh & Hio & Hs & Hl & Ha' & Hu & Hau & Hu' & Hau').
  exists io, z, file, z', u, u'. rewrite Ha. do 9 (split; [first [reflexivity|assumption]|]). exact Hau'.
Qed.
Print Assumptions C77_refuted.
Example C77_case : (exists z, rebuilt exf (new_stream exf 100) saved_ops 1 z) /\
  loadable exf 10 [5; 8]%Z twice_coder [3; 2; 0]%Z [[0]; [1]; [0; 1]]%Z (fofZ exf (-1)) /\
  normal exf 10 ([feed []; feed []] ++ [SUpdate]) /\ roomy_loaded exf [5; 8]%Z [[0]; [1]; [0; 1]]%Z [feed []; feed []] /\
  loadable exf 10 [5; 8]%Z twice_coder [3; 2; 0]%Z [[0]; [1]; [0; 1]]%Z (flit exf 2 1000) /\ rm exf exl 1152 exr (flit exf 2 1000).
Proof.
  split; [destruct C76_case as [(z & H & _) _]; now exists z|]. split; [exact idle_file|]. split; [exact (proj1 idle_normal)|]. split; [exact (proj2 idle_normal)|].
  split; [exact loadable_case|exact (rm_start _ _ _ exr)].
Qed.

(** C78: accepting nothing changes nothing. *)
Theorem C78_nothing : forall fl L thr (Rl : rlaws fl L thr) size N ops z e, shist fl (new_stream fl size) ops z -> normal fl N ops -> s_accept fl e z [] = Ok z.
Proof. exact fresh_nothing. Qed.
Print Assumptions C78_nothing.
Theorem C78_loaded : forall fl L thr (Rl : rlaws fl L thr) N syms c freqs ws size mp z0, (0 <= N <= 2 ^ 40)%Z -> loadable fl N syms c freqs ws mp ->
  loaded_stream fl c freqs ws size mp = Ok z0 -> forall ops z e, rm fl L thr Rl mp -> shist fl z0 ops z -> normal fl N ops -> s_accept fl e z [] = Ok z.
Proof. exact loaded_nothing. Qed.
Print Assumptions C78_loaded.
Theorem C78_double : forall lg, log_ok lg -> log_tenth lg -> forall size N ops z e, shist (ieee lg) (new_stream (ieee lg) size) ops z -> normal (ieee lg) N ops ->
  s_accept (ieee lg) e z [] = Ok z.
Proof. exact (fun lg H T => fresh_nothing (ieee lg) (ieee_laws lg H) 1152 (ieee_rlaws lg H T)). Qed.
Print Assumptions C78_double.
(** After 2380 symbols and an update; and it does change a stream that was loaded with -1. *)
Example C78_case : exists z, shist exf (new_stream exf 100) saved_ops z /\ normal exf 2380 saved_ops /\ s_accept exf exenv z [] = Ok z.
Proof.
  destruct C76_case as [(z & H & Hn & _) _]. exists z. pose proof (rebuilt_hist exf _ _ _ _ H) as Hs. split; [exact Hs|]. split; [exact Hn|].
  exact (fresh_nothing exf exl 1152 exr 100 2380 saved_ops z exenv Hs Hn).
Qed.
Theorem C78_refuted_loaded : forall c freqs ws size z0, loadable exf 10 [5; 8]%Z c freqs ws (fofZ exf (-1)) ->
  loaded_stream exf c freqs ws size (fofZ exf (-1)) = Ok z0 -> forall e, env_ok exf e -> s_accept exf e z0 [] <> Ok z0.
Proof.
  intros c freqs ws size z0 HL E0 e He Ha.
  assert (Hn : normal exf 10 ([] ++ [SAccept e []])).
  { split; [intros e' s [E|[]]; injection E as <- _; exact He|]. split; [lia|]. split; [repeat constructor; cbn; lia|split; vm_compute; discriminate]. }
  destruct (loaded_always exf exl 1152 exr 10 [5; 8]%Z c freqs ws size _ z0 ltac:(lia) HL E0 [] z0 e [] z0 eq_refl (sh_nil _ _) Hn Ha) as [Hu _].
  unfold updated in Hu. lia.
Qed.
Print Assumptions C78_refuted_loaded.
