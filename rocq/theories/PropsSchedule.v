(** C83: when a stream rebuilds its dictionary. Vocabulary: SpecSchedule.v, SpecStream.v. A history is [timed] with its periods: the words read in each
    period before the sequence that brought the rebuild, the words read in all, and the rate (bytes of an ideal code per symbol). *)
From Coq Require Import Reals Lra.
From Verif Require Import Base Spec SpecEntropy FloatOps FloatLaws FloatIEEE FloatExample FloatRebuild FloatSchedule FloatIdeal ModelDict ModelCoder ModelStat ModelBuilder ModelStream
  SpecStat SpecBuilder SpecGain EnvExample StreamRuns ExtraRuns PropsStreamLemmas ScheduleExact ScheduleRuns PropsScheduleLemmas SpecPersist SpecStream SpecSchedule.
Local Close Scope R_scope.
Local Open Scope nat_scope.

(** The next rebuild comes when the words read exceed -log(p) / m or 20,000,000. p is 0.1, multiplied by 0.8 at every rebuild that was at least the fourth
    in a row without a better rate than all before; m is the current minimum probability. *)
Theorem C83_due : forall fl, flaws fl -> forall size N ops ps n z e s z' ids d st,
  timed fl (new_stream fl size) ops ps n z -> normal fl N (ops ++ [SAccept e s]) ->
  s_accept fl e z s = Ok z' -> reads fl z s ids d st ->
  (rebuilds fl z z' = true <->
    fltb fl (wait fl (prob_after fl (cuts fl (map p_rate ps))) (minp (bcur (zb z)))) (fofZ fl (n + Z.of_nat (length ids))) = true \/
    (20000000 < n + Z.of_nat (length ids))%Z).
Proof. exact fresh_due. Qed.
Print Assumptions C83_due.
Theorem C83_due_loaded : forall fl, flaws fl -> forall N syms c freqs ws size mp z0, (0 <= N <= 2 ^ 40)%Z -> loadable fl N syms c freqs ws mp ->
  loaded_stream fl c freqs ws size mp = Ok z0 -> forall ops ps n z e s z' ids d st,
  timed fl z0 ops ps n z -> normal fl N (ops ++ [SAccept e s]) -> s_accept fl e z s = Ok z' -> reads fl z s ids d st ->
  (rebuilds fl z z' = true <->
    fltb fl (wait fl (prob_after fl (cuts fl (map p_rate ps))) (minp (bcur (zb z)))) (fofZ fl (n + Z.of_nat (length ids))) = true \/
    (20000000 < n + Z.of_nat (length ids))%Z).
Proof. exact loaded_due. Qed.
Print Assumptions C83_due_loaded.

(** Every period is longer than every earlier one was before its last sequence. *)
Theorem C83_periods : forall fl L thr (Rl : rlaws fl L thr), wlaws fl L thr Rl -> forall size N ops ps n z,
  timed fl (new_stream fl size) ops ps n z -> normal fl N ops ->
  forall i j e1 e2, i < j -> nth_error ps i = Some e1 -> nth_error ps j = Some e2 ->
  (p_before e1 < p_total e2)%Z /\ (p_total e1 < p_total e2 + N)%Z.
Proof. exact fresh_periods. Qed.
Print Assumptions C83_periods.
Theorem C83_periods_loaded : forall fl L N syms c freqs ws size mp z0, (0 <= N <= 2 ^ 40)%Z -> loadable fl N syms c freqs ws mp ->
  loaded_stream fl c freqs ws size mp = Ok z0 -> forall thr (Rl : rlaws fl L thr), wlaws fl L thr Rl -> forall ops ps n z,
  rm fl L thr Rl mp -> timed fl z0 ops ps n z -> normal fl N ops ->
  forall i j e1 e2, i < j -> nth_error ps i = Some e1 -> nth_error ps j = Some e2 ->
  (p_before e1 < p_total e2)%Z /\ (p_total e1 < p_total e2 + N)%Z.
Proof. exact loaded_periods. Qed.
Print Assumptions C83_periods_loaded.
(** For doubles, if std::log is right about 0.1 and does not decrease below it. *)
Theorem C83_periods_double : forall lg, log_ok lg -> log_tenth lg -> log_mono lg -> forall size N ops ps n z,
  timed (ieee lg) (new_stream (ieee lg) size) ops ps n z -> normal (ieee lg) N ops ->
  forall i j e1 e2, i < j -> nth_error ps i = Some e1 -> nth_error ps j = Some e2 ->
  (p_before e1 < p_total e2)%Z /\ (p_total e1 < p_total e2 + N)%Z.
Proof. exact (fun lg H T M => fresh_periods (ieee lg) (ieee_laws lg H) 1152 (ieee_rlaws lg H T) (ieee_wlaws lg H T M)). Qed.
Print Assumptions C83_periods_double.

(** The rate, in exact arithmetic: the ideal code length of the words in bytes, divided by the number of symbols. *)
Theorem C83_rate_exact : forall ws fs, Forall (fun f => 0 <= f)%Z fs -> Forall (fun p => Z.of_nat (length (fst p)) * snd p < 2 ^ 64)%Z (combine ws fs) ->
  rate ideal ws fs (IZR (zsum fs)) = (total_code fs / ln 2 / 8 / IZR (symbols_used ws fs))%R.
Proof. exact rate_exact. Qed.
Print Assumptions C83_rate_exact.

(** Two rebuilds; sequences of rates with two, one and no reductions of the probability; log_tenth and log_mono hold of a logarithm. *)
Example C83_case : (exists ps n z, timed exf (new_stream exf 100) schedule_ops ps n z /\ normal exf 1180 schedule_ops /\ length ps = 2) /\
  map (fun l => cuts exf (map (fofZ exf) l)) [[0; 1; 1; 1; 1; 1]; [1; 1; 1; 1]; [0; 1; 1; 1; -1; 1]]%Z = [2; 1; 0] /\
  log_tenth lg_example /\ log_mono lg_example /\ rm exf exl 1152 exr (flit exf 2 1000) /\
  (Forall (fun f => 0 <= f)%Z [3; 0; 2]%Z /\ symbols_used [[5]; [6]; [5; 6]]%Z [3; 0; 2]%Z = 7%Z).
Proof.
  split.
  - pose proof run_schedule as H. destruct (run_s (new_stream exf 100) schedule_ops) as [z| | |] eqn:E; try discriminate H.
    assert (H1 : length (bheap (zb z)) = 3) by congruence. clear H.
    destruct (timed_exists exf _ _ _ (run_s_ok _ _ [] _ _ (sh_nil _ _) E)) as (ps & n & Ht & Hl). exists ps, n, z. split; [exact Ht|]. split.
    + split; [|split; [lia|split; [|split; vm_compute; discriminate]]].
      * intros e s [Hi|[Hi|[]]]; injection Hi as <- _; exact exenv_ok.
      * apply Forall_forall. intros x Hx. assert (Hb : forallb (fun x => Nat.leb (length x) 1180) (fed exf schedule_ops) = true) by (vm_compute; reflexivity).
        rewrite forallb_forall in Hb. apply Hb, Nat.leb_le in Hx. lia.
    + rewrite H1 in Hl. change (length (bheap (zb (new_stream exf 100)))) with 1 in Hl. lia.
  - split; [vm_compute; reflexivity|]. split; [exact lg_example_tenth|]. split; [exact lg_example_mono|]. split; [exact (rm_start _ _ _ exr)|].
    split; [|reflexivity]. repeat constructor; lia.
Qed.
