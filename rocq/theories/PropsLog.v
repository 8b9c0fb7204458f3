(** What is printed: C93. Vocabulary: SpecLog.v, SpecSchedule.v (rate), SpecVGram.v (sampling). *)
From Verif Require Import Base Spec FloatOps FloatLaws FloatIEEE FloatExample ModelTok ModelDict ModelCoder ModelStat ModelBuilder ModelStream ModelVGram ModelString ModelLog
  SpecStat SpecBuilder EnvExample BuilderRuns StreamRuns ExtraRuns ScheduleRuns VGramRuns DictProofs LogProofs SpecPersist SpecStream SpecVGram SpecSchedule SpecLog.

(** Whatever the verbosity, the calls do the same. *)
Theorem C93_same : forall fl k,
  (forall e z s, silence fl (s_accept_out fl k e z s) = s_accept fl e z s) /\
  (forall w v xs, silence fl (fit_out fl k w v xs) = fit fl w v xs) /\
  (forall first e z s, silence fl (t_accept_out fl first k e z s) = t_accept fl first e z s) /\
  (forall first w v xs, silence fl (tv_fit_out fl first k w v xs) = tv_fit fl first w v xs).
Proof.
  exact (fun fl k => conj (silence_stream fl k) (conj (silence_fit fl k) (conj (fun first => silence_text fl first k) (fun first => silence_texts fl first k)))).
Qed.
Print Assumptions C93_same.
Theorem C93_history : forall fl k z0 ops z, shist fl z0 ops z <-> exists out, talks fl k z0 ops out z.
Proof. exact (fun fl k z0 ops z => conj (hist_talks fl k z0 ops z) (fun H => match H with ex_intro _ out H1 => talks_hist fl k z0 ops out z H1 end)). Qed.
Print Assumptions C93_history.

(** Objects made with verbose = 0 (the default in Python) or less print nothing. *)
Theorem C93_quiet : forall fl k, (verbosity (Made k) <= 0)%Z ->
  (forall z0 ops out z, talks fl (verbosity (Made k)) z0 ops out z -> out = []) /\
  (forall w v xs out r, fit_out fl (verbosity (Made k)) w v xs = Ok (out, r) -> out = []) /\
  (forall first e z s out z', t_accept_out fl first (verbosity (Made k)) e z s = Ok (out, z') -> out = []) /\
  (forall first w v xs out r, tv_fit_out fl first (verbosity (Made k)) w v xs = Ok (out, r) -> out = []).
Proof.
  exact (fun fl k H => conj (fun z0 ops out z => quiet_talks fl k z0 ops out z H) (conj (fun w v xs out r => quiet_fit fl k w v xs out r H)
    (conj (fun first e z s out z' => quiet_text fl first k e z s out z' H) (fun first w v xs out r => quiet_texts fl first k w v xs out r H)))).
Qed.
Print Assumptions C93_quiet.
(** Loaded objects are not quiet, and cannot be made so. *)
Lemma loaded_loud : (match loaded_stream exf twice_coder [3; 2; 0]%Z [[0]; [1]; [0; 1]]%Z 100 (flit exf 2 1000) with
  Ok z => match s_accept_out exf (verbosity Loaded) exenv z (rep 1180 [5]%Z) with Ok (o, _) => length o | _ => 0 end | _ => 0 end) = 1.
Proof. vm_compute. reflexivity. Qed.
Theorem C93_refuted_loaded : exists z0 e s z out, loaded_stream exf twice_coder [3; 2; 0]%Z [[0]; [1]; [0; 1]]%Z 100 (flit exf 2 1000) = Ok z0 /\
  talks exf (verbosity Loaded) z0 [SAccept e s] out z /\ out <> [].
Proof.
  pose proof loaded_loud as H. destruct (loaded_stream exf twice_coder _ _ _ _) as [z| | |] eqn:E0; try discriminate H.
  destruct (s_accept_out exf (verbosity Loaded) exenv z (rep 1180 [5]%Z)) as [[o z']| | |] eqn:E1; try discriminate H.
  exists z, exenv, (rep 1180 [5]%Z), z', o. split; [reflexivity|]. split; [apply (tk_accept exf _ z [] [] z); [constructor|exact E1]|]. intros ->. discriminate H.
Qed.
Print Assumptions C93_refuted_loaded.

(** A stream prints one line for the first, third, fifth, ... rebuild: size, rate and minimum probability of what is replaced. *)
Theorem C93_stream : forall fl k size ops out z, (0 < k)%Z -> talks fl (verbosity (Made k)) (new_stream fl size) ops out z ->
  exists r, shown fl (new_stream fl size) ops r out z.
Proof. exact (fun fl k size ops out z H => talks_shown fl k (new_stream fl size) ops out z H eq_refl). Qed.
Print Assumptions C93_stream.
Theorem C93_loaded : forall fl, flaws fl -> forall N syms c freqs ws size mp z0 ops out z, (0 <= N <= 2 ^ 40)%Z -> loadable fl N syms c freqs ws mp ->
  loaded_stream fl c freqs ws size mp = Ok z0 -> talks fl (verbosity Loaded) z0 ops out z -> exists r, shown fl z0 ops r out z.
Proof. exact loaded_shown. Qed.
Print Assumptions C93_loaded.
(** The minimum probabilities shown never increase; the first is at most 0.002, or what the file says. *)
Theorem C93_minp : forall fl, flaws fl -> forall size N ops r out z, shown fl (new_stream fl size) ops r out z -> normal fl N ops -> falling fl (flit fl 2 1000) (minps fl out).
Proof. exact fresh_minps. Qed.
Print Assumptions C93_minp.
Theorem C93_minp_loaded : forall fl, flaws fl -> forall N syms c freqs ws size mp z0 ops r out z, (0 <= N <= 2 ^ 40)%Z -> loadable fl N syms c freqs ws mp ->
  loaded_stream fl c freqs ws size mp = Ok z0 -> shown fl z0 ops r out z -> normal fl N ops -> falling fl mp (minps fl out).
Proof. exact loaded_minps. Qed.
Print Assumptions C93_minp_loaded.
Theorem C93_minp_double : forall lg, log_ok lg -> forall size N ops r out z, shown (ieee lg) (new_stream (ieee lg) size) ops r out z -> normal (ieee lg) N ops ->
  falling (ieee lg) (flit (ieee lg) 2 1000) (minps (ieee lg) out).
Proof. exact (fun lg H => fresh_minps (ieee lg) (ieee_laws lg H)). Qed.
Print Assumptions C93_minp_double.

(** fit announces the rounds in order, each followed by the lines of the stream in that round, and then the recount; an interrupted fit stops in a round,
    without the recount. A fitted object announces at most the recount. *)
Theorem C93_fit : forall fl k w v xs out ok v', (0 < k)%Z -> fit_out fl k w v xs = Ok (out, (ok, v')) ->
  if vfitted v then ok = true /\ out = if vcomputed v then [] else [Recount]
  else exists parts,
    (forall m, m <= length parts -> (ok = false -> m < length parts) -> exists z, talks fl k (vs v) (sampling fl w xs m) (concat (firstn m parts)) z) /\
    if ok then length parts = Z.to_nat (viter v) /\ out = rounds_shown fl 0 parts ++ [Recount]
    else out = rounds_shown fl 0 parts /\ exists m j, m < Z.to_nat (viter v) /\ length parts = S m /\ j < length xs /\ w_term w (m * length xs + j) = true /\
      talks fl k (vs v) (sampling fl w xs m ++ map (draw fl w xs) (List.seq (m * length xs) (S j))) (concat parts) (vs v').
Proof. exact fit_prints. Qed.
Print Assumptions C93_fit.

(** A fit of one round with a rebuild in it; two short rounds; an interrupted fit; nothing with verbose = 0. *)
Definition heads (o : outcome (list (line exf) * (bool * vgram exf))) : option (list nat * bool) :=
  match o with Ok (l, (ok, _)) => Some (map (fun x => match x with Progress n _ _ => n | Round i => 100 + i | Recount => 200 end) l, ok) | _ => None end.
Example C93_case : heads (fit_out exf 1 (listed [0]%Z 100) (new_vgram exf 100 1) [rep 590 [5; 8]%Z]) = Some ([100; 2; 200], true) /\
  heads (fit_out exf 1 (listed [0; 1; 0; 1]%Z 100) (new_vgram exf 10 2) [[5; 8]; [8]]%Z) = Some ([100; 101; 200], true) /\
  heads (fit_out exf 1 (listed [0; 1; 0; 1]%Z 1) (new_vgram exf 10 2) [[5; 8]; [8]]%Z) = Some ([100], false) /\
  heads (fit_out exf 0 (listed [0; 1; 0; 1]%Z 100) (new_vgram exf 10 2) [[5; 8]; [8]]%Z) = Some ([], true).
Proof. split; [vm_compute; reflexivity|]. split; [vm_compute; reflexivity|]. split; vm_compute; reflexivity. Qed.
(** A history that shows a line, within the limits of C93_minp. *)
Example C93_minp_case : exists r out z, shown exf (new_stream exf 100) schedule_ops r out z /\ normal exf 1180 schedule_ops /\ minps exf out <> [].
Proof.
  pose proof run_schedule as H. destruct (run_s (new_stream exf 100) schedule_ops) as [z| | |] eqn:E; try discriminate H. clear H.
  destruct (hist_talks exf 1 _ _ _ (run_s_ok _ _ [] _ _ (sh_nil _ _) E)) as [out Ht].
  destruct (talks_shown exf 1 (new_stream exf 100) _ _ _ ltac:(lia) eq_refl Ht) as [r Hr]. exists r, out, z. split; [exact Hr|]. split.
  - split; [|split; [lia|split; [|split; vm_compute; discriminate]]].
    + intros e s [Hi|[Hi|[]]]; injection Hi as <- _; exact exenv_ok.
    + apply Forall_forall. intros x Hx. assert (Hb : forallb (fun x => Nat.leb (length x) 1180) (fed exf schedule_ops) = true) by (vm_compute; reflexivity).
      rewrite forallb_forall in Hb. apply Hb, Nat.leb_le in Hx. lia.
  - destruct (rebuilt_line exf _ _ _ _ _ Hr) as [(Hb & _)|Hm]; [|exact Hm]. exfalso. pose proof run_schedule as H. rewrite E in H.
    assert (H1 : length (bheap (zb z)) = 3) by congruence. rewrite H1 in Hb. discriminate Hb.
Qed.
