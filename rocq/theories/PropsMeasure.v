(** C84: what code_length() of a builder reports. *)
From Coq Require Import Reals.
From Verif Require Import Base Spec SpecEntropy FloatOps FloatLaws FloatIEEE FloatIdeal FloatExample DictProofs ModelDict Maps ModelStat ModelBuilder SpecStat SpecBuilder
  EnvExample PropsStatLemmas BuilderRuns PropsBuilderLemmas SpecMeasure EntropyProofs PropsMeasureLemmas.

(** [whist] follows a history and says of which accepted sequences the alphabet of the builder is the reading (C39): the
    window is of phase First until the first reduction, Live until the expansion after a reduction, then Frozen. *)
Theorem C84_measured : forall fl, flaws fl -> forall size N ops w b, whist fl (new_builder fl size) First ops w b ->
  envs_ok fl ops -> lengths_ok fl N ops -> shared_known fl (fun _ => False) ops -> measured fl w ops b.
Proof. exact fresh_measured. Qed.
Print Assumptions C84_measured.
Theorem C84_from_alphabet : forall fl, flaws fl -> forall d0 size b0 N ops w b, new_builder_dict fl d0 size = Ok b0 ->
  ~ In [] (seqs d0) -> (Z.of_nat (dsize d0) <= 2 ^ 50)%Z -> whist fl b0 First ops w b ->
  envs_ok fl ops -> lengths_ok fl N ops -> shared_known fl (fun v => In v (seqs d0)) ops -> measured fl w ops b.
Proof. exact alphabet_measured. Qed.
Print Assumptions C84_from_alphabet.
Theorem C84_loaded : forall fl, flaws fl -> forall d0 freqs al mp b0 N ops w b, new_builder_loaded fl d0 freqs al mp = Ok b0 ->
  ~ In [] (seqs d0) -> (Z.of_nat (dsize d0) <= 2 ^ 50)%Z -> Forall (fun f => 0 <= f <= 20000000 + N)%Z freqs -> fnan fl mp = false ->
  whist fl b0 Live ops w b -> envs_ok fl ops -> lengths_ok fl N ops -> shared_known fl (fun v => In v (seqs d0)) ops ->
  snd w <> First /\ measured fl w ops b.
Proof. exact loaded_measured. Qed.
Print Assumptions C84_loaded.
Theorem C84_double : forall lg, log_ok lg -> forall size N ops w b, whist (ieee lg) (new_builder (ieee lg) size) First ops w b ->
  envs_ok (ieee lg) ops -> lengths_ok (ieee lg) N ops -> shared_known (ieee lg) (fun _ => False) ops -> measured (ieee lg) w ops b.
Proof. exact (fun lg H => fresh_measured (ieee lg) (ieee_laws lg H)). Qed.
Print Assumptions C84_double.

(** Nothing but empty sequences since the reduction: not a number. *)
Theorem C84_nan : forall lg, log_ok lg -> forall size N ops w b, whist (ieee lg) (new_builder (ieee lg) size) First ops w b -> envs_ok (ieee lg) ops ->
  lengths_ok (ieee lg) N ops -> shared_known (ieee lg) (fun _ => False) ops -> snd w <> First ->
  Forall (fun s : seq => s = []) (in_window w (accepted (ieee lg) ops)) ->
  exists x, code_length (ieee lg) b = Ok x /\ fnan (ieee lg) x = true.
Proof. exact nothing_nan. Qed.
Print Assumptions C84_nan.

(** Apart from rounding the number is the entropy of the words used, per symbol; it lies between 0 and the logarithm
    of the number of words. *)
Theorem C84_exact : forall w xs ws log, readings w xs ws log -> ~ In [] ws -> Exists (fun s : seq => s <> []) (in_window w xs) ->
  let x := per_symbol ideal (uses (length ws) log) (words_emitted log) (symbols_consumed log) in
  x = entropy_per_char (uses (length ws) log) (words_emitted log) (symbols_consumed log) /\ (0 <= x <= ln (INR (length ws)))%R.
Proof. exact reading_exact. Qed.
Print Assumptions C84_exact.

(** After an expansion and a reduction (C29) the window is empty. *)
Example C84_case : exists w b, whist exf (new_builder exf 7) First (accepts exf (runs [first_text; second_text])) w b /\ w = (2, 2, Live) /\
  envs_ok exf (accepts exf (runs [first_text; second_text])) /\ lengths_ok exf (2 ^ 40) (accepts exf (runs [first_text; second_text])) /\
  shared_known exf (fun _ => False) (accepts exf (runs [first_text; second_text])).
Proof.
  destruct just_reduced as (w & b & H & E). exists w, b. split; [exact H|]. split; [exact E|].
  destruct two_fed as (A & _ & B & C & _). split; [exact A|]. split; [exact B|]. exact C.
Qed.
(** 0 1 0 read as the words 01 and 0. *)
Example C84_exact_case : readings (1, 2, Live) [[1]; [0; 1; 0]]%Z [[0]; [0; 1]; [1]]%Z [([0; 1; 0]%Z, [1; 0])] /\
  uses 3 [([0; 1; 0]%Z, [1; 0])] = [1; 1; 0]%Z /\ entropy_per_char [1; 1; 0]%Z 2 3 = (2 * ln 2 / 3)%R.
Proof.
  split; [split; [reflexivity|constructor; [exists [[0; 1]; [0]]%Z; split; [repeat constructor|reflexivity]|constructor]]|].
  split; [reflexivity|]. unfold entropy_per_char. simpl. rewrite ln_1. field.
Qed.
(** A loaded builder that reads 0 1 0. *)
Example C84_loaded_case : let d0 := mkDict [[0]; [0; 1]; [1]]%Z [None; Some 0; None] in
  exists b0 b1, new_builder_loaded exf d0 [3; 5; 2]%Z [] (flit exf 2 1000) = Ok b0 /\ whist exf b0 Live [BAccept exenv [0; 1; 0]%Z] (0, 1, Live) b1.
Proof.
  cbn zeta. set (d0 := mkDict _ _).
  assert (E : match new_builder_loaded exf d0 [3; 5; 2]%Z [] (flit exf 2 1000) with
    | Ok b0 => match accept exf exenv b0 [0; 1; 0]%Z with Ok b1 => is_updated exf b0 b1 | _ => true end | _ => true end = false) by (vm_compute; reflexivity).
  destruct (new_builder_loaded exf d0 [3; 5; 2]%Z [] (flit exf 2 1000)) as [b0| | |]; try discriminate E.
  destruct (accept exf exenv b0 [0; 1; 0]%Z) as [b1| | |] eqn:Ea; try discriminate E. exists b0, b1. split; [reflexivity|].
  pose proof (wh_step exf b0 Live [] (0, 0, Live) b0 (BAccept exenv [0; 1; 0]%Z) b1 (wh_nil _ _ _) Ea) as H.
  unfold window_step, window_next in H. rewrite E in H. exact H.
Qed.
