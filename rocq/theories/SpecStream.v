(** SpecStream: what can happen to an integer stream, and vocabulary for its properties. *)
From Verif Require Import Base Spec FloatOps ModelDict ModelCoder Maps ModelStat ModelBuilder ModelStream SpecStat SpecBuilder.

(** A coder that numbers the symbols [S], in this order, from 0; the order of the hash maps does not matter. *)
Definition numbers (S : list Z) (c : coder) : Prop :=
  (forall i x, nth_error S i = Some x -> mfind Z.eqb (fwd c) x = Some (Z.of_nat i) /\ mfind Z.eqb (bwd c) (Z.of_nat i) = Some x) /\
  (forall x, ~ In x S -> mfind Z.eqb (fwd c) x = None) /\
  (forall k, (k < 0 \/ Z.of_nat (length S) <= k)%Z -> mfind Z.eqb (bwd c) k = None) /\
  length (fwd c) = length S.

Section S.
  Context (fl : fops).

  (** Calls on a stream: accept (with the environment of the update it may trigger), parse, update. *)
  Inductive sop := SAccept (e : env fl) (s : seq) | SParse (s : seq) | SUpdate.

  Definition sstep (z : stream fl) (op : sop) (z' : stream fl) : Prop :=
    match op with
    | SAccept e s => s_accept fl e z s = Ok z'
    | SParse s => exists ids, s_parse fl z s = Ok (ids, z')
    | SUpdate => s_update fl z = Ok z'
    end.

  (** [shist z0 ops z]: the calls [ops], all of them defined, lead from [z0] to [z]. *)
  Inductive shist (z0 : stream fl) : list sop -> stream fl -> Prop :=
  | sh_nil : shist z0 [] z0
  | sh_step ops z op z' : shist z0 ops z -> sstep z op z' -> shist z0 (ops ++ [op]) z'.

  (** The sequences accepted; the symbols seen. *)
  Definition op_fed (op : sop) : list seq := match op with SAccept _ s => [s] | _ => [] end.
  Definition fed (ops : list sop) : list seq := flat_map op_fed ops.
  Definition seen (ops : list sop) : list Z := concat (fed ops).

  (** A history with the window of accepted sequences that the frequencies of the builder count, as in SpecBuilder.v. *)
  Definition swindow_step (ops : list sop) (z : stream fl) (op : sop) (z' : stream fl) (w : window) : window :=
    match op with
    | SAccept _ _ => window_next (is_updated fl (zb z) (zb z')) (bpop (zb z)) (S (length (fed ops))) w
    | _ => w
    end.
  Inductive swhist (z0 : stream fl) (ph0 : phase) : list sop -> window -> stream fl -> Prop :=
  | sw_nil : swhist z0 ph0 [] (0, 0, ph0) z0
  | sw_step ops w z op z' : swhist z0 ph0 ops w z -> sstep z op z' ->
      swhist z0 ph0 (ops ++ [op]) (swindow_step ops z op z' w) z'.

  (** [s] without the symbols that are not in [known]. *)
  Definition restrict (known : list Z) (s : seq) : seq :=
    filter (fun c => if in_dec Z.eq_dec c known then true else false) s.

  Definition op_handled (op : sop) : Z :=
    match op with SAccept _ s | SParse s => Z.of_nat (length s) | SUpdate => 0%Z end.
  Definition handled (ops : list sop) : Z := zsum (map op_handled ops).
  Definition is_update (op : sop) : bool := match op with SUpdate => true | _ => false end.
  Definition updates (ops : list sop) : Z := Z.of_nat (length (filter is_update ops)).

  (** Limits far beyond practice: an accepted sequence has at most [N] symbols, fewer than 2^48 symbols in
      all, and the frequencies that the updates add up stay below 2^50. *)
  Definition slengths_ok (N : Z) (ops : list sop) : Prop :=
    (0 <= N <= 2 ^ 40)%Z /\ Forall (fun s : seq => Z.of_nat (length s) <= N)%Z (fed ops) /\
    (handled ops <= 2 ^ 48)%Z /\ (updates ops * (20000000 + N) <= 2 ^ 50)%Z.
  Definition senvs_ok (ops : list sop) : Prop := forall e s, In (SAccept e s) ops -> env_ok fl e.
  Definition sdraws_fine (ops : list sop) : Prop := forall e s, In (SAccept e s) ops -> draws_ok fl e.

  (** What a history needs for the properties that hold at every size. *)
  Definition normal (N : Z) (ops : list sop) : Prop := senvs_ok ops /\ slengths_ok N ops.

  (** The requested size leaves room for all symbols, and no score overflows. *)
  Definition roomy (size : Z) (ops : list sop) : Prop :=
    sdraws_fine ops /\ (1 <= size)%Z /\ (Z.of_nat (distinct (fed ops)) <= size)%Z.

  (** Every parse in [ops] meets only symbols that are unknown or in the alphabet at that time; [known0] are the
      symbols known at the start. *)
  Definition calm (known0 : list Z) (z0 : stream fl) (ops : list sop) : Prop :=
    forall a s b z al, ops = a ++ SParse s :: b -> shist z0 a z -> s_alphabet fl z = Ok al ->
    covers al (restrict (known0 ++ seen a) s).

  (** What a model file must hold to be a usable stream: the coder numbers the symbols [syms]; the words are distinct,
      not empty, made of the codes of [syms], and every code is a word; the frequencies are counts. *)
  Definition loadable (N : Z) (syms : list Z) (c : coder) (freqs : list Z) (ws : list seq) (mp : F fl) : Prop :=
    NoDup syms /\ numbers syms c /\ NoDup ws /\ ~ In [] ws /\
    (forall w k, In w ws -> In k w -> 0 <= k < Z.of_nat (length syms))%Z /\
    (forall i, i < length syms -> In [Z.of_nat i] ws) /\
    Forall (fun w : seq => Z.of_nat (length w) <= 2 ^ 40)%Z ws /\ (Z.of_nat (length ws) <= 2 ^ 49)%Z /\
    Forall (fun f => 0 <= f <= 20000000 + N)%Z freqs /\ (zsum freqs <= 2 ^ 50)%Z /\ fnan fl mp = false.

  (** A loaded stream keeps to as many words as the file has; they leave room for all symbols. *)
  Definition roomy_loaded (syms : list Z) (ws : list seq) (ops : list sop) : Prop :=
    sdraws_fine ops /\ length (nodup Z.eq_dec (syms ++ seen ops)) <= length ws.
End S.
Arguments SAccept {fl}. Arguments SParse {fl}. Arguments SUpdate {fl}.
