(** SpecBuilder: what can happen to a builder, and vocabulary for its properties. *)
From Verif Require Import Base Spec FloatOps ModelDict ModelStat ModelBuilder SpecStat.

Section B.
  Context (fl : fops).

  (** Operations on a builder: accept with any environment; result_freqs; and a parse by another owner of
      one of the shared dictionaries (IntStreamVGram::parse uses the pointer it got from result()). *)
  Inductive bop :=
  | BAccept (e : env fl) (s : seq)
  | BFreqs
  | BShared (p : nat) (s : seq) (freqs : list Z) (total : F fl).

  Definition bstep (b : builder fl) (op : bop) (b' : builder fl) : Prop :=
    match op with
    | BAccept e s => accept fl e b s = Ok b'
    | BFreqs => exists fs, result_freqs fl b [] = Ok (fs, b')
    | BShared p s freqs total => exists d o n d', hget fl b p = Ok d /\
        parse_weighted fl d s freqs total [] = Ok (o, n, d') /\ b' = hput fl b p d'
    end.

  (** [bhist b0 ops b]: the operations [ops], all of them defined, lead from [b0] to [b]. *)
  Inductive bhist (b0 : builder fl) : list bop -> builder fl -> Prop :=
  | bh_nil : bhist b0 [] b0
  | bh_step ops b op b' : bhist b0 ops b -> bstep b op b' -> bhist b0 (ops ++ [op]) b'.

  Definition op_accepted (op : bop) : list seq := match op with BAccept _ s => [s] | _ => [] end.
  Definition accepted (ops : list bop) : list seq := flat_map op_accepted ops.
  Definition op_length (op : bop) : Z :=
    match op with BAccept _ s | BShared _ s _ _ => Z.of_nat (length s) | BFreqs => 0%Z end.
  Definition processed (ops : list bop) : Z := zsum (map op_length ops).

  (** Shared parses only meet symbols the builder has accepted or was given. *)
  Definition shared_known (W0 : seq -> Prop) (ops : list bop) : Prop :=
    forall a p s freqs total b, ops = a ++ BShared p s freqs total :: b ->
    forall c, In c s -> W0 [c] \/ In c (concat (accepted a)).

  (** Environments follow the C++ standard. *)
  Definition envs_ok (ops : list bop) : Prop := forall e s, In (BAccept e s) ops -> env_ok fl e.

  (** The gamma variates are such that no score overflows or is undefined. *)
  Definition draws_fine (ops : list bop) : Prop := forall e s, In (BAccept e s) ops -> draws_ok fl e.

  (** Every accepted sequence has at most [N] symbols; fewer than 2^48 symbols are processed in all. *)
  Definition lengths_ok (N : Z) (ops : list bop) : Prop :=
    (0 <= N <= 2 ^ 40)%Z /\ Forall (fun s : seq => Z.of_nat (length s) <= N)%Z (accepted ops) /\
    (processed ops <= 2 ^ 48)%Z.

  (** Number of distinct symbols. *)
  Definition distinct (xs : list seq) : nat := length (nodup Z.eq_dec (concat xs)).

  (** [well_fed ws0 size N ops]: environments and draws as above, lengths and shared parses as above,
      new symbols come in increasing order (as the coder numbers them), and the requested size leaves
      room for all but one of the distinct symbols. *)
  Definition well_fed (ws0 : list seq) (size N : Z) (ops : list bop) : Prop :=
    envs_ok ops /\ draws_fine ops /\ lengths_ok N ops /\ shared_known (fun w => In w ws0) ops /\
    fresh_ascending ws0 (concat (accepted ops)) /\ (Z.of_nat (pred (distinct (ws0 ++ accepted ops))) <= size)%Z.

  (** [w] is a contiguous piece of one of [xs]. *)
  Definition occurs (xs : list seq) (w : seq) : Prop := exists x, In x xs /\ factor w x.

  (** An accept that replaced the statistics object; a reduction if the builder was not populating. *)
  Definition updated (b b' : builder fl) : Prop := length (bheap b) < length (bheap b').
  Definition reduced (b b' : builder fl) : Prop := updated b b' /\ bpop b = false.

  (** A history together with the latest reduction in it, if any: the pointer of the dictionary it
      produced and the words that dictionary had at that moment. [r0] describes the start. *)
  Inductive rhist (b0 : builder fl) (r0 : option (nat * list seq)) :
    list bop -> option (nat * list seq) -> builder fl -> Prop :=
  | rh_nil : rhist b0 r0 [] r0 b0
  | rh_reduction ops r b op b' d : rhist b0 r0 ops r b -> bstep b op b' -> reduced b b' ->
      hget fl b' (bptr b') = Ok d -> rhist b0 r0 (ops ++ [op]) (Some (bptr b', seqs d)) b'
  | rh_other ops r b op b' : rhist b0 r0 ops r b -> bstep b op b' -> ~ reduced b b' ->
      rhist b0 r0 (ops ++ [op]) r b'.

  (** A history together with the operations up to and including the latest update. *)
  Inductive uhist (b0 : builder fl) : list bop -> list bop -> builder fl -> Prop :=
  | uh_nil : uhist b0 [] [] b0
  | uh_update ops pre b op b' : uhist b0 ops pre b -> bstep b op b' -> updated b b' ->
      uhist b0 (ops ++ [op]) (ops ++ [op]) b'
  | uh_other ops pre b op b' : uhist b0 ops pre b -> bstep b op b' -> ~ updated b b' ->
      uhist b0 (ops ++ [op]) pre b'.


  (** Calls of accept only. *)
  Definition accepts (es : list (env fl * seq)) : list bop := map (fun p => BAccept (fst p) (snd p)) es.

  (** Which accepted sequences the frequencies given out count: those from number [i] up to, not including, [j].
      They are the ones parsed with the statistics object that the result belongs to.
      - [First]: no reduction yet, the statistics in use belong to the result; every update starts afresh.
      - [Live]: the latest update was a reduction, the statistics in use belong to the result.
      - [Frozen]: an expansion came after the latest reduction, the statistics of that time are kept. *)
  Inductive phase := First | Live | Frozen.
  Definition window : Type := nat * nat * phase.
  (** [n] sequences have been accepted, the last one just now; [upd]: that replaced the statistics object;
      [pop]: by an expansion. *)
  Definition window_next (upd pop : bool) (n : nat) (w : window) : window :=
    let '(i, j, ph) := w in
    if upd then
      if pop then match ph with First => (n, n, First) | Live => (i, n, Frozen) | Frozen => (i, j, Frozen) end
      else (n, n, Live)
    else match ph with Frozen => (i, j, Frozen) | _ => (i, n, ph) end.
  Definition is_updated (b b' : builder fl) : bool := Nat.ltb (length (bheap b)) (length (bheap b')).
  Definition window_step (ops : list bop) (b : builder fl) (op : bop) (b' : builder fl) (w : window) : window :=
    match op with
    | BAccept _ _ => window_next (is_updated b b') (bpop b) (S (length (accepted ops))) w
    | _ => w
    end.
  Inductive whist (b0 : builder fl) (ph0 : phase) : list bop -> window -> builder fl -> Prop :=
  | wh_nil : whist b0 ph0 [] (0, 0, ph0) b0
  | wh_step ops w b op b' : whist b0 ph0 ops w b -> bstep b op b' ->
      whist b0 ph0 (ops ++ [op]) (window_step ops b op b' w) b'.

  (** [fs] has an entry for each word of [ws]; entry [k] is how often word [k] was emitted in parses of the
      members of [xs] in the window, one parse for each of them. *)
  Definition counted (w : window) (xs : list seq) (ws : list seq) (fs : list Z) : Prop :=
    let '(i, j, _) := w in
    i <= j <= length xs /\
    exists log, map fst log = firstn (j - i) (skipn i xs) /\ Forall (fun e => spells ws (snd e) (fst e)) log /\
      length fs = length ws /\ forall k, at0 fs k = log_occ log k.
End B.
Arguments BAccept {fl}. Arguments BFreqs {fl}. Arguments BShared {fl}.
