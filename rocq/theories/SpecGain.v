(** SpecGain: what it costs to drop a word from a dictionary, stated without the algorithm. *)
From Coq Require Import Reals.
From Verif Require Import Base Spec SpecEntropy FloatOps SpecWeight SpecStat.

Section G.
  Context (fl : fops).
  Definition xlx (f : Z) : F fl := fmul fl (fofZ fl f) (flog fl (fofZ fl f)).

  (** The code length of words used [fs] times, [P] in all, over [C] symbols, as it comes out of
      code_length_per_char() * total_chars (C26). *)
  Definition measured_length (fs : list Z) (P C : Z) : F fl :=
    fmul fl (fdiv fl (fadd fl (fold_left (fun a f => if Z.ltb 0 f then fsub fl a (xlx f) else a) fs (fofZ fl 0)) (xlx P))
               (fofZ fl C)) (fofZ fl C).

  (** The growth of the code length when a word used [c] times is dropped and each of its uses is
      written with words that were used [olds] times: [P] uses become P + (parts - 1) * c. *)
  Definition removal_cost (base : F fl) (P c : Z) (olds : list Z) : F fl :=
    let n := (P + (Z.of_nat (length olds) - 1) * c)%Z in
    fsub fl
      (fold_left (fun a f => fsub fl a (fsub fl (xlx (f + c)) (if Z.ltb 0 f then xlx f else fofZ fl 0))) olds
         (fadd fl (fsub fl (fadd fl base (xlx c)) (xlx P)) (xlx n)))
      base.

  (** [p] is how word [i], of text [w], is read without itself: it spells [w] with other words, and is at least as
      likely as every reading with words that are one symbol long or have been used. *)
  Definition reading_without (ws : list seq) (fs : list Z) (P : Z) (i : nat) (w : seq) (p : list nat) : Prop :=
    spells ws p w /\ 2 <= length p /\ ~ In i p /\
    forall q, spells ws q w -> ~ In i q ->
      Forall (fun j => (1 <= at0 fs j)%Z \/ exists c, word_at ws j [c]) q ->
      fltb fl (split_weight fl fs P (length ws) p) (split_weight fl fs P (length ws) q) = false.
End G.

Definition symbol_words (ws : list seq) : nat := length (filter (fun w => Nat.eqb (length w) 1) ws).

Section E.
  Local Open Scope R_scope.
  (** The ideal code length of words used [fs] times. *)
  Definition total_code (fs : list Z) : R :=
    rsum (map (fun f => if Z.ltb 0 f then IZR f * (ln (IZR (zsum fs)) - ln (IZR f)) else 0) fs).
  (** The counts after the uses of word [i] have been written as [p]. *)
  Definition rewritten (fs fs' : list Z) (i : nat) (p : list nat) : Prop :=
    length fs' = length fs /\
    forall j, at0 fs' j = (if Nat.eqb j i then 0 else at0 fs j + at0 fs i * occ p j)%Z.
End E.
