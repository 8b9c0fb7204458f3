(** SpecGrow: the words an expansion may add, stated over the table of neighbouring words. *)
From Verif Require Import Base Spec FloatOps ModelStat SpecStat.

(** A pair of neighbouring words with its count; its text. *)
Definition joined (ws : list seq) (p : (nat * nat) * Z) (t : seq) : Prop :=
  exists a b, word_at ws (fst (fst p)) a /\ word_at ws (snd (fst p)) b /\ t = a ++ b.

(** What the pair is worth: ten times the value of one random round (SpecStat), computed from the counts of the pair, of
    its first word in front, of its second word at the end, and of all pairs. *)
Definition worth fl (gamma : list (F fl) -> list (F fl)) (ps : list ((nat * nat) * Z)) (p : (nat * nat) * Z) : option (F fl) :=
  option_map (ten_times fl)
    (round_value fl gamma (snd p) (starts ps (fst (fst p))) (ends ps (snd (fst p))) (all_pairs ps)).

(** Each pair is worth at least as much as the later ones. *)
Definition best_first fl gamma ps (l : list ((nat * nat) * Z)) : Prop :=
  forall l1 p l2 q l3 v w, l = l1 ++ p :: l2 ++ q :: l3 ->
    worth fl gamma ps p = Some v -> worth fl gamma ps q = Some w -> fltb fl v w = false.

(** The smallest probability after adding the pairs: the share of each pair among all pairs. *)
Definition least_share fl (ps : list ((nat * nat) * Z)) (m : F fl) (l : list ((nat * nat) * Z)) : F fl :=
  fold_left (fun m p => let q := fdiv fl (fofZ fl (snd p)) (fofZ fl (all_pairs ps)) in if fltb fl q m then q else m) l m.
