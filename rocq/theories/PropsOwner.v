(** PropsOwner: C94. *)
From Verif Require Import Base ModelOwner SpecOwner OwnerProofs PropsOwnerLemmas.

(** C94: every tokenizer is deleted once, when the last object that has it ends, and is not used afterwards, provided that a
    pointer is given to one object at most and not deleted by the caller as well. *)
Theorem C94_safe : forall ps, written ps -> one_charge ps -> calls_held ps -> exists o, orun nothing ps = Fine o.
Proof. exact safe. Qed.
Print Assumptions C94_safe.

(** ... deleted are exactly those for which somebody is in charge and that no living object has. *)
Theorem C94_when : forall ps o a, orun nothing ps = Fine o -> charges 0 ps a <= 1 ->
  count_occ Nat.eq_dec (gone o) a <= 1 /\ (In a (gone o) <-> charges 0 ps a = 1 /\ ~ held ps a).
Proof. exact gone_when. Qed.
Print Assumptions C94_when.

(** In any program that goes well: nothing is deleted twice, and nothing that nobody was in charge of. *)
Theorem C94_once : forall ps o a, orun nothing ps = Fine o -> count_occ Nat.eq_dec (gone o) a <= Nat.min 1 (charges 0 ps a).
Proof. exact once. Qed.
Print Assumptions C94_once.

(** Without the proviso the claim fails, in every program: with two in charge of a pointer it ends in undefined behaviour at
    the latest when the last object that has it ends. *)
Theorem C94_refuted_twice : forall ps a, written ps -> 2 <= charges 0 ps a -> ~ held ps a ->
  exists m, orun nothing ps = Bad m /\ m <> NoSuch.
Proof. exact twice_bad. Qed.
Print Assumptions C94_refuted_twice.

(** And before that, an object whose tokenizer another one has deleted cannot be used. *)
Theorem C94_refuted_use : forall ps o h a, orun nothing ps = Fine o -> nth_error (snd (seen ps)) h = Some (a, true) ->
  In a (gone o) -> orun nothing (ps ++ [OUse h]) = Bad (UsedDeleted a).
Proof. exact gone_use. Qed.
Print Assumptions C94_refuted_use.

(** Python: what IntStreamVGram.load and StreamVGram.load return is in two charges; it is deleted when load returns, and
    every call on it, and its end, are undefined. *)
Theorem C94_refuted_python : forall ps o, orun nothing ps = Fine o ->
  orun nothing (ps ++ py_load_stream o ++ [OUse (S (length (hands o)))]) = Bad (UsedDeleted (length (cells o))) /\
  orun nothing (ps ++ py_load_stream o ++ [ODrop (S (length (hands o)))]) = Bad (DeletedTwice (length (cells o))).
Proof. exact py_stream_bad. Qed.
Print Assumptions C94_refuted_python.

(** IntVGram.load and VGram.load keep to the proviso. *)
Theorem C94_python : forall ps o, orun nothing ps = Fine o -> written ps -> one_charge ps -> calls_held ps ->
  let qs := ps ++ py_load_vgram o in
  written qs /\ one_charge qs /\ calls_held qs /\ nth_error (snd (seen qs)) (length (hands o)) = Some (length (cells o), true).
Proof. exact py_vgram. Qed.
Print Assumptions C94_python.

(** A tokenizer given to an object that is copied; the copy is used after the original has ended. A second one made by its
    object, a third that nobody takes and the caller deletes. *)
Definition good_program : list oop :=
  [ONew; OCall 0; OHand 0; OShare 0; OUse 1; ODrop 0; OUse 1; OCall 0; ODrop 1; OMake; OUse 2; ONew; OCall 2; ODelete 2; ODrop 2].

Example C94_case : written good_program /\ one_charge good_program /\ calls_held good_program /\
  orun nothing good_program = Fine (mkOwn [false; false; false] [(0, 0); (1, 0)] [None; None; None] [0; 2; 1]) /\
  orun nothing (firstn 8 good_program) = Fine (mkOwn [true] [(0, 1)] [None; Some 0] []).
Proof.
  split; [|split; [|split; [|split; reflexivity]]].
  - intros u p w E. unfold good_program in E.
    do 15 (destruct u as [|? u]; cbn in E; [injection E as <- _; cbn; eauto; lia|injection E as <- E]). now destruct u.
  - intros [|[|[|a]]]; cbn; lia.
  - intros u a w E. unfold good_program in E.
    do 15 (destruct u as [|? u]; cbn in E; [try discriminate E; injection E as <- _; unfold held; cbn; auto|injection E as <- E]). now destruct u.
Qed.

(** One pointer for two objects: the second cannot be used when the first has ended, nor end itself. *)
Example C94_refuted_case :
  let ps := [ONew; OHand 0; OHand 0; OUse 0; OUse 1; ODrop 0] in
  orun nothing ps = Fine (mkOwn [false] [(0, 0); (0, 1)] [None; Some 1] [0]) /\
  written (ps ++ [ODrop 1]) /\ charges 0 (ps ++ [ODrop 1]) 0 = 2 /\ ~ held (ps ++ [ODrop 1]) 0 /\
  orun nothing (ps ++ [OUse 1]) = Bad (UsedDeleted 0) /\ orun nothing (ps ++ [ODrop 1]) = Bad (DeletedTwice 0).
Proof.
  cbv zeta. split; [reflexivity|]. split; [|split; [reflexivity|split; [|split; reflexivity]]].
  - intros u p w E. cbn in E.
    do 7 (destruct u as [|? u]; cbn in E; [injection E as <- _; cbn; eauto; lia|injection E as <- E]). now destruct u.
  - unfold held. cbn. intros [H|[H|[]]]; discriminate.
Qed.
