(** Copies of C++ objects: C98. Vocabulary: SpecCopy.v, SpecMixed.v, SpecStream.v. *)
From Verif Require Import Base Spec FloatOps FloatLaws FloatIEEE FloatExample ModelDict ModelCoder ModelStat ModelBuilder ModelStream ModelVGram ModelCopy
  SpecStat SpecBuilder EnvExample BuilderRuns StreamRuns CopyProofs CopyRuns SpecStream SpecVGram SpecMixed SpecCopy.

(** C98: an object, its copies, their copies; any of them assigned to each other; any calls on any of them, in any order. Whatever
    happened, each object that has an alphabet can parse, and gives words that spell the sequence without the symbols that none of
    the objects has accepted. *)
Theorem C98_parse : forall fl, flaws fl -> forall size N iter ops calls c i s al, chist fl (alone fl (new_vgram fl size iter)) ops calls c ->
  normal fl N (calls ++ [SParse s]) -> (Z.of_nat (length s) <= 2 ^ 40)%Z -> c_alphabet fl c i = Ok al ->
  exists ids c' al', c_parse fl c i s = Ok (ids, c') /\ c_alphabet fl c' i = Ok al' /\ spells al' ids (restrict (seen fl calls) s) /\ extends_by_symbols al al'.
Proof. exact copies_parse. Qed.
Print Assumptions C98_parse.
Theorem C98_double : forall lg, log_ok lg -> forall size N iter ops calls c i s al, chist (ieee lg) (alone (ieee lg) (new_vgram (ieee lg) size iter)) ops calls c ->
  normal (ieee lg) N (calls ++ [SParse s]) -> (Z.of_nat (length s) <= 2 ^ 40)%Z -> c_alphabet (ieee lg) c i = Ok al ->
  exists ids c' al', c_parse (ieee lg) c i s = Ok (ids, c') /\ c_alphabet (ieee lg) c' i = Ok al' /\ spells al' ids (restrict (seen (ieee lg) calls) s) /\
    extends_by_symbols al al'.
Proof. exact (fun lg H => copies_parse (ieee lg) (ieee_laws lg H)). Qed.
Print Assumptions C98_double.

(** The words of each object come from the sequences that the objects have accepted. *)
Theorem C98_words : forall fl, flaws fl -> forall size N iter ops calls c i al, chist fl (alone fl (new_vgram fl size iter)) ops calls c -> normal fl N calls ->
  c_alphabet fl c i = Ok al -> forall w, In w al -> w <> [] /\ occurs (fed fl calls) w.
Proof. exact copies_words. Qed.
Print Assumptions C98_words.

(** Each of them can be trained and updated. *)
Theorem C98_train : forall fl, flaws fl -> forall size N iter ops calls c i o, chist fl (alone fl (new_vgram fl size iter)) ops calls c -> nth_error (c_parts c) i = Some o ->
  (forall e s, normal fl N (calls ++ [SAccept e s]) -> roomy fl size (calls ++ [SAccept e s]) -> exists c', c_accept fl e c i s = Ok c') /\
  (normal fl N (calls ++ [SUpdate]) -> exists c' al, c_update fl c i = Ok c' /\ c_alphabet fl c' i = Ok al).
Proof. exact copies_train. Qed.
Print Assumptions C98_train.

(** What is done with the others does not change the frequencies of an object, and its words keep their numbers; symbols may be added. *)
Theorem C98_others : forall fl, flaws fl -> forall size N iter ops calls c op new c' i o, chist fl (alone fl (new_vgram fl size iter)) ops calls c ->
  cstep fl calls c op new c' -> normal fl N (calls ++ new) -> nth_error (c_parts c) i = Some o -> ~ changes fl op i ->
  c_freqs fl c' i = c_freqs fl c i /\ (forall al, c_alphabet fl c i = Ok al -> exists al', c_alphabet fl c' i = Ok al' /\ extends_by_symbols al al').
Proof. exact copies_others. Qed.
Print Assumptions C98_others.

(** But they are trained together: whichever of them is updated, it gets the same words. *)
Theorem C98_same : forall fl (c : copies fl) i j c1 c2, c_update fl c i = Ok c1 -> c_update fl c j = Ok c2 -> c_alphabet fl c1 i = c_alphabet fl c2 j.
Proof. exact copies_same. Qed.
Print Assumptions C98_same.

(** So a copy is not independent: an object that never accepted anything has the word that its copy accepted. *)
Theorem C98_refuted_independent : exists c, chist exf (alone exf (new_vgram exf 10 1)) [CCopy 0; CCall 1 (VCall (feed [7]%Z)); CCall 0 (VCall SUpdate)] [feed [7]%Z; SUpdate] c /\
  c_alphabet exf c 0 = Ok [[7]]%Z /\ c_freqs exf c 0 = Ok [1]%Z.
Proof.
  destruct (glance_some 0 joint _ run_joint ltac:(discriminate)) as (c & H & E). cbn [map List.seq] in E. injection E as E1 E2. exists c. split; [exact H|]. now split.
Qed.
Print Assumptions C98_refuted_independent.
(** And its alphabet can get longer without a call on it. *)
Theorem C98_refuted_unchanged : exists c, chist exf (alone exf (new_vgram exf 10 1)) [CCall 0 (VCall (feed [1; 2]%Z)); CCall 0 (VCall SUpdate); CCopy 0; CCall 1 (VCall (feed [3]%Z))]
    [feed [1; 2]%Z; SUpdate; feed [3]%Z] c /\ normal exf 2000 [feed [1; 2]%Z; SUpdate; feed [3]%Z] /\ c_alphabet exf c 0 = Ok [[1]; [2]; [3]]%Z /\ c_freqs exf c 0 = Ok [1; 1]%Z.
Proof.
  destruct (glance_some 1 learned _ run_learned ltac:(discriminate)) as (c & H & E). cbn [map List.seq] in E. injection E as E1 E2 _ _. exists c. split; [exact H|].
  split; [exact learned_limits|]. now split.
Qed.
Print Assumptions C98_refuted_unchanged.

(** Three objects: the second has gone on to other words, the third was assigned the first. *)
Example C98_case : exists ops calls c, chist exf (alone exf (new_vgram exf 10 1)) ops calls c /\
  (forall op, op = SParse [1; 1]%Z \/ op = SUpdate \/ op = feed [1; 1]%Z -> normal exf 2000 (calls ++ [op]) /\ roomy exf 10 (calls ++ [op])) /\
  c_alphabet exf c 0 = Ok [[1]; [2]; [3]]%Z /\ c_alphabet exf c 1 = Ok [[1]; [1; 1]; [2]; [3]]%Z /\ c_alphabet exf c 2 = Ok [[1]; [2]; [3]]%Z /\
  In (CAssign 2 0) ops /\ In (CCopy 1) ops.
Proof.
  destruct (glance_some 2 family _ run_family ltac:(discriminate)) as (c & H & E). cbn [map List.seq] in E. injection E as E1 _ E2 _ E3 _.
  exists (map cop_of family), (flat_map call_of family), c. split; [exact H|]. split; [exact family_limits|]. split; [exact E1|]. split; [exact E2|]. split; [exact E3|].
  split; cbn; tauto.
Qed.
