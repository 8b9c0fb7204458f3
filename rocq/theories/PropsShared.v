(** PropsShared: C73. *)
From Coq Require Import Ascii String.
From Verif Require Import Base FloatOps FloatExample ModelTok ModelDict Maps ModelCoder ModelStat ModelBuilder
  ModelStream ModelVGram ModelString ModelShared SpecExtra SharedProofs SharedRuns SpecStream SpecVGram SpecString SpecShared.
Local Open Scope string_scope.
Local Open Scope list_scope.

(** C73: objects that share a tokenizer do not notice each other. Whatever was called on the other objects and on the tokenizer itself, the calls on
    object [i] were answered as if it had a tokenizer of its own, and so will be the next call, even if it fails. *)
Theorem C73_alone : forall fl g0 i m0 k, gtok g0 = new_tok k -> nth_error (gmem g0) i = Some m0 -> fresh_member fl m0 ->
  forall log g, ghist fl g0 log g ->
  exists m t, mhist fl m0 (new_tok k) (of_member fl i log) m t /\
    forall c, through (fun r => fst (fst r)) (m_call fl m t c) = through fst (g_call fl g (On i c)).
Proof. exact shared. Qed.
Print Assumptions C73_alone.

(** The answers to the calls on an object depend on these calls only, not on the company it is in. *)
Theorem C73_company : forall fl g0 i m0 k g0' i', gtok g0 = new_tok k -> nth_error (gmem g0) i = Some m0 ->
  gtok g0' = new_tok k -> nth_error (gmem g0') i' = Some m0 -> fresh_member fl m0 ->
  forall log g log' g', ghist fl g0 log g -> ghist fl g0' log' g' -> map fst (of_member fl i log) = map fst (of_member fl i' log') ->
  of_member fl i log = of_member fl i' log'.
Proof. exact apart. Qed.
Print Assumptions C73_company.

(** A stream and a StringVGram, trained in turns; the tokenizer had seen another text, so that the ids are not those of an object alone. *)
Example C73_case : exists g, ghist exf pair_group (combine pair_calls pair_answers) g /\
  gtok pair_group = new_tok CharTok /\ Forall (fresh_member exf) (gmem pair_group) /\
  of_member exf 0 (combine pair_calls pair_answers) = [(CAccept EnvExample.exenv (txt "Cab a"), ADone); (CUpdate, ADone); (CParse (txt "back"), ATexts [txt "b"; txt "a"; txt "c"]);
    (CAlphabet, ATexts [txt "c"; txt "a"; txt "b"]); (CFreqs, ACounts [1; 2; 1]%Z)] /\
  tok_transform true (gtok g) (txt "cab") = Ok ([3; 2; 1]%Z, gtok g).
Proof.
  pose proof run_pair as H. apply DictProofs.bind_ok in H as ([l g] & E & H). injection H as -> Et. exists g.
  split; [exact (run_g_ok pair_group pair_calls [] pair_group _ g (gh_nil _ _) E)|]. split; [reflexivity|]. split; [repeat constructor|]. split; [reflexivity|].
  assert (Hk : tkind (gtok g) = CharTok) by exact (proj2 (proj2 (ghist_tok exf pair_group _ g (TokProofs.tok_ok_new CharTok) (run_g_ok pair_group pair_calls [] pair_group _ g (gh_nil _ _) E)))).
  destruct (gtok g) as [k f b]. cbn in Hk, Et. subst. reflexivity.
Qed.
