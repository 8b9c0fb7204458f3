(** An execution on doubles for C73. *)
From Coq Require Import Ascii String.
From Verif Require Import Base FloatOps FloatExample ModelTok ModelDict Maps ModelCoder ModelStat ModelBuilder
  ModelStream ModelVGram ModelString ModelShared DictProofs EnvExample VGramRuns StringRuns SpecStream SpecVGram SpecString SpecShared.
Local Open Scope string_scope.
Local Open Scope list_scope.

Fixpoint run_g (g : group exf) (cs : list (gcall exf)) : outcome (list answer * group exf) :=
  match cs with
  | [] => Ok ([], g)
  | c :: r => '(a, g1) <- g_call exf g c ;; '(l, g2) <- run_g g1 r ;; Ok (a :: l, g2)
  end.
Lemma run_g_ok g0 : forall cs log g l g', ghist exf g0 log g -> run_g g cs = Ok (l, g') -> ghist exf g0 (log ++ combine cs l) g'.
Proof.
  induction cs as [|c cs IH]; intros log g l g' H E; cbn [run_g] in E.
  - injection E as <- <-. cbn. now rewrite app_nil_r.
  - apply bind_ok in E as ([a g1] & Ea & E). apply bind_ok in E as ([l2 g2] & E2 & E). injection E as <- <-.
    cbn [combine]. replace (log ++ (c, a) :: combine cs l2) with ((log ++ [(c, a)]) ++ combine cs l2) by (now rewrite <- app_assoc).
    apply (IH _ g1); [|exact E2]. exact (gh_step exf g0 log g c a g1 H Ea).
Qed.

(** A stream and a StringVGram with the same character tokenizer, which was used before. *)
Definition pair_group : group exf := mkGroup [MStream (new_stream exf 10) false false; MVGram (new_vgram exf 10 1)] (new_tok CharTok).
Definition fit_call : mcall exf := CFit (listed [0; 1]%Z 100) pair_texts.
Definition pair_calls : list (gcall exf) :=
  [Direct (txt "zb"); On 1 fit_call; On 0 (CAccept exenv (txt "Cab a")); On 0 CUpdate; On 0 (CParse (txt "back")); On 1 (CTransform (listed []%Z 100) [txt "cab"]);
   On 0 CAlphabet; On 1 CAlphabet; On 0 CFreqs].
Definition pair_answers : list answer :=
  [ADone; ADone; ADone; ADone; ATexts [txt "b"; txt "a"; txt "c"]; ATexts [txt "a b"]; ATexts [txt "c"; txt "a"; txt "b"]; ATexts [txt "a"; txt "b"]; ACounts [1; 2; 1]%Z].
Lemma run_pair : ('(l, g) <- run_g pair_group pair_calls ;; Ok (l, tfwd (gtok g))) =
  Ok (pair_answers, [(txt "z", 0); (txt "b", 1); (txt "a", 2); (txt "c", 3); (txt "k", 4)]%Z).
Proof. vm_compute. reflexivity. Qed.
