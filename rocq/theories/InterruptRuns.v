(** Concrete runs for C74 and C75. *)
From Coq Require Import Ascii String.
From Verif Require Import Base FloatOps FloatLaws FloatExample EnvExample ModelTok ModelDict Maps ModelCoder ModelStat ModelBuilder ModelStream ModelVGram ModelString
  ModelJson ModelPersist ModelPy DictProofs StreamRuns VGramRuns StringRuns SpecStat SpecBuilder PropsVGramLemmas SpecStream SpecVGram SpecInterrupt SpecPy.

(** A signal after the first of the two sequences was counted. *)
Lemma run_halfway : sight (fit exf (listed [0; 1]%Z 2) (new_vgram exf 10 1) [[1; 2; 1]; [2]]%Z) = Ok (true, Ok [[1]; [2]], [2; 1], true)%Z.
Proof. vm_compute. reflexivity. Qed.
Lemma halfway_good : good_fit exf 10 10 [] (quiet exf (listed [0; 1]%Z 2)) (new_vgram exf 10 1) [[1; 2; 1]; [2]]%Z [feed [1; 2; 1]; feed [2]; SUpdate]%Z [[1]; [2]]%Z.
Proof.
  destruct plain_good as (H1 & H2 & _ & H4 & H5 & H6 & H7 & H8 & _ & H9 & H10).
  split; [exact H1|]. split; [exact H2|]. split; [reflexivity|]. split; [exact H4|]. split; [exact H5|]. split; [exact H6|]. split; [exact H7|].
  split; [exact H8|]. split; [intros k _; reflexivity|]. split; [exact H9|exact H10].
Qed.

(** A signal at every point. *)
Definition stubborn : world exf := mkWorld (w_rand (listed [0; 1]%Z 0)) (fun _ => true) (w_env (listed [0; 1]%Z 0)).
Definition seen_py (o : outcome (pyanswer * pyobj exf)) : outcome (pyanswer * bool) :=
  '(a, o') <- o ;; Ok (a, match o' with PyInt _ v => vfitted v | PyStr _ v => vfitted (tv v) end).
Lemma run_deaf : seen_py (py_call exf stubborn (py_str exf 10 1) (PyFitTexts pair_texts)) = Ok (PySelf, true).
Proof. vm_compute. reflexivity. Qed.
Lemma run_hears : seen_py (py_call exf stubborn (py_int exf 10 1) (PyFit [[1; 2; 1]; [2]]%Z)) = Ok (PyNull, false).
Proof. vm_compute. reflexivity. Qed.
Lemma seen_py_str o a b : seen_py o = Ok (a, b) -> exists o', o = Ok (a, o') /\ match o' with PyInt _ v => vfitted v | PyStr _ v => vfitted (tv v) end = b.
Proof. unfold seen_py. intro H. apply bind_ok in H as ([a' o'] & -> & H). injection H as -> <-. now exists o'. Qed.
