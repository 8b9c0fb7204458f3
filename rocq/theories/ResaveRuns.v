(** Executions on doubles for C69 and C71. *)
From Coq Require Import Ascii String.
From Verif Require Import Base Spec FloatOps FloatLaws FloatIEEE FloatExample ModelTok ModelDict Maps ModelCoder ModelStat ModelBuilder
  ModelStream ModelVGram ModelString ModelJson ModelPersist SpecTok CoderProofs TokProofs DictProofs SpecStat SpecBuilder EnvExample BuilderRuns StreamRuns VGramRuns StringRuns PersistRuns
  SpecJson SpecStream SpecVGram SpecString SpecPersist.
Local Open Scope string_scope.
Local Open Scope list_scope.

(** A second update after more data. *)
Lemma run_stale : look (run_s (new_stream exf 10) [feed [1]; SUpdate; feed [1; 1]; SUpdate]%Z) = Some (Ok [[1]], [1])%Z.
Proof. vm_compute. reflexivity. Qed.

Definition glance (z0 : stream exf) (a b : list (sop exf)) : outcome (list Z * list Z * bool) :=
  z <- run_s z0 a ;; z1 <- s_update exf z ;; z2 <- run_s z1 b ;;
  Ok (s_freqs exf z, s_freqs exf z1, Nat.eqb (length (bheap (zb z2))) (length (bheap (zb z1)))).
Lemma glance_ok z0 a b f1 f2 : glance z0 a b = Ok (f1, f2, true) -> exists z z1 z2, shist exf z0 a z /\ s_update exf z = Ok z1 /\ shist exf z1 b z2 /\
  length (bheap (zb z2)) = length (bheap (zb z1)) /\ s_freqs exf z = f1 /\ s_freqs exf z1 = f2.
Proof.
  unfold glance. intro H. apply bind_ok in H as (z & E & H). apply bind_ok in H as (z1 & E1 & H). apply bind_ok in H as (z2 & E2 & H).
  injection H as E3 E4 E5. apply Nat.eqb_eq in E5. exists z, z1, z2.
  split; [exact (run_s_ok _ _ [] _ _ (sh_nil _ _) E)|]. split; [exact E1|]. split; [exact (run_s_ok _ _ [] _ _ (sh_nil _ _) E2)|]. now split.
Qed.
Lemma run_glance : glance (new_stream exf 10) [feed [1]]%Z [feed [1; 1]]%Z = Ok ([], [1], true)%Z.
Proof. vm_compute. reflexivity. Qed.

(** Training stopped in the second round; the object, and the object loaded from its file, trained on a text with a new letter. *)
Definition more_texts : list text := [txt "abc"; txt "c"].
Lemma run_resume : (v <- tv_fit exf true (listed [0; 1; 0]%Z 2) (new_tvgram exf 10 2) pair_texts ;; file <- save_tvgram exf (toy minus1) true v ;;
  v' <- load_tvgram exf (toy minus1) file ;; u <- tv_fit exf true (listed [0; 1; 0; 1]%Z 100) v more_texts ;;
  Ok (is_minus1 (vs (tv v)), (vfitted (tv v), vfitted (tv v'), tv_alphabet exf v), (tv_alphabet exf u, tv_freqs exf u),
    (match tv_fit exf true (listed [0; 1; 0; 1]%Z 100) v' more_texts with UB OobRead => true | _ => false end))) =
  Ok (true, (false, false, Ok [txt "a"; txt "b"]), (Ok [txt "a"; txt "b"; txt "c"], [1; 1; 2]%Z), true).
Proof. vm_compute. reflexivity. Qed.
