(** Executions on doubles for C87. *)
From Coq Require Import Ascii String.
From Verif Require Import Base Spec FloatOps FloatExample ModelTok ModelDict Maps ModelCoder ModelStat ModelBuilder
  ModelStream ModelVGram ModelString ModelJson ModelPersist SpecTok TokProofs DictProofs SpecStat SpecBuilder EnvExample StreamRuns StringRuns PersistRuns SaveRuns PropsStreamLemmas
  SpecJson SpecStream SpecVGram SpecString SpecPersist.
Local Open Scope string_scope.
Local Open Scope list_scope.

(** A small text stream. *)
Lemma run_small : (z0 <- new_tstream exf 10 false false ;; z <- run_t z0 [tfeed (txt "ab"); TUpdate] ;; file <- save_tstream exf (toy minus1) true z ;;
  Ok (is_minus1 (tst z), char_toks (ttok z), s_alphabet exf (tst z), t_freqs exf z))
  = Ok (true, true, Ok [[0]; [1]]%Z, [1; 1]%Z).
Proof. vm_compute. reflexivity. Qed.
Lemma small_ids : exists tk, tok_transform true (new_tok CharTok) (txt "ab") = Ok ([0; 1]%Z, tk).
Proof. eexists. vm_compute. reflexivity. Qed.
Lemma fed_once (z0 : tstream exf) s z ids tk : run_t z0 [tfeed s; TUpdate] = Ok z -> tok_transform true (ttok z0) s = Ok (ids, tk) ->
  shist exf (tst z0) [feed ids; SUpdate] (tst z).
Proof.
  intros H E. cbn [run_t run_top tfeed] in H. apply bind_ok in H as (z1 & H1 & H). apply bind_ok in H as (z2 & H2 & [= <-]).
  unfold t_accept in H1. rewrite E in H1. cbn [bind] in H1. apply bind_ok in H1 as (s1 & H1 & [= <-]). unfold t_update in H2. cbn [tst] in H2. apply bind_ok in H2 as (s2 & H2 & [= <-]). cbn [tst].
  apply (sh_step exf _ [feed ids] s1 SUpdate); [|exact H2]. exact (sh_step exf _ [] (tst z0) (feed ids) s1 (sh_nil _ _) H1).
Qed.
