(** Executions of saving and loading on doubles, used in examples and refutations. *)
From Coq Require Import Ascii String.
From Flocq Require Import BinarySingleNaN.
From Verif Require Import Base Spec FloatOps FloatLaws FloatIEEE FloatExample ModelTok ModelDict Maps ModelCoder ModelStat ModelBuilder
  ModelStream ModelVGram ModelString ModelJson ModelPersist SpecTok CoderProofs TokProofs DictProofs SpecStat SpecBuilder EnvExample BuilderRuns StreamRuns VGramRuns StringRuns PropsStreamLemmas PropsVGramLemmas
  SpecJson SpecStream SpecVGram SpecString SpecPersist.
Local Open Scope string_scope.
Local Open Scope list_scope.

(** Printing and reading of a single number. *)
Definition toy (x : F exf) : float_io (F exf) := {| io_show := fun _ => Some (txt "0.5"); io_read := fun _ => Some x |}.
Lemma toy_ok x : io_ok (toy x) x.
Proof.
  exists (txt "0.5"). split; [reflexivity|]. split; [|reflexivity]. exists [], [48%Z], (txt ".5"), []. split; [reflexivity|]. split; [now left|].
  split; [exists 0%Z; split; [discriminate|]; split; [constructor; [unfold digit; lia|constructor]|]; now split|]. split; [|split; [now left|left; discriminate]].
  right. exists (txt "5"). split; [discriminate|]. split; [|reflexivity]. constructor; [|constructor]. unfold digit. change (48 <= 53 <= 57)%Z. lia.
Qed.
Lemma toy_exact z : exists io, minp_exact exf io z.
Proof. destruct (zminp z) as [x|] eqn:E; [exists (toy x); intros y Hy; assert (y = x) by congruence; subst y; apply toy_ok|exists (toy (fofZ exf 0)); intros y Hy; congruence]. Qed.

(** The minimum probability of streams that have seen very little is -1. *)
Definition minus1 : F exf := fneg exf (fofZ exf 1).
Definition is_minus1 (z : stream exf) : bool :=
  (match zminp z with Some x => match B2SF x with SpecFloat.S754_finite true m e => Pos.eqb m 4503599627370496 && Z.eqb e (-52) | _ => false end | None => false end)%bool.
Lemma minus1_exact z : is_minus1 z = true -> minp_exact exf (toy minus1) z.
Proof.
  unfold is_minus1. intros H x Ex. rewrite Ex in H. assert (E : B2SF x = B2SF (minus1 : binary_float 53 1024)).
  { transitivity (SpecFloat.S754_finite true 4503599627370496 (-52)); [|vm_compute; reflexivity]. destruct (B2SF x) as [s|s| |[] m e]; try discriminate H.
    apply andb_prop in H as [H1 H2]. apply Pos.eqb_eq in H1. apply Z.eqb_eq in H2. now subst. }
  apply B2SF_inj in E. rewrite E. apply toy_ok.
Qed.

(** Words as tokens. *)
Definition word_ops : list (top exf) := [tfeed (txt "to be or"); TUpdate].
Lemma run_word_load : (z0 <- new_tstream exf 10 false true ;; z <- run_t z0 word_ops ;; file <- save_tstream exf (toy minus1) true z ;; z' <- load_tstream exf (toy minus1) file ;;
  '(p, _) <- t_parse exf true z (txt "be not to") ;; '(p', _) <- t_parse exf true z' (txt "be not to") ;; Ok (is_minus1 (tst z), p, p'))
  = Ok (true, [txt "be"; txt "to"], []).
Proof. vm_compute. reflexivity. Qed.

(** A character that is met in a parse, another one in training; then the stream is loaded. *)
Definition resaved (z : tstream exf) : outcome (bool * tstream exf) :=
  file <- save_tstream exf (toy minus1) true z ;; z' <- load_tstream exf (toy minus1) file ;; Ok (is_minus1 (tst z), z').
Definition later_ops : list (top exf) := [TParse (txt "b"); tfeed (txt "c"); TUpdate].
Lemma run_collision : (z0 <- new_tstream exf 10 false false ;; z <- run_t z0 [tfeed (txt "a"); TUpdate] ;; '(m, z1) <- resaved z ;; z2 <- run_t z1 later_ops ;; '(m', z3) <- resaved z2 ;;
  '(p1, z4) <- t_parse exf true z3 (txt "c") ;; '(p2, z5) <- t_parse exf true z4 (txt "d") ;; '(p3, z6) <- t_parse exf true z5 (txt "c") ;;
  a1 <- t_alphabet exf z4 ;; a3 <- t_alphabet exf z6 ;; Ok (m && m', (p1, p3), (a1, a3)))%bool
  = Ok (true, ([txt "c"], [txt "d"]), ([txt "a"; txt "c"], [txt "a"; txt "d"])).
Proof. vm_compute. reflexivity. Qed.

(** New symbols after the update. *)
Lemma run_unsaved : look (run_s (new_stream exf 10) [feed [1]; SUpdate; feed [2]]%Z) = Some (Ok [[1]; [2]], [1])%Z.
Proof. vm_compute. reflexivity. Qed.
Lemma run_saved : look (run_s (new_stream exf 10) [feed [1; 2]; SUpdate]%Z) = Some (Ok [[1]; [2]], [1; 1])%Z.
Proof. vm_compute. reflexivity. Qed.
Lemma pair_fit : (v <- tv_fit exf true (listed [0; 1]%Z 100) (new_tvgram exf 10 1) pair_texts ;; Ok (tv_freqs exf v)) = Ok [2; 2]%Z.
Proof. vm_compute. reflexivity. Qed.
