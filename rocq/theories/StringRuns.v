(** Executions of the text interfaces on doubles, used in examples and refutations. *)
From Coq Require Import Ascii String.
From Verif Require Import Base Spec FloatOps FloatLaws FloatIEEE FloatExample ModelTok ModelDict Maps ModelCoder ModelStat ModelBuilder
  ModelStream ModelVGram ModelString SpecTok CoderProofs TokProofs DictProofs SpecStat SpecBuilder EnvExample StreamRuns VGramRuns PropsStreamLemmas PropsVGramLemmas SpecStream SpecVGram SpecString.
Local Open Scope string_scope.
Local Open Scope list_scope.

Definition run_top (z : tstream exf) (op : top exf) : outcome (tstream exf) :=
  match op with
  | TAccept e s => t_accept exf true e z s
  | TParse s => '(_, z') <- t_parse exf true z s ;; Ok z'
  | TUpdate => t_update exf z
  end.
Fixpoint run_t (z : tstream exf) (ops : list (top exf)) : outcome (tstream exf) :=
  match ops with [] => Ok z | op :: t => z' <- run_top z op ;; run_t z' t end.
Lemma run_top_ok z op z' : run_top z op = Ok z' -> tstep exf z op z'.
Proof.
  destruct op as [e s|s|]; cbn [run_top tstep]; try easy. destruct (t_parse exf true z s) as [[p z1]| | |]; try easy.
  cbn [bind]. intros [= <-]. now exists p.
Qed.
Lemma run_t_ok z0 : forall t ops z z', thist exf z0 ops z -> run_t z t = Ok z' -> thist exf z0 (ops ++ t) z'.
Proof.
  induction t as [|op t IH]; intros ops z z' H E; cbn [run_t] in E.
  - injection E as <-. now rewrite app_nil_r.
  - destruct (run_top z op) as [z1| | |] eqn:Eo; try discriminate E. cbn [bind] in E.
    replace (ops ++ op :: t) with ((ops ++ [op]) ++ t) by (now rewrite <- app_assoc).
    apply (IH _ z1); [|exact E]. apply (tt_step exf z0 ops z); [exact H|now apply run_top_ok].
Qed.
Definition tfeed (s : text) : top exf := TAccept exenv s.
(** What a parse of [s] gives after the calls [ops]. *)
Definition pieces_after (words : bool) (ops : list (top exf)) (s : text) : outcome (list text) :=
  z0 <- new_tstream exf 10 false words ;; z <- run_t z0 ops ;; '(p, _) <- t_parse exf true z s ;; Ok p.
Lemma pieces_ok words ops s p : pieces_after words ops s = Ok p ->
  exists z0 z z', new_tstream exf 10 false words = Ok z0 /\ thist exf z0 ops z /\ t_parse exf true z s = Ok (p, z').
Proof.
  unfold pieces_after. intro H. apply bind_ok in H as (z0 & H0 & H). apply bind_ok in H as (z & Hz & H). apply bind_ok in H as ([p' z'] & Hp & H).
  injection H as ->. exists z0, z, z'. split; [exact H0|]. split; [exact (run_t_ok z0 ops [] z0 z (tt_nil _ _) Hz)|exact Hp].
Qed.
Definition text_ops : list (top exf) := [tfeed (txt "Abba"); TUpdate; TParse (txt "xa")].
Lemma run_chars : pieces_after false text_ops (txt "A cab, x!") = Ok [txt "a"; txt "a"; txt "b"].
Proof. vm_compute. reflexivity. Qed.
Lemma run_words : pieces_after true [tfeed (txt "to be or"); TUpdate] (txt "be not to") = Ok [txt "be"; txt "to"].
Proof. vm_compute. reflexivity. Qed.
Lemma text_normal : tnormal exf 10 text_ops.
Proof.
  split; [|split; [lia|split; [repeat constructor; cbn; lia|split; vm_compute; discriminate]]].
  intros e s [E|[E|[E|[]]]]; try discriminate E. injection E as <- _. exact exenv_ok.
Qed.

(** Fitting on two texts. *)
Definition pair_texts : list text := [txt "Aba"; txt "b!"].
Lemma pair_codes : exists tk, tok_transform_all true (new_tok CharTok) pair_texts = Ok ([[0; 1; 0]; [1]]%Z, tk).
Proof. eexists. vm_compute. reflexivity. Qed.
Lemma pair_look : look (run_s (new_stream exf 10) [feed [0; 1; 0]; feed [1]; SUpdate]%Z) = Some (Ok [[0]; [1]], [2; 2])%Z.
Proof. vm_compute. reflexivity. Qed.
Lemma pair_good : good_fit exf 10 10 [] (listed [0; 1]%Z 100) (new_vgram exf 10 1) [[0; 1; 0]; [1]]%Z [feed [0; 1; 0]; feed [1]; SUpdate]%Z [[0]; [1]]%Z.
Proof.
  assert (Hin : forall e s, In (SAccept e s) [feed [0; 1; 0]; feed [1]; SUpdate]%Z -> e = exenv).
  { intros e s [E|[E|[E|[]]]]; try discriminate E; now injection E. }
  split; [easy|]. split; [cbn; lia|]. split; [reflexivity|]. split; [constructor|].
  split; [apply calm_nil; intros s []|]. split; [|split; [|split; [|split; [|split]]]].
  - split; [intros e s Hi; rewrite (Hin e s Hi); exact exenv_ok|]. split; [lia|]. split; [repeat constructor; cbn; lia|].
    split; [vm_compute; discriminate|vm_compute; discriminate].
  - split; [intros e s Hi; rewrite (Hin e s Hi); exact exenv_draws|]. split; [lia|vm_compute; discriminate].
  - destruct (look_ok _ _ _ _ pair_look) as (z & H & Ha & _). now exists z.
  - intros k Hk. cbn in Hk. cbn [listed w_term]. apply Nat.eqb_neq. lia.
  - intros x [<-|[<-|[]]]; (split; [intros c Hc; cbn in Hc; cbn; intuition congruence|cbn; lia]).
  - vm_compute. discriminate.
Qed.
Lemma pair_out : (v <- tv_fit exf true (listed [0; 1]%Z 100) (new_tvgram exf 10 1) pair_texts ;;
  '(r, _) <- tv_transform exf true (listed [] 100) v [txt "Bab, z"; []] ;; Ok r) = Ok [txt "b a b"; []].
Proof. vm_compute. reflexivity. Qed.
Lemma run_option : (z <- new_tstream exf 10 true false ;; z' <- t_accept exf true exenv z (txt "Ab a") ;; Ok tt) = Ok tt.
Proof. vm_compute. reflexivity. Qed.
