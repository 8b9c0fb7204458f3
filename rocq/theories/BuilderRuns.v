(** Executions of a builder on doubles, used in examples and refutations. *)
From Verif Require Import Base Spec FloatOps FloatLaws FloatIEEE FloatExample ModelDict Maps ModelStat ModelBuilder
  SpecStat SpecBuilder EnvExample PropsStatLemmas.

Definition rep (n : nat) (s : seq) : seq := concat (repeat s n).
Definition runs (ss : list seq) : list (env exf * seq) := map (fun s => (exenv, s)) ss.
Fixpoint run_b (b : builder exf) (ss : list seq) : option (builder exf) :=
  match ss with
  | [] => Some b
  | s :: t => match accept exf exenv b s with Ok b' => run_b b' t | _ => None end
  end.
Lemma run_b_ok b0 : forall ss ops b b', bhist exf b0 ops b -> run_b b ss = Some b' -> bhist exf b0 (ops ++ accepts exf (runs ss)) b'.
Proof.
  induction ss as [|s t IH]; intros ops b b' H E; cbn [run_b] in E.
  - injection E as <-. unfold accepts, runs. cbn. now rewrite app_nil_r.
  - destruct (accept exf exenv b s) as [b1| | |] eqn:Ea; try discriminate E.
    assert (H1 : bhist exf b0 (ops ++ [BAccept exenv s]) b1) by (now apply (bh_step exf b0 ops b)).
    pose proof (IH _ _ _ H1 E) as G. now rewrite <- app_assoc in G.
Qed.
(** [k] of the states before and after the last accept. *)
Definition watch {A} (b : builder exf) (ss : list seq) (s : seq) (k : builder exf -> outcome (builder exf) -> A) : option A :=
  match run_b b ss with Some b1 => Some (k b1 (accept exf exenv b1 s)) | None => None end.
Lemma watch_ok {A} b ss s k (a : A) : watch b ss s k = Some a -> exists b1,
  bhist exf b (accepts exf (runs ss)) b1 /\ k b1 (accept exf exenv b1 s) = a.
Proof.
  unfold watch. destruct (run_b b ss) as [b1|] eqn:E; [|easy]. intros [= <-]. exists b1. split; [|easy].
  exact (run_b_ok b ss [] b b1 (bh_nil _ _) E).
Qed.

(** Two updates: an expansion, then a reduction. *)
Definition first_text : seq := rep 590 [1; 2]%Z.
Definition second_text : seq := rep 1190 [1; 2]%Z ++ [3; 4; 5; 6; 7; 8]%Z.
Definition seen (b1 : builder exf) (o : outcome (builder exf)) :=
  match o with
  | Ok b2 => Some ((length (bheap b1), bpop b1), (map seqs (bheap b2), bptr b2, result_ptr exf b2, bpop b2))
  | _ => None
  end.
Lemma two_updates : watch (new_builder exf 7) [first_text] second_text seen =
  Some (Some ((2, false),
    ([[[1]; [2]]; [[1]; [1; 2]; [2]; [2; 1]; [3]; [4]; [5]; [6]; [7]; [8]];
      [[1]; [1; 2]; [2]; [3]; [4]; [5]; [6]; [7]; [8]]]%Z, 2, 2, true))).
Proof. vm_compute. reflexivity. Qed.

(** Size 0 with three symbols: the third accept uses an invalidated iterator. *)
Lemma size_zero : watch (new_builder exf 0) [rep 395 [1; 2; 3]; rep 395 [1; 2; 3]]%Z (rep 395 [1; 3; 2]%Z)
  (fun _ o => match o with UB IterInvalid => true | _ => false end) = Some true.
Proof. vm_compute. reflexivity. Qed.
