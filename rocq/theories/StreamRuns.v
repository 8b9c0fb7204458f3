(** Executions of a stream on doubles, used in examples and refutations. *)
From Verif Require Import Base Spec FloatOps FloatLaws FloatIEEE FloatExample ModelDict Maps ModelCoder ModelStat ModelBuilder
  ModelStream SpecStat SpecBuilder SpecStream EnvExample BuilderRuns.

Definition run_op (z : stream exf) (op : sop exf) : outcome (stream exf) :=
  match op with
  | SAccept e s => s_accept exf e z s
  | SParse s => '(_, z') <- s_parse exf z s ;; Ok z'
  | SUpdate => s_update exf z
  end.
Fixpoint run_s (z : stream exf) (ops : list (sop exf)) : outcome (stream exf) :=
  match ops with [] => Ok z | op :: t => z' <- run_op z op ;; run_s z' t end.
Lemma run_op_ok z op z' : run_op z op = Ok z' -> sstep exf z op z'.
Proof.
  destruct op as [e s|s|]; cbn [run_op sstep]; try easy. destruct (s_parse exf z s) as [[ids z1]| | |]; try easy.
  cbn [bind]. intros [= <-]. now exists ids.
Qed.
Lemma run_s_ok z0 : forall t ops z z', shist exf z0 ops z -> run_s z t = Ok z' -> shist exf z0 (ops ++ t) z'.
Proof.
  induction t as [|op t IH]; intros ops z z' H E; cbn [run_s] in E.
  - injection E as <-. now rewrite app_nil_r.
  - destruct (run_op z op) as [z1| | |] eqn:Eo; try discriminate E. cbn [bind] in E.
    replace (ops ++ op :: t) with ((ops ++ [op]) ++ t) by (now rewrite <- app_assoc).
    apply (IH _ z1); [|exact E]. apply (sh_step exf z0 ops z); [exact H|now apply run_op_ok].
Qed.

Definition feed (s : seq) : sop exf := SAccept exenv s.
Definition look (o : outcome (stream exf)) : option (outcome (list seq) * list Z) :=
  match o with Ok z => Some (s_alphabet exf z, s_freqs exf z) | _ => None end.
Lemma look_ok z0 ops al fs : look (run_s z0 ops) = Some (al, fs) -> exists z, shist exf z0 ops z /\ s_alphabet exf z = al /\ s_freqs exf z = fs.
Proof.
  unfold look. destruct (run_s z0 ops) as [z| | |] eqn:E; try easy. intros [= <- <-]. exists z. split; [|easy].
  exact (run_s_ok z0 ops [] z0 z (sh_nil _ _) E).
Qed.

(** After an update, an expansion that the stream has not seen: several continuations. *)
Definition opening : list (sop exf) := [feed [1]; SUpdate; feed (rep 1180 [1])]%Z.
Definition endings : list (list (sop exf)) :=
  [[]; [SUpdate]; [feed [7]]; [feed [7]; SParse [7]]; [feed [6; 7]; SParse [7; 6]; SParse [6]]]%Z.
Lemma run_s_app : forall a z b, run_s z (a ++ b) = (z' <- run_s z a ;; run_s z' b).
Proof. induction a as [|op a IH]; intros z b; cbn; [easy|]. destruct (run_op z op); cbn; try easy. Qed.
Definition sights : list (option (outcome (list seq) * list Z)) :=
  [Some (Ok [[1]], [1]); Some (Ok [[1]; [1; 1]], [1; 0; 0]); Some (Ok [[1]], [1]); Some (Ok [[1]; [7]], [1]);
   Some (Ok [[1]; [7]; [6]; [6]], [1])]%Z.
Lemma ending_runs : (let o := run_s (new_stream exf 10) opening in map (fun t => look (z <- o ;; run_s z t)) endings) = sights.
Proof. vm_compute. reflexivity. Qed.
Lemma some_inj {A} (a b : A) : Some a = Some b -> a = b.
Proof. now intros [= <-]. Qed.
Lemma ending_run i t r : nth_error endings i = Some t -> nth_error sights i = Some (Some r) ->
  exists z, shist exf (new_stream exf 10) (opening ++ t) z /\ s_alphabet exf z = fst r /\ s_freqs exf z = snd r.
Proof.
  intros Ht Hr. apply look_ok. destruct r as [al fs]. cbn [fst snd]. rewrite run_s_app.
  pose proof ending_runs as E. cbv zeta in E. apply (f_equal (fun l => nth_error l i)) in E. rewrite Hr in E.
  rewrite (map_nth_error _ _ _ Ht) in E. exact (some_inj _ _ E).
Qed.
