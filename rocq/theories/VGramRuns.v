(** Executions of IntVGram on doubles, used in examples and refutations. *)
From Verif Require Import Base Spec FloatOps FloatLaws FloatIEEE FloatExample ModelDict Maps ModelCoder ModelStat ModelBuilder
  ModelStream ModelVGram EnvExample BuilderRuns.

(** rand() answers as listed, then 0; isTerminated answers true at call [stop] only. *)
Definition listed (rands : list Z) (stop : nat) : world exf := mkWorld (fun k => nth k rands 0%Z) (fun k => Nat.eqb k stop) (fun _ => exenv).
Definition sight (o : outcome (bool * vgram exf)) : outcome (bool * outcome (list seq) * list Z * bool) :=
  '(f, v) <- o ;; Ok (f, s_alphabet exf (vs v), s_freqs exf (vs v), vfitted v).

Lemma run_plain : sight (fit exf (listed [0; 1]%Z 100) (new_vgram exf 10 1) [[1; 2; 1]; [2]]%Z) =
  Ok (true, Ok [[1]; [2]], [2; 2], true)%Z.
Proof. vm_compute. reflexivity. Qed.
Lemma run_stopped : sight (fit exf (listed [0; 1]%Z 1) (new_vgram exf 10 1) [[1; 2; 1]; [2]]%Z) = Ok (false, UB NullDeref, [], false).
Proof. vm_compute. reflexivity. Qed.
Lemma run_missed : sight (fit exf (listed [0; 0]%Z 100) (new_vgram exf 10 1) [[1]; [2]]%Z) = UB OobRead.
Proof. vm_compute. reflexivity. Qed.
Lemma run_no_rounds : sight (fit exf (listed [] 100) (new_vgram exf 10 0) [[1]]%Z) = UB NullDeref.
Proof. vm_compute. reflexivity. Qed.
(** Every sequence is drawn, but the last one only when the builder's result is fixed already. *)
Definition late_data : list seq := [[7]; rep 1180 [1]; rep 2360 [1]]%Z.
Definition late_world : world exf := listed [1; 2; 2; 0; 0; 0]%Z 100.
Lemma run_late : sight (fit exf late_world (new_vgram exf 10 2) late_data) = UB OobRead.
Proof. vm_compute. reflexivity. Qed.
