(** Executions used for the properties from C63 on. *)
From Verif Require Import Base Spec FloatOps FloatLaws FloatIEEE FloatExample ModelDict Maps ModelCoder ModelStat ModelBuilder ModelStream
  SpecStat SpecBuilder EnvExample BuilderRuns StreamRuns SpecStream.
Local Open Scope Z_scope.

(** A model file with the words 5, 58 and 8, loaded for size 100; then a text of 2380 symbols, 58 again and again, is accepted twice. *)
Definition twice_coder : coder := mkCoder [(8, 1); (5, 0)] [(0, 5); (1, 8)].
Definition twice_start : outcome (stream exf) := loaded_stream exf twice_coder [3; 2; 0] [[0]; [1]; [0; 1]] 100 (flit exf 2 1000).
Definition twice_text : seq := rep 1190 [5; 8].
Definition twice_look (o : outcome (stream exf)) (t : seq) : option (outcome (list seq) * (bool * bool) * outcome (list seq)) :=
  match o with
  | Ok z0 => match s_accept exf exenv z0 t with
             | Ok z1 => match s_accept exf exenv z1 t with
                        | Ok z2 => match s_update exf z2 with
                                   | Ok z3 => Some (s_alphabet exf z0, (is_updated exf (zb z1) (zb z2), bpop (zb z1)), s_alphabet exf z3)
                                   | _ => None
                                   end
                        | _ => None
                        end
             | _ => None
             end
  | _ => None
  end.
Lemma twice_ok o t al al' : twice_look o t = Some (al, (true, false), al') ->
  exists z0 z1 z2 z3, o = Ok z0 /\ s_alphabet exf z0 = al /\
  s_accept exf exenv z0 t = Ok z1 /\ s_accept exf exenv z1 t = Ok z2 /\ reduced exf (zb z1) (zb z2) /\
  s_update exf z2 = Ok z3 /\ s_alphabet exf z3 = al'.
Proof.
  unfold twice_look. destruct o as [z0| | |]; try easy.
  destruct (s_accept exf exenv z0 t) as [z1| | |] eqn:E1; try easy.
  destruct (s_accept exf exenv z1 t) as [z2| | |] eqn:E2; try easy.
  destruct (s_update exf z2) as [z3| | |] eqn:E3; try easy.
  intros [= H1 H2 H3 H4]. exists z0, z1, z2, z3. split; [easy|].
  split; [exact H1|]. split; [exact E1|]. split; [exact E2|]. split; [|split; [exact E3|exact H4]].
  split; [|exact H3]. unfold is_updated in H2. now apply Nat.ltb_lt in H2.
Qed.
Lemma run_twice : twice_look twice_start twice_text = Some (Ok [[5]; [5; 8]; [8]], (true, false), Ok [[5]; [8]]).
Proof. vm_compute. reflexivity. Qed.
