(** Executions of objects and their copies on doubles. *)
From Verif Require Import Base Spec FloatOps FloatLaws FloatIEEE FloatExample DictProofs ModelDict Maps ModelCoder ModelStat ModelBuilder ModelStream ModelVGram ModelCopy
  SpecStat SpecBuilder EnvExample BuilderRuns StreamRuns SpecStream SpecVGram SpecMixed SpecCopy.

(** Steps without fit and transform. *)
Inductive simple := Copy (i : nat) | Assign (i j : nat) | Call (i : nat) (op : sop exf).
Definition cop_of (s : simple) : cop exf := match s with Copy i => CCopy i | Assign i j => CAssign i j | Call i op => CCall i (VCall op) end.
Definition call_of (s : simple) : list (sop exf) := match s with Call _ op => [op] | _ => [] end.
Definition run_c1 (c : copies exf) (s : simple) : outcome (copies exf) :=
  match s with
  | Copy i => copy exf c i
  | Assign i j => assign exf c i j
  | Call i op => o <- vget (c_parts c) i ;; z <- run_op (vs (object exf c o)) op ;; Ok (after_call exf c i (on_stream exf (object exf c o) z))
  end.
Fixpoint run_c (c : copies exf) (l : list simple) : outcome (copies exf) :=
  match l with [] => Ok c | s :: t => c' <- run_c1 c s ;; run_c c' t end.
Lemma run_c1_ok calls c s c' : run_c1 c s = Ok c' -> cstep exf calls c (cop_of s) (call_of s) c'.
Proof.
  destruct s as [i|i j|i op]; cbn [run_c1 cop_of call_of cstep]; [now split|now split|]. intro H.
  apply bind_ok in H as (o & Ho & H). apply bind_ok in H as (z & Hz & H). injection H as <-. exists o, (on_stream exf (object exf c o) z).
  split; [now apply vget_ok|]. split; [|reflexivity]. cbn [vstep]. split; [exact (run_op_ok _ _ _ Hz)|]. now split.
Qed.
Lemma run_c_ok c0 : forall t l c c', chist exf c0 (map cop_of l) (flat_map call_of l) c -> run_c c t = Ok c' -> chist exf c0 (map cop_of (l ++ t)) (flat_map call_of (l ++ t)) c'.
Proof.
  induction t as [|s t IH]; intros l c c' H E; cbn [run_c] in E.
  - injection E as <-. now rewrite app_nil_r.
  - apply bind_ok in E as (c1 & E1 & E). replace (l ++ s :: t) with ((l ++ [s]) ++ t) by (now rewrite <- app_assoc). apply (IH _ c1); [|exact E].
    rewrite map_app, flat_map_app. cbn [map flat_map]. rewrite app_nil_r. apply (ch_step exf c0 _ _ c); [exact H|now apply run_c1_ok].
Qed.
Definition glance (n : nat) (o : outcome (copies exf)) : list (outcome (list seq) * outcome (list Z)) :=
  match o with Ok c => map (fun i => (c_alphabet exf c i, c_freqs exf c i)) (List.seq 0 n) | _ => [] end.
Lemma glance_some n l x : glance (S n) (run_c (alone exf (new_vgram exf 10 1)) l) = x -> x <> [] ->
  exists c, chist exf (alone exf (new_vgram exf 10 1)) (map cop_of l) (flat_map call_of l) c /\ map (fun i => (c_alphabet exf c i, c_freqs exf c i)) (List.seq 0 (S n)) = x.
Proof.
  unfold glance. destruct (run_c (alone exf (new_vgram exf 10 1)) l) as [c| | |] eqn:E; intros <- Hx; try congruence. exists c. split; [|reflexivity].
  exact (run_c_ok _ l [] _ c (ch_nil _ _) E).
Qed.

(** b = a; b.accept({7}); a.update_dict() *)
Definition joint : list simple := [Copy 0; Call 1 (feed [7]%Z); Call 0 SUpdate].
Lemma run_joint : glance 1 (run_c (alone exf (new_vgram exf 10 1)) joint) = [(Ok [[7]], Ok [1])]%Z.
Proof. vm_compute. reflexivity. Qed.
(** a learns 1 and 2, is copied, the copy learns 3, is updated after an expansion, and a third copy made of it. *)
Definition learned : list simple := [Call 0 (feed [1; 2]%Z); Call 0 SUpdate; Copy 0; Call 1 (feed [3]%Z)].
Definition family : list simple := learned ++ [Call 1 (feed (rep 1180 [1]%Z)); Call 1 SUpdate; Copy 1; Assign 2 0].
Lemma run_learned : glance 2 (run_c (alone exf (new_vgram exf 10 1)) learned) = [(Ok [[1]; [2]; [3]], Ok [1; 1]); (Ok [[1]; [2]; [3]], Ok [1; 1])]%Z.
Proof. vm_compute. reflexivity. Qed.
Lemma run_family : glance 3 (run_c (alone exf (new_vgram exf 10 1)) family) =
  [(Ok [[1]; [2]; [3]], Ok [1; 1]); (Ok [[1]; [1; 1]; [2]; [3]], Ok [1; 1; 0; 0; 0; 0]); (Ok [[1]; [2]; [3]], Ok [1; 1])]%Z.
Proof. vm_compute. reflexivity. Qed.
Lemma family_calls : flat_map call_of family = [feed [1; 2]; SUpdate; feed [3]; feed (rep 1180 [1]); SUpdate]%Z.
Proof. reflexivity. Qed.
Lemma family_limits op : op = SParse [1; 1]%Z \/ op = SUpdate \/ op = feed [1; 1]%Z -> normal exf 2000 (flat_map call_of family ++ [op]) /\ roomy exf 10 (flat_map call_of family ++ [op]).
Proof.
  rewrite family_calls. intro Ho.
  assert (Hin : forall e s, In (SAccept e s) ([feed [1; 2]; SUpdate; feed [3]; feed (rep 1180 [1]); SUpdate]%Z ++ [op]) -> e = exenv).
  { intros e s Hi. apply in_app_or in Hi as [Hi|Hi].
    - unfold feed in Hi. cbn [In] in Hi. repeat (destruct Hi as [Hi|Hi]; [first [discriminate Hi|now injection Hi as <- _]|]). destruct Hi.
    - destruct Hi as [Hi|[]]. destruct Ho as [->|[->| ->]]; try discriminate Hi. now injection Hi as <- _. }
  split.
  - split; [intros e s Hi; rewrite (Hin e s Hi); exact exenv_ok|]. split; [lia|].
    destruct Ho as [->|[->| ->]]; (split; [|split; vm_compute; discriminate]); unfold feed, fed; cbn [app flat_map op_fed];
      repeat (apply Forall_cons; [vm_compute; discriminate|]); apply Forall_nil.
  - split; [intros e s Hi; rewrite (Hin e s Hi); exact exenv_draws|]. split; [lia|]. destruct Ho as [->|[->| ->]]; vm_compute; discriminate.
Qed.
Lemma learned_limits : normal exf 2000 (flat_map call_of learned) .
Proof.
  change (flat_map call_of learned) with [feed [1; 2]; SUpdate; feed [3]]%Z. split; [|split; [lia|split; [repeat constructor; vm_compute; discriminate|split; vm_compute; discriminate]]].
  intros e s Hi. unfold feed in Hi. cbn [In] in Hi. repeat (destruct Hi as [Hi|Hi]; [first [discriminate Hi|injection Hi as <- _; exact exenv_ok]|]). destruct Hi.
Qed.
