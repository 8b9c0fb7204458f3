(** Executions used for C76-C78. *)
From Verif Require Import Base Spec FloatOps FloatLaws FloatIEEE FloatExample ModelDict Maps ModelCoder ModelStat ModelBuilder ModelStream ModelJson ModelPersist
  SpecStat SpecBuilder EnvExample BuilderRuns StreamRuns PersistRuns ExtraRuns PropsStreamLemmas SpecPersist SpecStream SpecRebuild.
Local Open Scope Z_scope.

(** A new stream accepts 2380 symbols, 58 again and again, and is updated; it is saved and loaded. The loaded stream and the
    stream itself accept nothing, twice, and are updated. *)
Definition saved_ops : list (sop exf) := [feed twice_text; SUpdate].
Definition idle_ops : list (sop exf) := [feed []; feed []; SUpdate].
Definition hazard : outcome (bool * (outcome (list seq) * list Z) * bool * (outcome (list seq) * list Z) * outcome (list seq) * outcome (list seq)) :=
  z <- run_s (new_stream exf 100) saved_ops ;;
  file <- save_stream exf (toy minus1) true z ;;
  z' <- load_stream exf (toy minus1) file ;;
  u <- run_s z idle_ops ;;
  u' <- run_s z' idle_ops ;;
  Ok (is_minus1 z, (s_alphabet exf z, s_freqs exf z), Nat.eqb (length (bheap (zb z))) 2, (s_alphabet exf z', s_freqs exf z'), s_alphabet exf u, s_alphabet exf u').
Lemma run_hazard : hazard = Ok (true, (Ok [[5]; [5; 8]; [8]; [8; 5]], [0; 0; 0; 0]), true, (Ok [[5]; [5; 8]; [8]; [8; 5]], [0; 0; 0; 0]),
  Ok [[5]; [5; 8]; [8]; [8; 5]], Ok [[5]; [8]]).
Proof. vm_compute. reflexivity. Qed.
Lemma hazard_ok a f a' f' r r' : hazard = Ok (true, (a, f), true, (a', f'), r, r') ->
  exists io z file z' u u', shist exf (new_stream exf 100) saved_ops z /\ s_alphabet exf z = a /\ s_freqs exf z = f /\ length (bheap (zb z)) = 2%nat /\
    minp_exact exf io z /\ save_stream exf io true z = Ok file /\ load_stream exf io file = Ok z' /\ s_alphabet exf z' = a' /\
    shist exf z idle_ops u /\ s_alphabet exf u = r /\ shist exf z' idle_ops u' /\ s_alphabet exf u' = r'.
Proof.
  unfold hazard. intro H. apply DictProofs.bind_ok in H as (z & H1 & H). apply DictProofs.bind_ok in H as (file & H2 & H). apply DictProofs.bind_ok in H as (z' & H3 & H).
  apply DictProofs.bind_ok in H as (u & H4 & H). apply DictProofs.bind_ok in H as (u' & H5 & H).
  injection H as E1 E2 E3 E4 E5 _ E6 E7. apply Nat.eqb_eq in E4. exists (toy minus1), z, file, z', u, u'.
  split; [exact (run_s_ok _ _ [] _ _ (sh_nil _ _) H1)|]. split; [exact E2|]. split; [exact E3|]. split; [exact E4|]. split; [exact (minus1_exact _ E1)|].
  split; [exact H2|]. split; [exact H3|]. split; [exact E5|]. split; [exact (run_s_ok _ _ [] _ _ (sh_nil _ _) H4)|]. split; [exact E6|].
  split; [exact (run_s_ok _ _ [] _ _ (sh_nil _ _) H5)|exact E7].
Qed.
Lemma saved_normal : normal exf 2380 saved_ops.
Proof.
  split.
  - intros e s [E|[E|[]]]; try discriminate E; injection E as <- _; exact exenv_ok.
  - split; [lia|]. split; [|split; vm_compute; discriminate]. repeat constructor; vm_compute; discriminate.
Qed.
(** The file of ExtraRuns with the minimum probability -1. *)
Lemma idle_file : loadable exf 10 [5; 8] twice_coder [3; 2; 0] [[0]; [1]; [0; 1]] (fofZ exf (-1)).
Proof.
  destruct loadable_case as (H1 & H2 & H3 & H4 & H5 & H6 & H7 & H8 & H9 & H10 & _).
  do 8 (split; [assumption|]). split; [exact H9|]. split; [exact H10|vm_compute; reflexivity].
Qed.
Lemma idle_normal : normal exf 10 idle_ops /\ roomy_loaded exf [5; 8] [[0]; [1]; [0; 1]] [feed []; feed []].
Proof.
  split.
  - split; [intros e s [E|[E|[E|[]]]]; try discriminate E; injection E as <- _; exact exenv_ok|]. split; [lia|]. split; [|split; vm_compute; discriminate]. repeat constructor; cbn; lia.
  - split; [intros e s [E|[E|[]]]; injection E as <- _; exact exenv_draws|]. apply Nat.leb_le. vm_compute. reflexivity.
Qed.
