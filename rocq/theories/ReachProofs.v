(** Facts true of every dictionary state; refutation witnesses for the dictionary. *)
From Verif Require Import Base Spec SpecWeight SpecHistory FloatOps FloatLaws ModelDict OrderProofs
  DictProofs GreedyProofs DpProofs WeightedProofs.

Lemma linear_ok_wf : forall fuel d s b ex o d', wf_dict d ->
  linear_loop fuel d s b ex = Ok (o, d') -> wf_dict d' /\ extends_by_symbols (seqs d) (seqs d').
Proof.
  induction fuel as [|fuel IH]; intros d s b ex o d' Hwf H.
  - destruct s; simpl in H; [|discriminate]. injection H as _ <-. split; [easy|apply ext_refl].
  - destruct s as [|c s]; cbn [linear_loop] in H.
    { injection H as _ <-. split; [easy|apply ext_refl]. }
    apply bind_ok in H as ([sym d1] & Hs & H).
    destruct (search_ok_wf _ _ _ _ _ Hwf Hs) as [Hwf1 Hext1].
    destruct sym as [i|].
    + apply bind_ok in H as (w & _ & H). apply bind_ok in H as (s' & _ & H).
      destruct (IH _ _ _ _ _ _ Hwf1 H) as [H1 H2]. split; [easy|]. now apply (ext_trans _ (seqs d1)).
    + apply bind_ok in H as (s' & _ & H).
      destruct (IH _ _ _ _ _ _ Hwf1 H) as [H1 H2]. split; [easy|]. now apply (ext_trans _ (seqs d1)).
Qed.

Lemma dp_ok_wf fl skip freqs total ex : forall s d pos st st' d', wf_dict d ->
  dp_loop fl skip d freqs total ex pos s st = Ok (st', d') ->
  wf_dict d' /\ extends_by_symbols (seqs d) (seqs d').
Proof.
  induction s as [|c s IH]; intros d pos st st' d' Hwf H; cbn [dp_loop] in H.
  - injection H as _ <-. split; [easy|apply ext_refl].
  - apply bind_ok in H as ([sym d1] & Hs & H). apply bind_ok in H as (st1 & _ & H).
    destruct (search_ok_wf _ _ _ _ _ Hwf Hs) as [Hwf1 Hext1].
    destruct (IH _ _ _ _ _ Hwf1 H) as [H1 H2]. split; [easy|]. now apply (ext_trans _ (seqs d1)).
Qed.

Lemma weighted_ok_wf fl skip signed d s freqs total ex ids x d' : wf_dict d ->
  weighted_parse fl skip signed d s freqs total ex = Ok (ids, x, d') ->
  wf_dict d' /\ extends_by_symbols (seqs d) (seqs d').
Proof.
  intros Hwf H. unfold weighted_parse in H.
  apply bind_ok in H as ([st d1] & Hd & H).
  apply bind_ok in H as (res & _ & H). apply bind_ok in H as (sc & _ & H).
  injection H as _ _ <-. now apply (dp_ok_wf _ _ _ _ _ _ _ _ _ _ _ Hwf Hd).
Qed.

Lemma history_wf ws d : history ws d -> wf_dict d /\ extends_by_symbols (isort ws) (seqs d).
Proof.
  induction 1 as [d H|d q ex r d' _ [IH1 IH2] H|d fuel s out ex o n d' _ [IH1 IH2] H
                 |d fl s freqs total out o n d' _ [IH1 IH2] H].
  - destruct (mk_dict_spec ws) as (d1 & H1 & Hs & Hl). rewrite H in H1. injection H1 as ->.
    split; [now apply links_wf|]. rewrite Hs. apply ext_refl.
  - destruct (search_ok_wf _ _ _ _ _ IH1 H). split; [easy|]. now apply (ext_trans _ (seqs d)).
  - unfold parse_greedy in H. apply bind_ok in H as ([o1 d1] & H & E). injection E as _ _ <-.
    destruct (linear_ok_wf _ _ _ _ _ _ _ IH1 H). split; [easy|]. now apply (ext_trans _ (seqs d)).
  - unfold parse_weighted in H. apply bind_ok in H as ([[ids x] d1] & H & E). injection E as _ _ <-.
    destruct (weighted_ok_wf _ _ _ _ _ _ _ _ _ _ _ IH1 H). split; [easy|].
    now apply (ext_trans _ (seqs d)).
Qed.

Lemma history_no_empty ws d : history ws d -> ~ In [] ws -> no_empty d.
Proof.
  intros H Hn. destruct (history_wf ws d H) as [_ Hext].
  apply (no_empty_ext (mkDict (isort ws) []) d); [|easy].
  intros w Hw ->. simpl in Hw. apply Hn. now apply (Permutation_in _ (isort_perm ws)).
Qed.

Lemma mk_dict_history_full ws d : NoDup ws -> mk_dict ws = Ok d -> full_dict d /\ seqs d = isort ws.
Proof.
  intros Hn H. destruct (mk_dict_full ws Hn) as (d1 & H1 & Hs & Hf). rewrite H in H1.
  injection H1 as ->. now split.
Qed.

(** ** The output buffer *)
Lemma linear_loop_buffer : forall fuel d s b ex,
  linear_loop fuel d s b ex = ('(o, d') <- linear_loop fuel d s [] ex ;; Ok (b ++ o, d')).
Proof.
  induction fuel as [|fuel IH]; intros d s b ex; destruct s as [|c s];
    try (cbn; now rewrite ?app_nil_r).
  cbn [linear_loop].
  destruct (search d (c :: s) ex) as [[[i|] d1]| | |]; cbn [bind]; try easy.
  - destruct (get d1 i) as [w| | |]; cbn [bind]; try easy.
    destruct (drop_front (length w) (c :: s)) as [s'| | |]; cbn [bind]; try easy.
    rewrite (IH d1 s' (b ++ [i]) ex), (IH d1 s' ([] ++ [i]) ex).
    destruct (linear_loop fuel d1 s' [] ex) as [[o d2]| | |]; cbn [bind]; try easy.
    now rewrite <- app_assoc.
  - destruct (drop_front 1 (c :: s)) as [s'| | |]; cbn [bind]; try easy; try apply IH.
Qed.

(** ** Non-termination with an empty word *)
Definition dict_with_empty : dict := mkDict [[]] [None].
Lemma empty_word_loops : forall fuel b,
  linear_loop fuel dict_with_empty [5%Z] b None = NoTerm.
Proof.
  induction fuel as [|fuel IH]; intro b; [reflexivity|].
  cbn [linear_loop].
  assert (E : search dict_with_empty [5%Z] None = Ok (Some 0, dict_with_empty)) by reflexivity.
  rewrite E. cbn [bind]. change (get dict_with_empty 0) with (Ok (@nil Z)). cbn [bind length].
  change (drop_front 0 [5%Z]) with (Ok [5%Z]). cbn [bind]. apply IH.
Qed.

(** ** Learning in increasing order *)
Lemma search_learn_full d c : full_dict d ->
  (forall w, In w (seqs d) -> lex_lt w [c]) -> no_empty d ->
  search d [c] None = Ok (Some (dsize d), learn d c) /\ full_dict (learn d c).
Proof.
  intros Hf Hlt Hne.
  assert (Hno : forall j v, nth_error (seqs d) j = Some v -> ~ prefix v [c]).
  { intros j v Hv Hp. apply nth_error_In in Hv. pose proof (Hlt v Hv) as Hl.
    pose proof (Hne v Hv) as Hn. destruct v as [|a [|b v]]; [easy| |].
    - apply prefix_cons in Hp as [-> _]. now apply (lex_lt_irrefl [c]).
    - apply prefix_length in Hp. simpl in Hp. lia. }
  split; [|now apply learn_full].
  assert (Hn0 : @None (list nat) = None -> [c] <> []) by easy.
  pose proof (search_full d [c] None Hf Hn0) as Hs.
  destruct (search d [c] None) as [[[i|] d1]| | |]; try contradiction.
  - destruct Hs as [[-> (w & Hw & Hp & _)]|(_ & _ & -> & c' & q' & [= <- <-] & ->)]; [|easy].
    exfalso. now apply (Hno i w).
  - now destruct Hs as (_ & H & _).
Qed.

Lemma search_self d i w ex : full_dict d -> word_at (seqs d) i w -> w <> [] \/ ex <> None ->
  allowed ex i = true -> search d w ex = Ok (Some i, d).
Proof.
  intros Hf Hw Hne Hal.
  assert (Hn0 : ex = None -> w <> []) by (intros ->; destruct Hne; easy).
  pose proof (search_full d w ex Hf Hn0) as Hs.
  destruct (search d w ex) as [[[j|] d1]| | |]; try contradiction.
  - destruct Hs as [[-> (v & Hv & Hp & _ & Hmax)]|(_ & Hno & _)].
    + assert (v = w).
      { apply prefix_length_eq; [easy|]. apply (Hmax i w); try easy. apply prefix_refl. }
      subst v. do 3 f_equal. apply (strict_nth_inj (seqs d) j i w); try easy. apply Hf.
    + exfalso. apply (Hno i w); try easy. apply prefix_refl.
  - destruct Hs as (_ & _ & Hno). exfalso. apply (Hno i w); try easy. apply prefix_refl.
Qed.
