(** Streams and models divide sequences in the most probable way. *)
From Verif Require Import ExpandProofs Base Spec FloatOps FloatLaws OrderProofs DictProofs GreedyProofs DpProofs WeightedProofs ModelDict Maps
  ModelCoder SpecCoder CoderProofs ModelStat ModelBuilder ModelStream ModelVGram SpecStat SpecBuilder SpecStream StatProofs RunProofs
  ReduceProofs LearnProofs BuilderProofs BuilderSafe BuilderOwn StreamProofs VGramProofs PropsDictLemmas SpecWeight SpecVGram SpecStream SpecBest.

Section B.
  Context (fl : fops) (L : flaws fl).

  Lemma dict_best d q fs : full_dict d -> (forall w, In w (seqs d) -> w <> []) -> covers (seqs d) q ->
    Forall (fun f => 0 <= f)%Z fs -> (zsum fs <= 2 ^ 52)%Z -> (Z.of_nat (length q) <= 2 ^ 40)%Z -> (Z.of_nat (dsize d) <= 2 ^ 50)%Z ->
    exists ids, parse_weighted fl d q fs (fofZ fl (zsum fs)) [] = Ok (ids, length ids, d) /\ most_probable fl fs (seqs d) ids q.
  Proof.
    intros Hfd Hne Hcov Hf Hz Hq Hd.
    assert (Hz0 : (0 <= zsum fs)%Z) by (apply zsum_nonneg; exact Hf).
    assert (Hle : forall f, In f fs -> (f <= zsum fs)%Z).
    { clear -Hf. induction fs as [|x l IH]; [easy|]. inversion_clear Hf as [|? ? Hx Hl]. cbn [zsum fold_right]. fold (zsum l).
      pose proof (zsum_nonneg l Hl). intros f [<-|Hf]; [lia|]. specialize (IH Hl f Hf). lia. }
    assert (Hc : counts_ok fs (zsum fs)).
    { split; [exact Hz0|]. apply Forall_forall. intros f Hfi. pose proof (proj1 (Forall_forall _ _) Hf f Hfi). cbn beta in *.
      specialize (Hle f Hfi). unfold maxcount. lia. }
    destruct (weighted_full fl L true false d q fs (zsum fs) None (fun _ => True) Hfd Hne Hc) as (ids & Hp & Hsp & _ & Hopt).
    { unfold maxlen. lia. } { unfold maxcount. lia. } { now apply covers_allowed. } { easy. } { easy. }
    exists ids. split; [unfold parse_weighted; now rewrite Hp|]. split; [exact Hsp|].
    intros ids' Hs'. apply Hopt; [now apply Forall_forall|exact Hs'].
  Qed.

  Lemma enc_decw S w : NoDup S -> in_range S w -> enc S (decw S w) = w.
  Proof.
    intros Hn Hr. unfold enc, decw. rewrite map_map. rewrite <- (map_id w) at 2. apply map_ext_in. intros c Hc.
    pose proof (Hr c Hc) as H. rewrite (pos_of_unique S _ (Z.to_nat c)); [lia|exact Hn|]. apply nth_error_nth'. lia.
  Qed.
  Lemma spells_enc S ws ids s : NoDup S -> (forall w, In w ws -> in_range S w) -> spells (map (decw S) ws) ids s -> spells ws ids (enc S s).
  Proof.
    intros Hn Hr (vs & H & <-). exists (map (enc S) vs). split; [|apply enc_concat].
    induction H as [|i w ids vs Hw H IH]; [constructor|]. cbn [map]. constructor; [|exact IH].
    unfold word_at in *. rewrite nth_error_map in Hw. destruct (nth_error ws i) as [v|] eqn:E; [|discriminate Hw]. cbn in Hw. injection Hw as <-.
    rewrite enc_decw; [easy|exact Hn|]. apply Hr. now apply nth_error_In in E.
  Qed.

  Lemma ready_best S d z s : ready fl S d z -> Forall (fun f => 0 <= f)%Z (zfreqs z) -> ztotal z = zsum (zfreqs z) -> (zsum (zfreqs z) <= 2 ^ 52)%Z ->
    covers (map (decw S) (seqs d)) (restrict S s) -> (Z.of_nat (length s) <= 2 ^ 40)%Z ->
    exists ids, s_parse fl z s = Ok (ids, z) /\ most_probable fl (s_freqs fl z) (map (decw S) (seqs d)) ids (restrict S s).
  Proof.
    intros R Hf Ht Hz Hc Hl. destruct (ready_cover fl _ _ _ _ R Hc) as [Hk Hcd].
    destruct (dict_best d (enc S (restrict S s)) (zfreqs z) (rd_full _ _ _ _ R) (rd_ne _ _ _ _ R) Hcd Hf Hz) as (ids & E & Hsp & Hopt).
    { unfold enc. rewrite map_length. pose proof (restrict_length S s). lia. } { exact (rd_size _ _ _ _ R). }
    exists ids. split; [|split].
    - unfold s_parse. rewrite (like_immutable _ _ s (rd_coder _ _ _ _ R)). unfold alpha. destruct (rd_res _ _ _ _ R) as [da ->]. cbn [bind].
      destruct (mk_dict_spec (seqs da)) as (dm & -> & _). cbn [bind]. destruct (ready_the fl _ _ _ R) as (p & Ep & Hg & ->). cbn [bind].
      rewrite Ht, E. cbn [bind]. now rewrite put_same.
    - rewrite <- (dec_enc S (restrict S s) Hk) at 1. now apply spells_decw.
    - intros ids' Hs'. rewrite map_length. apply (Hopt ids').
      exact (spells_enc S _ _ _ (rd_nodup _ _ _ _ R) (rd_range _ _ _ _ R) Hs').
  Qed.
End B.
