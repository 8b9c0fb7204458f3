(** TokBatch: transform of many texts (C20) and the second constructor of a text stream (C50). *)
From Verif Require Import Base FloatOps ModelDict ModelCoder ModelTok Maps ModelStat ModelBuilder ModelStream ModelVGram ModelString SpecTok DictProofs TokProofs.

Lemma tok_history_app b t0 t1 t2 : tok_history b t0 t1 -> tok_history b t1 t2 -> tok_history b t0 t2.
Proof. intros H H'. induction H' as [|t s ids t' H' IH Hs]; [exact H|]. exact (th_step b t0 t s ids t' IH Hs). Qed.
Lemma batch_history b ss : forall t cs t', tok_transform_all b t ss = Ok (cs, t') -> tok_history b t t'.
Proof.
  unfold tok_transform_all. induction ss as [|s ss IH]; intros t cs t' H; cbn [mapM] in H; [injection H as _ <-; constructor|].
  apply bind_ok in H as ([ids t1] & H1 & H). apply bind_ok in H as ([cs' t2] & H2 & H). injection H as <- <-.
  apply (tok_history_app b t t1 t2); [|exact (IH _ _ _ H2)]. exact (th_step b t t s ids t1 (th_start _ _) H1).
Qed.
Lemma tok_batch k : forall ss t cs t' t'', tok_history true (new_tok k) t -> tok_transform_all true t ss = Ok (cs, t') -> tok_history true t' t'' ->
  Forall2 (fun s ids => exists n, normalize k s = Ok n /\ tok_decode t'' ids = concat (tokenize k n) /\ tok_transform true t'' s = Ok (ids, t'')) ss cs.
Proof.
  induction ss as [|s ss IH]; intros t cs t' t'' H0 H H'; unfold tok_transform_all in H; cbn [mapM] in H; [injection H as <- _; constructor|].
  apply bind_ok in H as ([ids t1] & H1 & H). apply bind_ok in H as ([cs' t2] & H2 & H). injection H as <- <-. constructor.
  - apply (tok_roundtrip k t s ids t1 t'' H0 H1). exact (tok_history_app _ _ _ _ (batch_history _ _ _ _ _ H2) H').
  - apply (IH t1 cs' t2 t''); [exact (th_step _ _ _ _ _ _ H0 H1)|exact H2|exact H'].
Qed.
Lemma batch_decode k ss t cs t' t'' : tok_history true (new_tok k) t -> tok_transform_all true t ss = Ok (cs, t') -> tok_history true t' t'' ->
  tok_transform_all true t'' ss = Ok (cs, t'') /\ Forall2 (fun s out => exists n, normalize k s = Ok n /\ out = concat (tokenize k n)) ss (tok_decode_all t'' cs).
Proof.
  intros H0 H H'. pose proof (tok_batch k ss t cs t' t'' H0 H H') as F. clear H. induction F as [|s ids ss cs (n & Hn & Hd & Ht) F IH].
  - split; [reflexivity|constructor].
  - destruct IH as [I1 I2]. unfold tok_transform_all in *. cbn [mapM]. rewrite Ht. cbn [bind]. rewrite I1. cbn [bind]. split; [reflexivity|].
    unfold tok_decode_all. cbn [map]. constructor; [now exists n|exact I2].
Qed.

Lemma given_options fl z t inner words :
  (tstream_of fl z t inner words = Throw InvalidArg <-> inner = true /\ words = true) /\
  (~ (inner = true /\ words = true) -> exists y, tstream_of fl z t inner words = Ok y /\ t_freqs fl y = s_freqs fl z /\
     forall e s, t_accept fl true e y s = ('(ids, tk) <- tok_transform true t s ;; z' <- s_accept fl e z ids ;; Ok (mkTStream z' tk words inner))).
Proof.
  unfold tstream_of, check_args. cbn [twords tinner]. split; [destruct inner, words; cbn; intuition discriminate|].
  intro H. assert (E : (words && inner)%bool = false) by (destruct words, inner; cbn; try easy; now destruct H). rewrite E. eexists. split; [reflexivity|]. split; reflexivity.
Qed.
