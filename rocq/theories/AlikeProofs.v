(** AlikeProofs: tokenizers see no difference between such texts, and between no others. *)
From Verif Require Import Base FloatOps ModelTok ModelDict ModelCoder Maps ModelStat ModelBuilder ModelStream ModelVGram ModelString ModelShared
  DictProofs SpecTok TokProofs SpecShared SpecAlike.

Local Open Scope Z_scope.

Lemma char_alike s s' : ascii_text s -> ascii_text s' ->
  (normalize CharTok s = normalize CharTok s' <-> exists n, normal_form s n /\ normal_form s' n).
Proof.
  intros A A'. destruct (char_normalize s A) as (n & E & F & U & _), (char_normalize s' A') as (n' & E' & F' & U' & _). split.
  - rewrite E, E'. intros H. injection H as <-. eauto.
  - intros (m & G & G'). rewrite E, E', <- (U _ G), <- (U' _ G'). reflexivity.
Qed.

Lemma loop_end : forall s cur c, c <> 32 -> word_loop (s ++ [c; 32]) cur = word_loop (s ++ [c]) cur.
Proof.
  assert (E : forall c, c <> 32 -> (c =? 32) = false) by (intros c N; now apply Z.eqb_neq).
  induction s as [|x s IH]; intros cur c N; cbn.
  - rewrite (E c N). cbn. now destruct cur.
  - destruct ((x =? 32) && _); [|now apply IH]. f_equal. now apply IH.
Qed.

Lemma end_tokens s s' : spaced_end s s' -> tokenize WordTok s = tokenize WordTok s'.
Proof. intros (r & c & N & -> & ->). cbn. rewrite <- app_assoc. symmetry. now apply loop_end. Qed.

(** Texts with the same words differ in one space at the end at most. *)
Lemma tokens_end s s' : tokenize WordTok s = tokenize WordTok s' -> s = s' \/ s' = s ++ [32] \/ s = s' ++ [32].
Proof.
  intros E. destruct (word_tokens s) as [_ [H|[H _]]], (word_tokens s') as [_ [H'|[H' _]]]; rewrite E in H;
    rewrite <- H' in H || (remember (join (tokenize WordTok s')) as j eqn:J; clear J); subst; auto.
Qed.

Lemma chars_only s s' : ascii_text s -> ascii_text s' ->
  (exists n, normalize CharTok s = Ok n /\ normalize CharTok s' = Ok n) -> alike CharTok s s'.
Proof.
  intros A A' (n & E & E'). cbn. split; [exact A|]. split; [exact A'|]. apply (char_alike _ _ A A'). congruence.
Qed.

Lemma transform_alike t s s' : alike (tkind t) s s' -> tok_transform true t s = tok_transform true t s'.
Proof.
  unfold tok_transform. destruct (tkind t); cbn [alike].
  - intros (A & A' & H). apply (char_alike _ _ A A') in H. now rewrite H.
  - cbn [normalize bind]. intros [->|[H|H]]; [reflexivity|..]; now rewrite (end_tokens _ _ H).
Qed.

Lemma mapM_alike {A B S} (f : S -> A -> outcome (B * S)) (R : S -> Prop) (E : A -> A -> Prop) :
  (forall t x y, R t -> E x y -> f t x = f t y) -> (forall t x b t', R t -> f t x = Ok (b, t') -> R t') ->
  forall xs ys t, R t -> Forall2 E xs ys -> mapM f xs t = mapM f ys t.
Proof.
  intros H K xs ys t Ht F. revert t Ht. induction F as [|x y xs ys Exy F IH]; intros t Ht; [reflexivity|].
  cbn [mapM]. rewrite (H t x y Ht Exy). destruct (f t y) as [[b t']| | |] eqn:Ef; try reflexivity.
  cbn [bind]. rewrite (IH t'); [reflexivity|]. eapply K; eassumption.
Qed.

Lemma code_kind b t w i t' : code_token b t w = Ok (i, t') -> tkind t' = tkind t.
Proof.
  unfold code_token. destruct (mfind seq_eqb (tfwd t) w).
  - destruct (mfind _ _ _); [|discriminate]. intros H. now injection H as <- <-.
  - destruct (mfind _ _ _); [|discriminate]. intros H. now injection H as <- <-.
Qed.

Lemma codes_kind b : forall ws t ids t', mapM (code_token b) ws t = Ok (ids, t') -> tkind t' = tkind t.
Proof.
  induction ws as [|w ws IH]; intros t ids t' H; [now injection H as <- <-|]. cbn [mapM] in H.
  apply bind_ok in H as ([i t1] & H1 & H). apply bind_ok in H as ([l t2] & H2 & H). injection H as <- <-.
  rewrite (IH _ _ _ H2). now apply code_kind in H1.
Qed.

Lemma transform_kind b t s ids t' : tok_transform b t s = Ok (ids, t') -> tkind t' = tkind t.
Proof. unfold tok_transform. intros H. apply bind_ok in H as (n & _ & H). now apply codes_kind in H. Qed.

Lemma transforms_alike t xs ys : Forall2 (alike (tkind t)) xs ys -> tok_transform_all true t xs = tok_transform_all true t ys.
Proof.
  intros F. unfold tok_transform_all. apply mapM_alike with (R := fun t1 => tkind t1 = tkind t) (E := alike (tkind t)); try assumption; try reflexivity.
  - intros t1 x y K H. apply transform_alike. now rewrite K.
  - intros t1 x b t' K H. apply transform_kind in H. congruence.
Qed.

Section A.
  Variable fl : fops.

  Lemma call_alike m t k k' : calls_alike fl (tkind t) k k' -> m_call fl m t k = m_call fl m t k'.
  Proof.
    intros H. destruct H; [reflexivity| | | |]; destruct m as [z w0 n|v]; try reflexivity; cbn [m_call].
    - unfold t_accept. cbn [ttok tst]. now rewrite (transform_alike _ _ _ H).
    - unfold t_parse. cbn [ttok tst]. now rewrite (transform_alike _ _ _ H).
    - unfold tv_fit. cbn [tvtok tv]. now rewrite (transforms_alike _ _ _ H).
    - unfold tv_transform. cbn [tvtok tv]. now rewrite (transforms_alike _ _ _ H).
  Qed.

  Lemma call_kind m t k a m' t' : m_call fl m t k = Ok (a, m', t') -> tkind t' = tkind t.
  Proof.
    assert (K : forall s ids tk, tok_transform true t s = Ok (ids, tk) -> tkind tk = tkind t) by (intros; eapply transform_kind; eassumption).
    assert (L : forall xs t0 cs tk, tok_transform_all true t0 xs = Ok (cs, tk) -> tkind tk = tkind t0).
    { unfold tok_transform_all. induction xs as [|x xs IH]; intros t0 cs tk H; [now injection H as <- <-|]. cbn [mapM] in H.
      apply bind_ok in H as ([i t1] & H1 & H). apply bind_ok in H as ([l t2] & H2 & H). injection H as <- <-.
      rewrite (IH _ _ _ H2). now apply transform_kind in H1. }
    destruct m as [z w0 n|v], k; cbn [m_call]; intros H; try discriminate.
    - apply bind_ok in H as (z1 & H1 & H). injection H as <- <- <-. unfold t_accept in H1.
      apply bind_ok in H1 as ([ids tk] & E & H1). apply bind_ok in H1 as (z2 & _ & H1). injection H1 as <-. cbn in *. eauto.
    - apply bind_ok in H as ([l z1] & H1 & H). injection H as <- <- <-. unfold t_parse in H1.
      apply bind_ok in H1 as ([ids tk] & E & H1). apply bind_ok in H1 as ([r z2] & _ & H1). apply bind_ok in H1 as (l2 & _ & H1).
      injection H1 as <- <-. cbn in *. eauto.
    - apply bind_ok in H as (z1 & H1 & H). injection H as <- <- <-. unfold t_update in H1. apply bind_ok in H1 as (z2 & _ & H1). now injection H1 as <-.
    - apply bind_ok in H as (l & _ & H). now injection H as <- <- <-.
    - now injection H as <- <- <-.
    - apply bind_ok in H as (v1 & H1 & H). injection H as <- <- <-. unfold tv_fit in H1.
      apply bind_ok in H1 as ([ids tk] & E & H1). apply bind_ok in H1 as ([b v2] & _ & H1). injection H1 as <-. cbn in *. eauto.
    - apply bind_ok in H as ([l v1] & H1 & H). injection H as <- <- <-. unfold tv_transform in H1.
      apply bind_ok in H1 as ([ids tk] & E & H1). apply bind_ok in H1 as ([r v2] & _ & H1). apply bind_ok in H1 as (al & _ & H1).
      apply bind_ok in H1 as (l2 & _ & H1). injection H1 as <- <-. cbn in *. eauto.
    - apply bind_ok in H as (l & _ & H). now injection H as <- <- <-.
    - now injection H as <- <- <-.
  Qed.

  Lemma hist_kind m t log m' t' : mhist fl m t log m' t' -> tkind t' = tkind t.
  Proof. induction 1 as [|log m1 t1 k a m2 t2 H IH E]; [reflexivity|]. apply call_kind in E. congruence. Qed.

  Lemma hist_alike m t log m' t' : mhist fl m t log m' t' ->
    forall ks, Forall2 (calls_alike fl (tkind t)) (map fst log) ks -> mhist fl m t (combine ks (map snd log)) m' t'.
  Proof.
    induction 1 as [|log m1 t1 k a m2 t2 H IH E]; intros ks F.
    - inversion F. constructor.
    - rewrite map_app in F. apply Forall2_app_inv_l in F as (ks1 & ks2 & F1 & F2 & ->).
      inversion F2 as [|x y l l' Hk F3]; subst. inversion F3; subst. rewrite map_app.
      assert (Len : length ks1 = length (map snd log)).
      { clear - F1. rewrite map_length. rewrite <- (map_length fst log). induction F1; cbn; congruence. }
      assert (C : combine (ks1 ++ [y]) (map snd log ++ [a]) = combine ks1 (map snd log) ++ [(y, a)]).
      { clear - Len. revert Len. generalize (map snd log). induction ks1 as [|q ks1 IH]; intros [|b l] L; cbn in *; try discriminate; [reflexivity|].
        now rewrite IH by congruence. }
      cbn [map]. cbn [snd]. rewrite C. econstructor; [now apply IH|]. rewrite <- (call_alike m1 t1 k y); [exact E|].
      now rewrite (hist_kind _ _ _ _ _ H).
  Qed.
End A.
