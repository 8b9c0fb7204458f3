(** What a file must contain to load as each class (C67). *)
From Coq Require Import Ascii String.
From Verif Require Import Base FloatOps ModelDict ModelCoder ModelTok Maps ModelStat ModelBuilder ModelStream ModelVGram ModelString ModelJson ModelPersist
  Spec OrderProofs DictProofs SpecStat SpecPersist SpecLoad LoadProofs.
Local Open Scope Z_scope.
Local Open Scope list_scope.

Section F.
  Context (fl : fops) (io : float_io (F fl)).
  Lemma flag_read m k b : (x <- jfield fl (JObj m) k ;; get_bool fl x) = Ok b <-> ofind m k = Some (JBool b).
  Proof.
    cbn [jfield bind]. destruct (ofind m k) as [[]|]; cbn; split; intro H; try discriminate H; congruence.
  Qed.
  Lemma flags_needed file v : load_vgram fl io file = Ok v <->
    exists m, parse io file = Ok (JObj m) /\ load_stream fl io file = Ok (vs v) /\ viter v = 0 /\
      ofind m (txt "fitted") = Some (JBool (vfitted v)) /\ ofind m (txt "freqs_computed") = Some (JBool (vcomputed v)).
  Proof.
    unfold load_vgram, load_stream, read_dict_json, loaded_vgram. split.
    - intro H. apply bind_ok in H as (j & Ej & H). apply bind_ok in H as (d & Ed & H). apply bind_ok in H as (a & Ea & H). apply bind_ok in H as (b & Eb & H).
      apply bind_ok in H as (z & Ez & H). injection H as <-. cbn [vs viter vfitted vcomputed]. pose proof Ed as Ed'. apply model_read in Ed' as (codes & words & (m & js & jm & -> & _) & _). exists m.
      rewrite Ej. cbn [bind]. rewrite Ed. cbn [bind]. apply flag_read in Ea, Eb. now rewrite Ez.
    - intros (m & Ej & H & Hv & Ha & Hb). rewrite Ej in *. cbn [bind] in *. apply bind_ok in H as (d & Ed & H). rewrite Ed. cbn [bind].
      rewrite (proj2 (flag_read _ _ _) Ha), (proj2 (flag_read _ _ _) Hb). cbn [bind]. rewrite H. cbn [bind]. destruct v. cbn in *. now subst.
  Qed.
  Lemma foldM_each {A B} (g : A -> B -> outcome A) : forall l a r, foldM g l a = Ok r -> forall b, In b l -> exists a1 a2, g a1 b = Ok a2.
  Proof. induction l as [|x l IH]; intros a r H b Hb; [destruct Hb|]. cbn in H. apply bind_ok in H as (a' & Ea & H). destruct Hb as [<-|Hb]; [now exists a, a'|exact (IH _ _ H b Hb)]. Qed.
  Lemma decode_length c : forall w u, decode c w = Ok u -> length u = length w.
  Proof.
    induction w as [|k w IH]; intros u H; cbn in H; [injection H as <-; reflexivity|]. destruct (mfind Z.eqb (bwd c) k); [|discriminate]. cbn in H.
    apply bind_ok in H as (r & Er & H). injection H as <-. cbn. now rewrite (IH _ Er).
  Qed.
  Lemma texts_needed file c tk m : load_tokenizer fl io file c = Ok tk -> parse io file = Ok (JObj m) ->
    forall o l, In (JObj o) (elements fl m (txt "alphabet")) -> ofind o (txt "vec") = Some (JArr l) -> length l = 1%nat -> exists s, ofind o (txt "text") = Some (JStr s).
  Proof.
    unfold load_tokenizer, read_dict_json. intros H Ej o l Ho Hl Hn. rewrite Ej in H. cbn [bind] in H. apply bind_ok in H as (a & Ea & H). apply bind_ok in H as (f & Ef & _).
    rewrite (field_visited _ _ _ _ Ea) in Ef. destruct (foldM_each _ _ _ _ Ef _ Ho) as (a1 & a2 & E). apply bind_ok in E as (w & Ew & E). apply bind_ok in Ew as (x & Ex & Ew).
    cbn [jmember] in Ex. rewrite Hl in Ex. injection Ex as <-. cbn [get_seq] in Ew. apply ints_reads in Ew. apply bind_ok in E as (u & Eu & E). apply decode_length in Eu.
    assert (El : length l = length w) by (clear -Ew; induction Ew; cbn; congruence). destruct u as [|s [|s' u]]; cbn in Eu; try lia.
    apply bind_ok in E as (k & Ek & _). apply bind_ok in Ek as (y & Ey & Ek). cbn [jmember] in Ey. destruct (ofind o (txt "text")) as [y'|]; [|discriminate]. injection Ey as <-.
    destruct y'; try discriminate Ek. eexists. reflexivity.
  Qed.
  Lemma text_stream_needed file t : load_tstream fl io file = Ok t -> load_stream fl io file = Ok (tst t) /\
    exists m, parse io file = Ok (JObj m) /\
    forall o l, In (JObj o) (elements fl m (txt "alphabet")) -> ofind o (txt "vec") = Some (JArr l) -> length l = 1%nat -> exists s, ofind o (txt "text") = Some (JStr s).
  Proof.
    unfold load_tstream. intro H. apply bind_ok in H as (z & Ez & H). apply bind_ok in H as (tk & Etk & H). unfold tstream_of, check_args in H. cbn in H. injection H as <-. cbn [tst]. split; [exact Ez|].
    pose proof Ez as Ez'. apply load_reads in Ez' as (j & codes & words & Ej & size & mp & (m & js & jm & -> & _) & _). exists m. split; [exact Ej|]. exact (texts_needed _ _ _ _ Etk Ej).
  Qed.
  Lemma text_vgram_needed file t : load_tvgram fl io file = Ok t -> load_vgram fl io file = Ok (tv t) /\
    exists m, parse io file = Ok (JObj m) /\
    forall o l, In (JObj o) (elements fl m (txt "alphabet")) -> ofind o (txt "vec") = Some (JArr l) -> length l = 1%nat -> exists s, ofind o (txt "text") = Some (JStr s).
  Proof.
    unfold load_tvgram. intro H. apply bind_ok in H as (v & Ev & H). apply bind_ok in H as (tk & Etk & H). injection H as <-. cbn [tv]. split; [exact Ev|].
    pose proof Ev as Ev'. apply flags_needed in Ev' as (m & Ej & _). exists m. split; [exact Ej|]. exact (texts_needed _ _ _ _ Etk Ej).
  Qed.
End F.
