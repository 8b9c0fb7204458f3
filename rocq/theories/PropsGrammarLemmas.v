(** Lemmas for C79. *)
From Coq Require Import Ascii String Sorted Permutation ZifyBool.
From Verif Require Import Base FloatOps ModelTok Maps ModelVGram ModelJson ModelPersist DictProofs JsonProofs JsonRoundTrip VGramProofs PersistProofs LoadProofs PropsPersistLemmas
  SpecVGram SpecJson SpecSave SpecPersist SpecGrammar GrammarProofs.
Local Open Scope Z_scope.
Local Open Scope list_scope.

Section P.
  Context {F : Type} (io : float_io F).
  Notation json := (json F).

  Lemma value_head t v : value_text io t v -> exists c t', t = c :: t' /\ 0 <= c < 128.
  Proof.
    assert (N : forall i n, numeral i n -> exists c t', i = c :: t' /\ 0 <= c < 128).
    { intros i n H. destruct (numeral_head H) as (c & i' & -> & Hc). exists c, i'. split; [reflexivity|lia]. }
    assert (I : forall i z, int_literal i z -> exists c t', i = c :: t' /\ 0 <= c < 128).
    { intros i z [H|(j & n & -> & _)]; [now apply (N i z)|]. exists 45, j. split; [reflexivity|lia]. }
    destruct 1 as [| | |t z H|t z x H|t x H| | | | |]; try (eexists _, _; split; [reflexivity|lia]); [now apply (I t z)|now apply (I t z)|].
    destruct H as (m & i & fr & ex & -> & Hm & [n Hi] & _). destruct Hm as [-> | ->]; [|eexists _, _; split; [reflexivity|lia]].
    destruct (N i n Hi) as (c & i' & -> & Hc). exists c, (i' ++ fr ++ ex). now split.
  Qed.
  Lemma no_bom w t v rest : blank w -> value_text io t v -> skip_bom (w ++ t ++ rest) = Some (w ++ t ++ rest).
  Proof.
    intros Hw Ht. assert (G : exists c s, w ++ t ++ rest = c :: s /\ 0 <= c < 128).
    { destruct Hw as [|c w Hc Hw]; [|exists c, (w ++ t ++ rest); split; [reflexivity|lia]]. destruct (value_head _ _ Ht) as (c & t' & -> & Hc). exists c, (t' ++ rest). now split. }
    destruct G as (c & s & -> & Hc). cbn [skip_bom]. unfold byte. rewrite Z.mod_small by lia. destruct (Z.eqb_spec c 239); [lia|reflexivity].
  Qed.
  Lemma file_reads s v rest : chars s -> file_text io s v rest -> apart_from v rest -> parse io s = Ok v.
  Proof.
    intros C (bom & w & t & -> & Hb & Hw & Ht) A. assert (B : skip_bom (bom ++ w ++ t ++ rest) = Some (w ++ t ++ rest)).
    { destruct Hb as [-> | Hb]; [now apply (no_bom w t v)|]. destruct bom as [|a [|b [|c [|? ?]]]]; try discriminate. injection Hb as Ha Hb' Hc. cbn [app skip_bom]. unfold byte. now rewrite Ha, Hb', Hc. }
    unfold parse. rewrite B. unfold parse_at. apply Forall_app in C as [_ C]. apply Forall_app in C as [_ C]. apply Forall_app in C as [C _].
    destruct (proj1 (texts_read io) t v Ht C rest (2 * length (w ++ t ++ rest) + 3)%nat A) as (k & r & E & _ & J); [rewrite !app_length; lia|].
    rewrite (E w Hw), J. reflexivity.
  Qed.
  Lemma file_only s v : chars s -> parse io s = Ok v -> exists rest, file_text io s v rest.
  Proof.
    intros C H. unfold parse in H. destruct (skip_bom s) as [s'|] eqn:B; [|discriminate].
    assert (Hs : exists bom, s = bom ++ s' /\ (bom = [] \/ bytes_of bom = [239; 187; 191])).
    { destruct s as [|c s]; [injection B as <-; exists []; auto|]. cbn [skip_bom] in B. destruct (Z.eqb_spec (byte c) 239) as [Q|]; [|injection B as <-; exists []; auto].
      destruct s as [|a [|b s]]; try discriminate. destruct ((byte a =? 187) && (byte b =? 191))%bool eqn:Q2; [|discriminate]. injection B as <-.
      exists [c; a; b]. split; [reflexivity|]. right. unfold byte in *. cbn. repeat f_equal; lia. }
    destruct Hs as (bom & -> & Hb). apply Forall_app in C as [_ C]. unfold parse_at in H. destruct (scan io s') as [k r] eqn:E.
    destruct (jvalue io (2 * length s' + 3) k r) as [[v' rest]| | |] eqn:J; try discriminate. injection H as ->.
    destruct (proj1 (texts_only io _) k s' r v rest E C J) as (w & t & Hw & -> & Ht). exists rest, bom, w, t. auto.
  Qed.
  Lemma object_order (kvs kvs' m : list (text * json)) : NoDup (map fst kvs) -> Permutation kvs kvs' -> object_of kvs m -> object_of kvs' m.
  Proof.
    assert (G : forall l : list (text * json), NoDup (map fst l) -> forall k v, In (k, v) l <-> exists pre post, l = pre ++ (k, v) :: post /\ ~ In k (map fst post)).
    { intros l N k v. split.
      - intro H. apply in_split in H as (pre & post & ->). exists pre, post. split; [reflexivity|]. rewrite map_app in N. cbn in N. apply NoDup_remove_2 in N. rewrite in_app_iff in N. tauto.
      - intros (pre & post & -> & _). apply in_app_iff. right. now left. }
    intros N P [S H]. split; [exact S|]. intros k v. rewrite <- G by (apply (Permutation_NoDup (Permutation_map fst P) N)). rewrite H, <- G by exact N.
    split; apply Permutation_in; [exact P|now apply Permutation_sym].
  Qed.
  Lemma one_value s v rest v' rest' : chars s -> file_text io s v rest -> apart_from v rest -> file_text io s v' rest' -> apart_from v' rest' -> v = v'.
  Proof. intros C H1 A1 H2 A2. pose proof (file_reads _ _ _ C H1 A1). pose proof (file_reads _ _ _ C H2 A2). congruence. Qed.

  (** ** What is written *)
  Lemma chars_app a b : chars (a ++ b) <-> chars a /\ chars b.
  Proof. apply Forall_app. Qed.
  Lemma chars_cons a b : chars (a :: b) <-> -128 <= a < 128 /\ chars b.
  Proof. split; [intro H; now inversion H|intros [? ?]; now constructor]. Qed.
  Lemma digits_chars d : Forall digit d -> chars d.
  Proof. intro H. eapply Forall_impl; [|exact H]. unfold digit. intros. lia. Qed.
  Lemma spaces_chars n : chars (repeat 32 n).
  Proof. induction n; constructor; [lia|assumption]. Qed.
  Lemma float_chars t : float_literal t -> chars t.
  Proof.
    intros (m & i & fr & ex & -> & Hm & [n (_ & Hi & _)] & Hfr & Hex & _). apply digits_chars in Hi. rewrite !chars_app. split; [destruct Hm as [-> | ->]; repeat constructor; lia|]. split; [exact Hi|]. split.
    - destruct Hfr as [-> | (d & _ & Hd & ->)]; [constructor|]. apply chars_cons. split; [lia|now apply digits_chars].
    - destruct Hex as [-> | (g & d & Hg & _ & Hd & E)]; [constructor|]. apply digits_chars in Hd.
      assert (chars (g ++ d)) by (apply chars_app; split; [destruct Hg as [-> | [-> | ->]]; repeat constructor; lia|exact Hd]). destruct E as [-> | ->]; apply chars_cons; (split; [lia|assumption]).
  Qed.
  Lemma int_chars z : chars (int_to_string z).
  Proof.
    unfold int_to_string. destruct (Z.ltb_spec z 0).
    - apply chars_cons. split; [lia|]. apply digits_chars. apply (@dec_numeral (- z)). lia.
    - apply digits_chars. apply (@dec_numeral z). lia.
  Qed.
  Lemma escaped_chars cp c : 0 <= cp -> -128 <= c < 128 -> chars (escaped cp c).
  Proof.
    intros H Hc. unfold escaped. repeat match goal with |- context [if Z.eqb cp ?n then _ else _] => destruct (Z.eqb_spec cp n); [first [apply chars_txt|repeat constructor; lia]|] end.
    destruct (Z.leb_spec cp 31); [|repeat constructor; lia].
    assert (0 <= cp / 16 < 16) by (split; [apply Z.div_pos; lia|apply Z.div_lt_upper_bound; lia]). pose proof (Z.mod_pos_bound cp 16 ltac:(lia)).
    assert (X : forall y, 0 <= y < 16 -> -128 <= hexdigit y < 128) by (intros y Hy; unfold hexdigit; destruct (y <? 10); lia).
    apply chars_app. split; [apply chars_txt|]. repeat constructor; apply X; lia.
  Qed.
  Lemma dump_escaped_chars : forall s st cp t, dump_escaped st cp s = Ok t -> 0 <= cp -> chars s -> chars t.
  Proof.
    induction s as [|c s IH]; intros st cp t H Hcp C; cbn [dump_escaped] in H; [destruct (st =? 0); [injection H as <-; constructor|discriminate]|].
    apply chars_cons in C as [Hc C]. destruct (utf8_decode st cp (byte c)) as [st' cp'] eqn:U.
    assert (0 <= cp').
    { apply (f_equal snd) in U. cbn [snd] in U. rewrite <- U. unfold utf8_decode. cbn [snd]. pose proof (byte_range c).
      destruct (st =? 0); [apply Z.land_nonneg; lia|]. apply Z.lor_nonneg. split; [apply Z.land_nonneg; lia|]. now apply Z.shiftl_nonneg. }
    destruct (st' =? 0); [|destruct (st' =? 1); [discriminate|]]; apply bind_ok in H as (t' & E & [= <-]); apply IH in E; trivial.
    - apply chars_app. split; [now apply escaped_chars|exact E].
    - now apply chars_cons.
  Qed.
  Lemma dump_string_chars s t : dump_string s = Ok t -> chars s -> chars t.
  Proof.
    unfold dump_string. intros H C. apply bind_ok in H as (t' & E & [= <-]). apply dump_escaped_chars in E; [|lia|exact C]. apply chars_cons. split; [lia|]. apply chars_app. split; [exact E|repeat constructor; lia].
  Qed.
  Lemma lines_chars ts : Forall chars ts -> chars (lines ts).
  Proof.
    induction 1 as [|t ts Ht Hts IH]; [constructor|]. destruct ts as [|u ts]; [exact Ht|]. change (chars (t ++ 44 :: 10 :: lines (u :: ts))). apply chars_app. split; [exact Ht|].
    do 2 (apply chars_cons; split; [lia|]). exact IH.
  Qed.
  Lemma dump_chars : forall j ind t, dump io ind j = Ok t -> printable io j -> chars t.
  Proof.
    apply (@json_rec' F (fun j => forall ind t, dump io ind j = Ok t -> printable io j -> chars t)).
    - intros ind t [= <-] _. repeat constructor; lia.
    - intros [] ind t [= <-] _; repeat constructor; lia.
    - intros z ind t [= <-] _. apply int_chars.
    - intros x ind t [= <-] P. inversion P as [| | |? (s & Es & Hs & _)| | |]; subst. unfold dump_float. rewrite Es. now apply float_chars.
    - intros s ind t H P. inversion P; subst. now apply (dump_string_chars s).
    - intros l IH ind t H P. inversion P as [| | | | |? Pl|]; subst. destruct l as [|v l]; [injection H as <-; repeat constructor; lia|]. rewrite dump_arr in H. apply bind_ok in H as (ts & E & [= <-]).
      assert (Forall chars ts); [|do 2 (apply chars_cons; split; [lia|]); apply chars_app; split; [now apply lines_chars|apply chars_cons; split; [lia|]; apply chars_app; split; [apply spaces_chars|repeat constructor; lia]]].
      revert ts E. generalize dependent (v :: l). clear v l. induction l as [|v l IHl]; intros IH P Pl ts E; [injection E as <-; constructor|]. cbn [dump_list] in E.
      apply bind_ok in E as (t' & Et & E). apply bind_ok in E as (ts' & Ets & [= <-]). inversion IH as [|? ? I1 I2]; subst. inversion Pl; subst. constructor; [change (chars (repeat 32 (S (S ind)) ++ t')); apply chars_app; split; [apply spaces_chars|]|].
      + eapply I1; eassumption.
      + apply IHl; trivial. now constructor.
    - intros m IH ind t H P. inversion P as [| | | | | |? Pm Sm]; subst. clear P Sm. destruct m as [|p m]; [injection H as <-; repeat constructor; lia|]. rewrite dump_obj in H. apply bind_ok in H as (ts & E & [= <-]).
      assert (Forall chars ts); [|do 2 (apply chars_cons; split; [lia|]); apply chars_app; split; [now apply lines_chars|apply chars_cons; split; [lia|]; apply chars_app; split; [apply spaces_chars|repeat constructor; lia]]].
      revert ts E. generalize dependent (p :: m). clear p m. intro m. induction m as [|[k v] m IHm]; intros IH Pm ts E; [injection E as <-; constructor|]. cbn [dump_members] in E.
      apply bind_ok in E as (kt & Ek & E). apply bind_ok in E as (t' & Et & E). apply bind_ok in E as (ts' & Ets & [= <-]). inversion IH as [|? ? I1 I2]; subst. inversion Pm as [|? ? [Ck Pv] Pm']; subst. cbn [fst snd] in *.
      constructor; [change (chars (repeat 32 (S (S ind)) ++ kt ++ 58 :: 32 :: t')); apply chars_app; split; [apply spaces_chars|]; apply chars_app; split; [now apply (dump_string_chars k)|]; do 2 (apply chars_cons; split; [lia|])|].
      + eapply I1; eassumption.
      + now apply IHm.
  Qed.
  Lemma dump_text m t : dump io 0 (JObj m) = Ok t -> printable io (JObj m) -> value_text io t (JObj m).
  Proof.
    intros D P. pose proof (dump_chars _ _ _ D P) as C. destruct (@all_back _ io _ _ _ D P) as [_ V]. destruct (V [] (2 * length t)%nat I ltac:(lia)) as (k & r & E & _ & J).
    rewrite app_nil_r in E. destruct (proj1 (texts_only io _) k t r (JObj m) [] E C J) as (w & t' & Hw & Et & Ht). rewrite app_nil_r in Et.
    destruct (object_start io _ D) as [u Eu]. destruct Hw as [|c w Hc _]; [cbn in Et; now subst t'|]. rewrite Et in Eu. injection Eu as -> _. lia.
  Qed.
End P.

Section L.
  Context (fl : fops) (io : float_io (F fl)).
  Lemma same_text s s' v rest rest' : chars s -> chars s' -> file_text io s v rest -> apart_from v rest -> file_text io s' v rest' -> apart_from v rest' ->
    load_stream fl io s = load_stream fl io s' /\ load_vgram fl io s = load_vgram fl io s' /\
    load_tstream fl io s = load_tstream fl io s' /\ load_tvgram fl io s = load_tvgram fl io s'.
  Proof.
    intros C C' H A H' A'. apply file_reads in H; trivial. apply file_reads in H'; trivial.
    unfold load_tstream, load_tvgram, load_stream, load_vgram, load_tokenizer, read_dict_json. rewrite H, H'. easy.
  Qed.
  Lemma no_text s : chars s -> (forall v rest, ~ file_text io s v rest) ->
    load_stream fl io s = Throw JsonParse /\ load_vgram fl io s = Throw JsonParse /\ load_tstream fl io s = Throw JsonParse /\ load_tvgram fl io s = Throw JsonParse.
  Proof. intros C H. apply not_json. intros j Hj. apply file_only in Hj as [rest Hr]; [|exact C]. now apply (H j rest). Qed.
  Lemma saved_text file : saved_file fl io file -> exists m, file_text io file (JObj m) [10] /\ chars file.
  Proof.
    intros Hs. destruct (saved_any fl io file Hs) as (tok & ex & z & H & Hi & Ht & Hm). destruct (saved fl io tok ex z file H Hi Ht Hm) as (p & d & es & t & _ & _ & _ & Hd & Hp & ->).
    eexists. split; [|apply chars_app; split; [exact (dump_chars io _ _ _ Hd Hp)|repeat constructor; lia]]. exists [], [], t. split; [reflexivity|]. split; [now left|]. split; [constructor|]. exact (dump_text io _ _ Hd Hp).
  Qed.
  (** Objects: two orders of members with different names. *)
  Lemma same_order t kvs t' kvs' rest rest' : members_text io t kvs -> members_text io t' kvs' -> NoDup (map fst kvs) -> Permutation kvs kvs' -> chars t -> chars t' -> chars rest -> chars rest' ->
    load_stream fl io (123 :: t ++ 125 :: rest) = load_stream fl io (123 :: t' ++ 125 :: rest') /\ load_vgram fl io (123 :: t ++ 125 :: rest) = load_vgram fl io (123 :: t' ++ 125 :: rest') /\
    load_tstream fl io (123 :: t ++ 125 :: rest) = load_tstream fl io (123 :: t' ++ 125 :: rest') /\ load_tvgram fl io (123 :: t ++ 125 :: rest) = load_tvgram fl io (123 :: t' ++ 125 :: rest').
  Proof.
    assert (G : forall t kvs m rest, members_text io t kvs -> object_of kvs m -> file_text io (123 :: t ++ 125 :: rest) (JObj m) rest).
    { intros t0 kvs0 m r0 Ht Ho. exists [], [], (123 :: t0 ++ [125]). split; [cbn; now rewrite <- app_assoc|]. split; [now left|]. split; [constructor|]. now apply vt_obj with kvs0. }
    assert (Q : forall t rest : text, chars t -> chars rest -> chars (123 :: t ++ 125 :: rest)).
    { intros t0 r0 Ct Cr. apply chars_cons. split; [lia|]. apply chars_app. split; [exact Ct|]. apply chars_cons. split; [lia|exact Cr]. }
    intros H H' N P C C' Cr Cr'. pose proof (oput_object (members_chars H C)) as Ho. apply (same_text _ _ (JObj (oput [] kvs)) rest rest'); try exact I; [now apply Q|now apply Q|now apply (G t kvs)|]. apply (G t' kvs'); [exact H'|]. now apply (object_order kvs).
  Qed.
End L.
