(** Proofs about reading arbitrary files (C67, C68). *)
From Coq Require Import Ascii String Permutation.
From Verif Require Import Base FloatOps ModelDict ModelCoder ModelTok Maps ModelStat ModelBuilder ModelStream ModelVGram ModelString ModelJson ModelPersist
  Spec OrderProofs DictProofs PropsStatLemmas CoderProofs SpecStat StreamProofs JsonProofs SpecPersist PersistProofs PropsPersistLemmas SpecLoad.
Local Open Scope Z_scope.
Local Open Scope list_scope.

Section L.
  Context (fl : fops) (io : float_io (F fl)).
  Notation json := (json (F fl)).
  Notation reads_int := (reads_int fl).

  Lemma wrap32_int z : int32 (wrap32 z).
  Proof. unfold int32, wrap32. pose proof (Z.mod_pos_bound (z + 2 ^ 31) (2 ^ 32) ltac:(lia)). lia. Qed.
  Lemma wrap32_reads z n k : int32 n -> z = n + k * 2 ^ 32 -> wrap32 z = n.
  Proof.
    intros Hn ->. rewrite <- (wrap32_id n Hn) at 2. unfold wrap32. f_equal. replace (n + k * 2 ^ 32 + 2 ^ 31) with (n + 2 ^ 31 + k * 2 ^ 32) by ring.
    apply Z.mod_add. lia.
  Qed.
  Lemma wrap32_part z : exists k, z = wrap32 z + k * 2 ^ 32.
  Proof. exists ((z + 2 ^ 31) / 2 ^ 32). unfold wrap32. pose proof (Z.div_mod (z + 2 ^ 31) (2 ^ 32) ltac:(lia)). lia. Qed.

  Lemma int_reads j n : get_int fl j = Ok n <-> reads_int j n.
  Proof.
    split.
    - destruct j as [|b|z|x|s|l|m]; cbn; try discriminate.
      + intros [= <-]. constructor.
      + intros [= <-]. destruct (wrap32_part z) as [k Hk]. exact (ri_int fl z (wrap32 z) k (wrap32_int z) Hk).
      + destruct (_ && _)%bool eqn:E; [|discriminate]. intros [= <-]. apply andb_prop in E as [E1 E2]. apply Z.leb_le in E1. apply Z.ltb_lt in E2.
        apply ri_float. unfold int32. lia.
    - destruct 1 as [z n k Hn E|x Hx|b]; cbn.
      + f_equal. exact (wrap32_reads z n k Hn E).
      + unfold int32 in Hx. destruct (_ && _)%bool eqn:E; [easy|]. apply andb_false_iff in E as [E|E]; [apply Z.leb_gt in E|apply Z.ltb_ge in E]; lia.
      + reflexivity.
  Qed.
  Lemma double_reads j x : get_double fl j = Ok x <-> reads_double fl j x.
  Proof. split; [destruct j; cbn; try discriminate; intros [= <-]; constructor|now destruct 1]. Qed.
  Lemma ints_reads l : forall w, get_ints fl l = Ok w <-> Forall2 reads_int l w.
  Proof.
    induction l as [|j l IH]; intro w; cbn; (split; [intro H|inversion 1 as [|? n ? w' Hn Hw]; subst]).
    - injection H as <-. constructor.
    - reflexivity.
    - apply bind_ok in H as (n & En & H). apply bind_ok in H as (r & Er & H). injection H as <-. constructor; [now apply int_reads|now apply IH].
    - rewrite (proj2 (int_reads _ _) Hn). cbn. now rewrite (proj2 (IH _) Hw).
  Qed.

  Section E.
  (** ** Where a run may stop *)
  Context (keys : list text) (Hkeys : incl int_keys keys).
  Notation ends := (ends fl keys).
  Lemma ends_bind {A B} j (o : outcome A) (k : A -> outcome B) : ends j o -> (forall a, o = Ok a -> ends j (k a)) -> ends j (bind o k).
  Proof. destruct o; cbn; intros H K; try exact H. now apply K. Qed.
  Lemma ends_foldM {A B} j (g : A -> B -> outcome A) : forall l a, (forall b x, In b l -> ends j (g x b)) -> ends j (foldM g l a).
  Proof. induction l as [|b l IH]; intros a H; cbn; [exact I|]. apply ends_bind; [apply H; now left|]. intros x _. apply IH. intros b' x' Hb. apply H. now right. Qed.
  Lemma inside_trans a b c : inside fl a b -> inside fl b c -> inside fl a c.
  Proof. intros H1 H2. induction H2 as [|j l v Hv Hi IH|j m k v Hv Hi IH]; [exact H1| |]; [apply (in_arr fl _ _ v Hv)|apply (in_obj fl _ _ k v Hv)]; now apply IH. Qed.
  Lemma ends_int j v : inside fl v j -> ends j (get_int fl v).
  Proof.
    intro H. destruct v as [|b|z|x|s|l|m]; cbn; try exact I. destruct (_ && _)%bool eqn:E; [exact I|]. exists x. split; [exact H|]. unfold int32. intros [H1 H2].
    apply andb_false_iff in E as [E|E]; [apply Z.leb_gt in E|apply Z.ltb_ge in E]; lia.
  Qed.
  Lemma ends_ints j l : (forall v, In v l -> inside fl v j) -> ends j (get_ints fl l).
  Proof.
    induction l as [|v l IH]; intro H; cbn; [exact I|]. apply ends_bind; [apply ends_int, H; now left|]. intros n _. apply ends_bind; [|easy]. apply IH. intros u Hu. apply H. now right.
  Qed.
  Lemma ends_seq j v : inside fl v j -> ends j (get_seq fl v).
  Proof.
    intro H. destruct v as [|b|z|x|s|l|m]; cbn; try exact I. apply ends_ints. intros u Hu. apply (inside_trans u (JArr l) j); [|exact H]. apply (in_arr fl _ _ u Hu). constructor.
  Qed.
  Lemma ofind_in {A} (m : list (text * A)) k v : ofind m k = Some v -> exists k', In (k', v) m.
  Proof. induction m as [|[k' v'] m IH]; cbn; [discriminate|]. destruct (seq_eqb k k'); [intros [= <-]; exists k'; now left|]. intro H. destruct (IH H) as [q Hq]. exists q. now right. Qed.
  Lemma field_inside j k v : jfield fl j k = Ok v -> v = JNull \/ inside fl v j.
  Proof.
    destruct j as [|b|z|x|s|l|m]; cbn; try discriminate; [intros [= <-]; now left|]. destruct (ofind m k) as [u|] eqn:E; intros [= <-]; [|now left].
    right. destruct (ofind_in m k u E) as [k' Hk]. apply (in_obj fl _ _ k' u Hk). constructor.
  Qed.
  Lemma ends_field j k : ends j (jfield fl j k).
  Proof. destruct j; cbn; exact I. Qed.
  Lemma null_int j v : v = JNull \/ inside fl v j -> ends j (get_int fl v).
  Proof. intros [->|H]; [exact I|now apply ends_int]. Qed.
  Lemma items_inside j v u : v = JNull \/ inside fl v j -> In u (items fl v) -> inside fl u j.
  Proof.
    intros [->|H] Hu; [destruct Hu|]. apply (inside_trans u v j); [|exact H].
    destruct v as [|b|z|x|s|l|m]; cbn in Hu; try (destruct Hu as [<-|[]]; constructor).
    - destruct Hu.
    - apply (in_arr fl _ _ u Hu). constructor.
    - apply in_map_iff in Hu as ([k u'] & <- & Hm). apply (in_obj fl _ _ k u' Hm). constructor.
  Qed.
  Lemma field_elements j k v u : jfield fl j k = Ok v -> In u (items fl v) -> exists m, j = JObj m /\ In u (elements fl m k).
  Proof.
    destruct j as [|b|z|x|s|l|m]; cbn; try discriminate; [intros [= <-] []|]. intros [= <-] Hu. exists m. split; [easy|]. unfold elements.
    destruct (ofind m k); [exact Hu|destruct Hu].
  Qed.
  Lemma ends_member j v u k : jfield fl j (txt "alphabet"%string) = Ok v -> In u (items fl v) -> In k keys -> ends j (jmember fl u k).
  Proof.
    intros Hv Hu Hk. destruct u as [|b|z|x|s|l|o]; cbn; try exact I. destruct (ofind o k) as [w|] eqn:E; [exact I|].
    destruct (field_elements j _ v _ Hv Hu) as (m & -> & Hm). now exists m, o, k.
  Qed.
  Lemma member_inside j u k w : inside fl u j -> jmember fl u k = Ok w -> inside fl w j.
  Proof.
    intro H. destruct u as [|b|z|x|s|l|o]; cbn; try discriminate. destruct (ofind o k) as [v|] eqn:E; [|discriminate]. intros [= <-].
    apply (inside_trans _ _ j) with (2 := H). destruct (ofind_in o k v E) as [k' Hk]. apply (in_obj fl _ _ k' v Hk). constructor.
  Qed.
  Lemma ends_entry_vec j v u : jfield fl j (txt "alphabet"%string) = Ok v -> In u (items fl v) ->
    ends j (x <- jmember fl u (txt "vec"%string) ;; get_seq fl x).
  Proof.
    intros Hv Hu. apply ends_bind; [apply (ends_member j v u _ Hv Hu); apply Hkeys; cbn; auto|]. intros w Hw. apply ends_seq.
    exact (member_inside j u _ w (items_inside j v u (field_inside _ _ _ Hv) Hu) Hw).
  Qed.
  Lemma ends_read j : ends j (read_dict fl j).
  Proof.
    unfold read_dict. apply ends_bind.
    { apply ends_bind; [apply ends_field|]. intros v Hv. apply null_int. exact (field_inside _ _ _ Hv). }
    intros size _. apply ends_bind.
    { apply ends_bind; [apply ends_field|]. intros v _. destruct v; exact I. }
    intros mp _. apply ends_bind.
    { unfold read_coder. apply ends_bind; [apply ends_field|]. intros v Hv. apply ends_foldM. intros u c Hu. apply ends_bind; [|easy].
      apply ends_int. exact (items_inside j v u (field_inside _ _ _ Hv) Hu). }
    intros c _. apply ends_bind; [|intros [fs ws] _; exact I].
    unfold read_alphabet. apply ends_bind; [apply ends_field|]. intros v Hv. apply ends_foldM. intros u p Hu. apply ends_bind.
    { apply ends_bind; [apply (ends_member j v u _ Hv Hu); apply Hkeys; cbn; auto|]. intros w Hw. apply ends_int.
      exact (member_inside j u _ w (items_inside j v u (field_inside _ _ _ Hv) Hu) Hw). }
    intros f _. apply ends_bind; [now apply (ends_entry_vec j v)|easy].
  Qed.
  Lemma stream_made c freqs ws size mp : exists z d, loaded_stream fl c freqs ws size mp = Ok z /\ the_dict fl z = Ok (1%nat, d) /\ seqs d = isort ws /\
    zsize z = size /\ zminp z = Some mp /\ zcoder z = c /\ s_freqs fl z = freqs.
  Proof.
    unfold loaded_stream, new_builder_loaded, mk_stat. destruct (mk_dict_spec ws) as (d & -> & Hs & _). cbn [bind]. destruct (mk_dict_spec (seqs d)) as (d' & -> & Hs' & _). cbn [bind].
    eexists. exists d. split; [reflexivity|]. cbn. easy.
  Qed.
  Lemma decode_ends j c : forall w, ends j (decode c w).
  Proof. induction w as [|k w IH]; cbn; [exact I|]. destruct (mfind Z.eqb (bwd c) k); [|exact I]. cbn. apply ends_bind; [exact IH|easy]. Qed.
  Lemma ends_tokenizer file c j : In (txt "text"%string) keys -> parse io file = Ok j -> ends j (load_tokenizer fl io file c).
  Proof.
    intros Ht E. unfold load_tokenizer, read_dict_json. rewrite E. cbn [bind]. apply ends_bind; [apply ends_field|]. intros v Hv. apply ends_bind; [|easy].
    apply ends_foldM. intros u m Hu. apply ends_bind; [now apply (ends_entry_vec j v)|]. intros w _. apply ends_bind; [apply decode_ends|]. intros [|s [|s' t]] _; try exact I.
    apply ends_bind; [|easy]. apply ends_bind; [apply (ends_member j v u _ Hv Hu); exact Ht|]. intros [] _; exact I.
  Qed.
  End E.

  Lemma not_json file : (forall j, parse io file <> Ok j) ->
    load_stream fl io file = Throw JsonParse /\ load_vgram fl io file = Throw JsonParse /\
    load_tstream fl io file = Throw JsonParse /\ load_tvgram fl io file = Throw JsonParse.
  Proof.
    intro H. destruct (parse_settles io file) as [[v Hv]|E]; [now apply H in Hv|].
    unfold load_tstream, load_tvgram, load_stream, load_vgram, read_dict_json. now rewrite E.
  Qed.
  Lemma stream_ends keys file j : incl int_keys keys -> parse io file = Ok j -> ends fl keys j (load_stream fl io file).
  Proof.
    intros Hk E. unfold load_stream, read_dict_json. rewrite E. cbn [bind]. apply ends_bind; [now apply ends_read|]. intros m _.
    destruct (stream_made (md_coder m) (md_freqs m) (md_words m) (md_size m) (md_minp m)) as (z & d & -> & _). exact I.
  Qed.
  Lemma vgram_ends keys file j : incl int_keys keys -> parse io file = Ok j -> ends fl keys j (load_vgram fl io file).
  Proof.
    intros Hk E. unfold load_vgram, read_dict_json. rewrite E. cbn [bind]. apply ends_bind; [now apply ends_read|]. intros m _.
    apply ends_bind; [apply ends_bind; [apply ends_field|intros [] _; exact I]|]. intros f _.
    apply ends_bind; [apply ends_bind; [apply ends_field|intros [] _; exact I]|]. intros g _. unfold loaded_vgram.
    destruct (stream_made (md_coder m) (md_freqs m) (md_words m) (md_size m) (md_minp m)) as (z & d & -> & _). exact I.
  Qed.
  Lemma load_ends file j : parse io file = Ok j ->
    ends fl int_keys j (load_stream fl io file) /\ ends fl int_keys j (load_vgram fl io file) /\
    ends fl text_keys j (load_tstream fl io file) /\ ends fl text_keys j (load_tvgram fl io file).
  Proof.
    intro E. assert (Hi : incl int_keys text_keys) by (intros k [<-|[<-|[]]]; cbn; auto).
    assert (Ht : In (txt "text"%string) text_keys) by (cbn; auto).
    split; [apply stream_ends; [apply incl_refl|exact E]|]. split; [apply vgram_ends; [apply incl_refl|exact E]|]. split.
    - unfold load_tstream. apply ends_bind; [now apply stream_ends|]. intros z _. apply ends_bind; [now apply ends_tokenizer|]. intros tk _. exact I.
    - unfold load_tvgram. apply ends_bind; [now apply vgram_ends|]. intros z _. apply ends_bind; [now apply ends_tokenizer|]. intros tk _. exact I.
  Qed.

  (** ** What is read *)
  Lemma items_visited v : items fl v = visited fl v.
  Proof. reflexivity. Qed.
  Lemma coder_read l : forall c c', foldM (fun c x => n <- get_int fl x ;; Ok (snd (encode c [n]))) l c = Ok c' <->
    exists codes, Forall2 reads_int l codes /\ c' = snd (encode c codes).
  Proof.
    assert (Hcons : forall c n ns, snd (encode c (n :: ns)) = snd (encode (snd (encode c [n])) ns)).
    { intros c n ns. cbn. destruct (encode_symbol c n) as [v c1]. cbn. now destruct (encode c1 ns). }
    induction l as [|x l IH]; intros c c'; cbn [foldM]; split.
    - intros [= <-]. exists []. split; [constructor|easy].
    - intros (codes & H & ->). inversion H. reflexivity.
    - intro H. apply bind_ok in H as (c1 & E1 & H). apply bind_ok in E1 as (n & En & E1). injection E1 as <-. apply IH in H as (codes & Hc & ->).
      exists (n :: codes). split; [constructor; [now apply int_reads|exact Hc]|]. now rewrite Hcons.
    - intros (codes & H & ->). inversion H as [|? n ? ns Hn Hns]; subst. rewrite (proj2 (int_reads _ _) Hn). cbn [bind]. apply IH. exists ns. split; [exact Hns|]. now rewrite Hcons.
  Qed.
  Lemma entry_read u f w : (f <- (x <- jmember fl u (txt "freq"%string) ;; get_int fl x) ;; v <- (x <- jmember fl u (txt "vec"%string) ;; get_seq fl x) ;; Ok (f, v)) = Ok (f, w)
    <-> entry fl u f w.
  Proof.
    split.
    - intro H. apply bind_ok in H as (f' & H1 & H). apply bind_ok in H as (w' & H2 & H). injection H as -> ->.
      apply bind_ok in H1 as (jf & Ef & H1). apply bind_ok in H2 as (jw & Ew & H2).
      destruct u as [|b|z|x|s|l|m]; try discriminate. cbn in Ef, Ew. destruct (ofind m _) as [v1|] eqn:E1 in Ef; [|discriminate]. destruct (ofind m _) as [v2|] eqn:E2 in Ew; [|discriminate].
      injection Ef as ->. injection Ew as ->. destruct jw as [|b|z|x|s|l|m']; try discriminate. exists m, jf, l. repeat split; try easy; [now apply int_reads|now apply ints_reads].
    - intros (m & jf & l & -> & E1 & R1 & E2 & R2). cbn [jmember]. rewrite E1, E2. cbn [bind get_seq]. rewrite (proj2 (int_reads _ _) R1). cbn [bind]. now rewrite (proj2 (ints_reads _ _) R2).
  Qed.
  Lemma alphabet_read l : forall a b fs ws,
    foldM (fun p w => f <- (x <- jmember fl w (txt "freq"%string) ;; get_int fl x) ;;
       v <- (x <- jmember fl w (txt "vec"%string) ;; get_seq fl x) ;; Ok (fst p ++ [f], snd p ++ [v])) l (a, b) = Ok (fs, ws) <->
    exists words, Forall2 (fun e p => entry fl e (fst p) (snd p)) l words /\ fs = a ++ map fst words /\ ws = b ++ map snd words.
  Proof.
    induction l as [|u l IH]; intros a b fs ws; cbn [foldM]; split.
    - intros [= <- <-]. exists []. cbn. rewrite !app_nil_r. split; [constructor|easy].
    - intros (words & H & -> & ->). inversion H. cbn. now rewrite !app_nil_r.
    - intro H. apply bind_ok in H as (p & Hp & H). apply bind_ok in Hp as (f & Ef & Hp). apply bind_ok in Hp as (w & Ew & Hp). injection Hp as <-. cbn [fst snd] in H.
      apply IH in H as (words & Hw & -> & ->). exists ((f, w) :: words). cbn [map fst snd]. rewrite <- !app_assoc. split; [|easy]. constructor; [|exact Hw].
      apply entry_read. cbn [fst snd]. rewrite Ef. cbn [bind]. now rewrite Ew.
    - intros (words & H & -> & ->). inversion H as [|? [f w] ? r He Hr]; subst. cbn [fst snd] in He. apply entry_read in He.
      apply bind_ok in He as (f' & H1 & He). apply bind_ok in He as (w' & H2 & He). injection He as -> ->. rewrite H1. cbn [bind]. rewrite H2. cbn [bind fst snd].
      apply IH. exists r. cbn [map fst snd]. rewrite <- !app_assoc. easy.
  Qed.
  Lemma field_visited o k v : jfield fl (JObj o) k = Ok v -> items fl v = elements fl o k.
  Proof. unfold elements. cbn [jfield]. intro H. assert (E : v = match ofind o k with Some u => u | None => JNull end) by congruence. rewrite E. now destruct (ofind o k). Qed.
  Lemma model_read j m : read_dict fl j = Ok m <->
    exists codes words, model_file fl j (md_size m) (md_minp m) codes words /\ md_coder m = snd (encode new_coder codes) /\
      md_freqs m = map fst words /\ md_words m = map snd words.
  Proof.
    split.
    - intro H. unfold read_dict in H. apply bind_ok in H as (size & Hs & H). apply bind_ok in H as (mp & Hm & H). apply bind_ok in H as (c & Hc & H).
      apply bind_ok in H as ([fs ws] & Ha & H). injection H as <-. cbn [md_size md_minp md_coder md_freqs md_words].
      apply bind_ok in Hs as (js & Ejs & Hs). apply bind_ok in Hm as (jm & Ejm & Hm).
      unfold read_coder in Hc. apply bind_ok in Hc as (jc & Ejc & Hc). unfold read_alphabet in Ha. apply bind_ok in Ha as (ja & Eja & Ha).
      apply coder_read in Hc as (codes & Hcodes & ->). apply alphabet_read in Ha as (words & Hwords & -> & ->). exists codes, words. split; [|easy].
      destruct j as [|b|z|x|s|l|o]; try discriminate; [injection Ejs as <-; discriminate Hs|].
      rewrite (field_visited o _ _ Ejc) in Hcodes. rewrite (field_visited o _ _ Eja) in Hwords. clear Ejc Eja.
      apply int_reads in Hs. apply double_reads in Hm. cbn [jfield] in Ejs, Ejm.
      destruct (ofind o (txt "size"%string)) as [js'|] eqn:E1; [|injection Ejs as <-; inversion Hs].
      destruct (ofind o (txt "min_prob"%string)) as [jm'|] eqn:E2; [|injection Ejm as <-; inversion Hm].
      injection Ejs as ->. injection Ejm as ->. exists o, js, jm. easy.
    - intros (codes & words & (o & js & jm & -> & E1 & H1 & E2 & H2 & H3 & H4) & Ec & Ef & Ew). unfold read_dict, read_coder, read_alphabet. cbn [jfield bind]. rewrite E1, E2.
      cbn [bind]. rewrite (proj2 (int_reads _ _) H1), (proj2 (double_reads _ _) H2). cbn [bind].
      assert (G1 : foldM (fun c x => n <- get_int fl x ;; Ok (snd (encode c [n]))) (items fl (match ofind o (txt "coder"%string) with Some v => v | None => JNull end)) new_coder = Ok (snd (encode new_coder codes))).
      { apply coder_read. exists codes. split; [|easy]. unfold elements in H3. now destruct (ofind o (txt "coder"%string)). }
      rewrite G1. cbn [bind].
      assert (G2 := proj2 (alphabet_read (items fl (match ofind o (txt "alphabet"%string) with Some v => v | None => JNull end)) [] [] (map fst words) (map snd words))).
      rewrite G2; [|exists words; split; [|easy]; unfold elements in H4; now destruct (ofind o (txt "alphabet"%string))]. cbn [bind].
      rewrite <- Ec, <- Ef, <- Ew. now destruct m.
  Qed.
  (** The coder made from a list. *)
  Definition code_list (codes : list Z) : list Z := adds [] codes.
  Lemma coder_made codes : coder_like (code_list codes) (snd (encode new_coder codes)).
  Proof.
    destruct (like_encode codes [] new_coder (NoDup_nil _) (like_refl [] (NoDup_nil _))) as (c & E & H). rewrite E. exact H.
  Qed.
  Lemma adds_nodup : forall l acc, NoDup (acc ++ l) -> adds acc l = acc ++ l.
  Proof.
    induction l as [|x l IH]; intros acc H; [now rewrite app_nil_r|]. change (adds acc (x :: l)) with (adds (add1 acc x) l).
    assert (E : add1 acc x = acc ++ [x]).
    { unfold add1. destruct (in_dec Z.eq_dec x acc) as [Hx|]; [|easy]. apply NoDup_remove_2 in H. exfalso. apply H, in_app_iff. now left. }
    rewrite E, IH; rewrite <- app_assoc; easy.
  Qed.

  Lemma load_reads file z : load_stream fl io file = Ok z <->
    exists j codes words, parse io file = Ok j /\ exists size mp, model_file fl j size mp codes words /\
      loaded_stream fl (snd (encode new_coder codes)) (map fst words) (map snd words) size mp = Ok z.
  Proof.
    unfold load_stream, read_dict_json. split.
    - intro H. apply bind_ok in H as (j & Ej & H). apply bind_ok in H as (m & Em & H). apply model_read in Em as (codes & words & Hm & Ec & Ef & Ew).
      exists j, codes, words. split; [exact Ej|]. exists (md_size m), (md_minp m). split; [exact Hm|]. now rewrite <- Ec, <- Ef, <- Ew.
    - intros (j & codes & words & Ej & size & mp & Hm & H). rewrite Ej. cbn [bind].
      rewrite (proj2 (model_read j (mkData (snd (encode new_coder codes)) (map fst words) (map snd words) size mp))); [exact H|].
      exists codes, words. easy.
  Qed.

  (** C68 *)
  Lemma decode_known S c w : coder_like S c -> known_codes S w -> decode c w = Ok (decoded S w).
  Proof.
    intros H. induction 1 as [|k w Hk Hw IH]; [reflexivity|]. cbn [decode]. rewrite (like_code S c k H).
    destruct (Z.leb_spec 0 k); [|lia]. destruct (Z.ltb_spec k (Z.of_nat (length S))); [|lia]. cbn [andb].
    destruct (nth_error S (Z.to_nat k)) as [x|] eqn:E; [|apply nth_error_None in E; lia]. cbn. rewrite IH. cbn. now rewrite (nth_error_nth _ _ 0 E).
  Qed.
  Lemma decode_all_known S c ws : coder_like S c -> Forall (known_codes S) ws -> decode_all c ws = Ok (map (decoded S) ws).
  Proof. intros H. induction 1 as [|w ws Hw Hws IH]; [reflexivity|]. cbn [decode_all]. rewrite (decode_known S c w H Hw). cbn. now rewrite IH. Qed.
  Lemma loads_model file j size mp codes words : parse io file = Ok j -> model_file fl j size mp codes words ->
    exists z, load_stream fl io file = Ok z /\ zsize z = size /\ zminp z = Some mp /\ s_freqs fl z = map fst words /\
      (NoDup codes -> Forall (fun p => known_codes codes (snd p)) words ->
        exists al, s_alphabet fl z = Ok al /\ Permutation al (map (fun p => decoded codes (snd p)) words) /\
          (sorted (map snd words) -> al = map (fun p => decoded codes (snd p)) words)).
  Proof.
    intros Ej Hm. destruct (stream_made (snd (encode new_coder codes)) (map fst words) (map snd words) size mp) as (z & d & E & Hd & Hs & H1 & H2 & H3 & H4).
    exists z. split; [|split; [exact H1|split; [exact H2|split; [exact H4|]]]].
    - apply load_reads. exists j, codes, words. split; [exact Ej|]. now exists size, mp.
    - intros Hn Hk. pose proof (coder_made codes) as Hc. unfold code_list in Hc. rewrite (adds_nodup codes [] Hn) in Hc. cbn [app] in Hc.
      assert (Hall : Forall (known_codes codes) (isort (map snd words))).
      { apply Forall_forall. intros w Hw. apply isort_in, in_map_iff in Hw as (p & <- & Hp). exact (proj1 (Forall_forall _ _) Hk p Hp). }
      exists (map (decoded codes) (isort (map snd words))). split; [|split].
      + unfold s_alphabet. rewrite Hd. cbn [bind]. rewrite Hs, H3. exact (decode_all_known codes _ _ Hc Hall).
      + rewrite <- (map_map snd (decoded codes)). apply Permutation_map. apply Permutation_sym, isort_perm || apply isort_perm.
      + intro Hsrt. rewrite (isort_id _ Hsrt). apply map_map.
  Qed.
  Lemma loads_only file z : load_stream fl io file = Ok z -> exists j size mp codes words, parse io file = Ok j /\ model_file fl j size mp codes words.
  Proof. intro H. apply load_reads in H as (j & codes & words & Ej & size & mp & Hm & _). now exists j, size, mp, codes, words. Qed.
End L.
