(** FileProofs: the contents of a saved file (C89). *)
From Coq Require Import Ascii String Permutation Sorted.
From Verif Require Import Base Spec FloatOps FloatLaws ModelDict ModelCoder ModelTok Maps ModelStat ModelBuilder ModelStream ModelVGram ModelString ModelJson ModelPersist
  OrderProofs DictProofs CoderProofs TokProofs SpecStat SpecBuilder StatProofs RunProofs LearnProofs BuilderProofs BuilderSafe BuilderOwn PropsDictLemmas PropsStatLemmas ReachProofs PropsBuilderLemmas StreamProofs VGramProofs PropsStreamLemmas PropsVGramLemmas StringProofs PropsStringLemmas
  PersistProofs PropsPersistLemmas TextPersist CountsProofs SaveProofs CrossProofs PropsCrossLemmas SharedProofs PropsGrammarLemmas SpecTok SpecJson SpecStream SpecVGram SpecString SpecPersist SpecCounts SpecSave SpecGrammar SpecFile.
Local Open Scope Z_scope.
Local Open Scope list_scope.

(** ** First occurrences *)
Lemma add_remove {A} (dec : forall x y : A, {x = y} + {x <> y}) x l : ~ In x l -> remove dec x l = l.
Proof. apply notin_remove. Qed.
Fixpoint fresh_of {A} (dec : forall x y : A, {x = y} + {x <> y}) (acc l : list A) : list A :=
  match l with [] => [] | x :: r => if in_dec dec x acc then fresh_of dec acc r else x :: fresh_of dec (acc ++ [x]) r end.
Lemma adds_fresh l : forall acc, adds acc l = acc ++ fresh_of Z.eq_dec acc l.
Proof.
  induction l as [|x l IH]; intro acc; cbn [adds fold_left fresh_of]; [now rewrite app_nil_r|]. fold (adds (add1 acc x) l). rewrite IH. unfold add1.
  destruct (in_dec Z.eq_dec x acc); [easy|]. now rewrite <- app_assoc.
Qed.
Section Fr.
  Context {A : Type} (dec : forall x y : A, {x = y} + {x <> y}).
  Definition without (acc l : list A) : list A := filter (fun x => if in_dec dec x acc then false else true) l.
  Lemma without_app a b l : without (a ++ b) l = without b (without a l).
  Proof.
    induction l as [|x l IH]; [easy|]. cbn [without filter]. fold (without (a ++ b) l). fold (without a l). destruct (in_dec dec x (a ++ b)) as [i|n].
    - apply in_app_or in i as [i|i].
      + destruct (in_dec dec x a); [exact IH|easy].
      + destruct (in_dec dec x a); [exact IH|]. cbn [without filter]. destruct (in_dec dec x b); [exact IH|easy].
    - destruct (in_dec dec x a) as [i|]; [elim n; apply in_or_app; now left|]. cbn [without filter]. destruct (in_dec dec x b) as [i|]; [elim n; apply in_or_app; now right|].
      f_equal. exact IH.
  Qed.
  Lemma remove_without x l : remove dec x l = without [x] l.
  Proof.
    induction l as [|y l IH]; [easy|]. cbn [remove without filter]. fold (without [x] l). destruct (dec x y) as [->|n].
    - destruct (in_dec dec y [y]) as [|m]; [exact IH|elim m; now left].
    - destruct (in_dec dec y [x]) as [[->|[]]|]; [now elim n|]. f_equal. exact IH.
  Qed.
  Lemma without_comm a b l : without a (without b l) = without b (without a l).
  Proof.
    induction l as [|x l IH]; [easy|]. cbn [without filter]. fold (without a l) (without b l). destruct (in_dec dec x a) as [i|n], (in_dec dec x b) as [j|m].
    - exact IH.
    - cbn [without filter]. destruct (in_dec dec x a); [exact IH|easy].
    - cbn [without filter]. destruct (in_dec dec x b); [exact IH|easy].
    - cbn [without filter]. destruct (in_dec dec x a); [easy|]. destruct (in_dec dec x b); [easy|]. f_equal. exact IH.
  Qed.
  Lemma fresh_firsts l : forall acc, fresh_of dec acc l = without acc (firsts dec l).
  Proof.
    induction l as [|x l IH]; intro acc; [easy|]. cbn [fresh_of firsts without filter]. fold (without acc (remove dec x (firsts dec l))). rewrite remove_without.
    destruct (in_dec dec x acc) as [i|n].
    - rewrite IH, without_comm. symmetry. assert (G : forall m, without [x] (without acc m) = without acc m); [|apply G].
      intro m. rewrite <- remove_without. apply notin_remove. unfold without. rewrite filter_In. intros [_ H]. destruct (in_dec dec x acc); [discriminate|contradiction].
    - f_equal. now rewrite IH, without_app, without_comm.
  Qed.
  Lemma without_nil l : without [] l = l.
  Proof. induction l as [|x l IH]; [easy|]. cbn [without filter]. destruct (in_dec dec x []) as [[]|]. f_equal. exact IH. Qed.
  Lemma firsts_in l x : In x (firsts dec l) <-> In x l.
  Proof.
    induction l as [|y l IH]; [easy|]. cbn [firsts]. split.
    - intros [->|H]; [now left|]. apply in_remove in H as [H _]. right. now apply IH.
    - intros [->|H]; [now left|]. destruct (dec y x) as [->|n]; [now left|]. right. apply in_in_remove; [congruence|now apply IH].
  Qed.
  Lemma remove_nodup x l : NoDup l -> NoDup (remove dec x l).
  Proof. rewrite remove_without. apply NoDup_filter. Qed.
  Lemma firsts_nodup l : NoDup (firsts dec l).
  Proof. induction l as [|x l IH]; [constructor|]. cbn [firsts]. constructor; [apply remove_In|now apply remove_nodup]. Qed.
End Fr.
Lemma adds_firsts l : adds [] l = firsts Z.eq_dec l.
Proof. now rewrite adds_fresh, fresh_firsts, without_nil. Qed.
(** First occurrences of codes and of what they stand for. *)
Lemma remove_coded tk ws ids w i : tok_ok tk -> mfind seq_eqb (tfwd tk) w = Some i -> coded tk ws ids -> coded tk (remove text_dec w ws) (remove Z.eq_dec i ids).
Proof.
  intros Hok Hw H. induction H as [|v j ws ids Hv H IH]; [constructor|]. cbn [remove]. destruct (text_dec w v) as [<-|n], (Z.eq_dec i j) as [<-|m]; [exact IH| | |now constructor].
  - elim m. congruence.
  - elim n. exact (code_inj _ _ _ _ Hok Hw Hv).
Qed.
Lemma firsts_coded tk ws ids : tok_ok tk -> coded tk ws ids -> coded tk (firsts text_dec ws) (firsts Z.eq_dec ids).
Proof. intros Hok H. induction H as [|w i ws ids Hw H IH]; [constructor|]. cbn [firsts]. constructor; [exact Hw|]. now apply remove_coded. Qed.

Lemma Forall2_nth {A B} (R : A -> B -> Prop) l l' : Forall2 R l l' -> forall i x, nth_error l' i = Some x -> exists y, nth_error l i = Some y /\ R y x.
Proof. induction 1 as [|a b l l' H Hl IH]; intros [|i] x E; cbn in E; try discriminate; [injection E as <-; now exists a|]. exact (IH i x E). Qed.

Lemma join_in ws w c : In w ws -> In c w -> In c (join ws).
Proof.
  intros Hw Hc. destruct ws as [|u ws]; [easy|]. rewrite join_cons. apply in_or_app. destruct Hw as [->|Hw]; [now left|right].
  apply in_concat. exists (32 :: w). split; [now apply (in_map (fun q => 32 :: q))|now right].
Qed.
Lemma word_chars s w c : In w (tokenize WordTok s) -> In c w -> In c s.
Proof.
  intros Hw Hc. pose proof (join_in _ _ _ Hw Hc) as H. destruct (proj2 (word_tokens s)) as [E|[E _]]; rewrite E; [exact H|]. apply in_or_app. now left.
Qed.

Section P.
  Context (fl : fops) (io : float_io (F fl)).
  Definition item_of (e : entry) : item := mkItem (en_freq e) (en_vec e) (en_text e).
  Lemma entry_item e : item_value (item_of e) (entry_json fl e).
  Proof.
    unfold item_value, entry_json. eexists. split; [reflexivity|]. cbn [item_of it_freq it_vec it_text app]. apply perm_skip. destruct (en_text e) as [t|]; cbn [app].
    - apply perm_swap.
    - apply Permutation_refl.
  Qed.
  Lemma pushed_listing l : listing l (pushed fl l).
  Proof. destruct l; [now left|right]. now split. Qed.
  Lemma file_says tok ex z file S p d x : save_any fl io true tok ex z = Ok file -> int_stream fl z -> tok_chars tok -> minp_file fl io z -> zminp z = Some x ->
    NoDup S -> coder_like S (zcoder z) -> the_dict fl z = Ok (p, d) ->
    exists items, model_file io file (zsize z) x S items ex /\ map it_vec items = seqs d /\ map it_freq items = firstn (dsize d) (zfreqs z) /\
      forall al, s_alphabet fl z = Ok al -> map it_text items = match tok with Some tk => map Some (tok_decode_all tk al) | None => map (fun _ => None) al end.
  Proof.
    intros Hs Hi Ht Hm Hx Hn Hc Hd. destruct (saved fl io tok ex z file Hs Hi Ht Hm) as (p' & d' & es & t & Hd' & He & _ & Hdu & Hp & ->).
    rewrite Hd in Hd'. injection Hd' as <- <-. exists (map item_of es). split; [|split; [|split]].
    - exists (file_obj fl io z es ex), (pushed fl (map (entry_json fl) es)), (coder_json fl (zcoder z)), (minp_written fl io z), (map (entry_json fl) es).
      split; [exists [], [], t; split; [reflexivity|]; split; [now left|]; split; [constructor|]; exact (dump_text io _ _ Hdu Hp)|].
      split; [|split; [apply pushed_listing|split; [|split]]].
      + unfold file_obj, full_obj. cbn [app]. do 2 apply perm_skip. destruct ex as [[f g]|]; cbn [app].
        * eapply Permutation_trans; [apply (Permutation_app_comm [_; _] [_; _])|]. apply perm_swap.
        * apply perm_swap.
      + clear. induction es as [|e es IH]; cbn [map]; constructor; [apply entry_item|exact IH].
      + rewrite (coder_symbols fl S _ Hn Hc). apply pushed_listing.
      + unfold number, minp_written. rewrite Hx. destruct (io_show io x); [right|left]; now split.
    - rewrite map_map. exact (proj1 He).
    - rewrite map_map. exact (proj1 (proj2 He)).
    - intros al Hal. rewrite map_map. change (map (fun e => it_text (item_of e)) es) with (map en_text es). destruct tok as [tk|].
      + exact (alphabet_texts fl tk z p d al es Hd He Hal).
      + destruct He as (E & _ & _ & H4). unfold s_alphabet in Hal. rewrite Hd in Hal. cbn [bind] in Hal. apply decode_all_len in Hal. rewrite <- E, map_length in Hal.
        clear E Hdu Hp. revert al Hal. induction H4 as [|e es He _ IH]; intros [|w al] Hl; try discriminate Hl; [easy|]. cbn [map]. cbn [text_of] in He. rewrite He. f_equal. apply IH. now injection Hl.
  Qed.
  Lemma range_stands S it : in_range S (it_vec it) -> stands_for S it (decw S (it_vec it)).
  Proof.
    unfold stands_for, decw. intro H. induction (it_vec it) as [|k v IH]; [constructor|]. cbn [map]. constructor; [|apply IH; intros c Hc; apply H; now right].
    pose proof (H k (or_introl eq_refl)) as Hk. split; [lia|]. apply nth_error_nth'. lia.
  Qed.
  Lemma items_stand S ws items : (forall w, In w ws -> in_range S w) -> map it_vec items = ws -> Forall2 (stands_for S) items (map (decw S) ws).
  Proof.
    intros H <-. induction items as [|it l IH]; [constructor|]. cbn [map] in *. constructor; [apply range_stands, H; now left|]. apply IH. intros w Hw. apply H. now right.
  Qed.
End P.

Section H.
  Context (fl : fops) (L : flaws fl) (io : float_io (F fl)).
  (** ** Integer streams *)
  Lemma fresh_parts size N ops z tok ex file : shist fl (new_stream fl size) ops z -> normal fl N ops -> save_any fl io true tok ex z = Ok file ->
    int32 size -> Forall int32 (seen fl ops) -> Forall int32 (zfreqs z) -> Z.of_nat (distinct (fed fl ops)) <= 2 ^ 31 ->
    exists p d x, the_dict fl z = Ok (p, d) /\ zminp z = Some x /\ zsize z = size /\ coder_like (firsts Z.eq_dec (seen fl ops)) (zcoder z) /\ int_stream fl z /\
      (forall w, In w (seqs d) -> in_range (firsts Z.eq_dec (seen fl ops)) w) /\ s_alphabet fl z = Ok (map (decw (firsts Z.eq_dec (seen fl ops))) (seqs d)).
  Proof.
    intros H Hn Hs Hsz Hsy Hfr Hdi. rewrite <- adds_firsts.
    assert (Hd0 : zdict z <> None).
    { intro E. rewrite save_any_eq in Hs. apply bind_ok in Hs as (a & Ha & _). unfold alphabet_to_json, the_dict in Ha. rewrite E in Ha. discriminate Ha. }
    destruct (hist_dict fl L [] [] (new_stream fl size) (kmax + N) 0 N 0 (fresh_start fl L size N (normal_N _ _ _ Hn)) eq_refl size0 ops z H Hn Hd0)
      as (p & d & al & Hd & Hal & _ & Hc & Hr). change (symbols_of fl [] ops) with (adds [] (seen fl ops)) in *.
    assert (Hx : exists x, zminp z = Some x).
    { destruct (zminp z) as [x|] eqn:Ex; [now exists x|]. exfalso. refine (minp_set fl _ _ _ H _ Hd0 Ex). intro C. now elim C. }
    destruct Hx as (x & Hx). pose proof (size_kept fl _ _ _ H) as Ez. cbn [new_stream zsize] in Ez. exists p, d, x. split; [exact Hd|]. split; [exact Hx|]. split; [exact Ez|].
    split; [exact Hc|]. split; [|split; [exact Hr|]].
    - split; [now rewrite Ez|]. split; [exact Hfr|]. split.
      + eapply Forall_impl; [|exact (fwd_symbols _ _ Hc)]. intros q Hq. apply (proj1 (adds_in _ _ _)) in Hq as [[]|Hq]. exact (proj1 (Forall_forall _ _) Hsy _ Hq).
      + intros q e Hq He. unfold the_dict in Hd. rewrite Hq, He in Hd. injection Hd as <- <-. apply Forall_forall. intros w Hw. apply Forall_forall. intros k Hk.
        pose proof (Hr w Hw k Hk) as Hb. rewrite adds_length in Hb. unfold distinct in Hdi. fold (seen fl ops) in Hdi. unfold int32. lia.
    - unfold s_alphabet. rewrite Hd. cbn [bind]. exact (like_decode_all _ _ _ Hc Hr).
  Qed.
  Lemma stream_file size N ops z file : shist fl (new_stream fl size) ops z -> normal fl N ops -> save_stream fl io true z = Ok file ->
    int32 size -> Forall int32 (seen fl ops) -> Forall int32 (s_freqs fl z) -> Z.of_nat (distinct (fed fl ops)) <= 2 ^ 31 -> minp_file fl io z ->
    exists al x items, s_alphabet fl z = Ok al /\ zminp z = Some x /\ model_file io file size x (firsts Z.eq_dec (seen fl ops)) items None /\
      Forall2 (stands_for (firsts Z.eq_dec (seen fl ops))) items al /\ map it_freq items = firstn (length al) (s_freqs fl z) /\ Forall (fun it => it_text it = None) items.
  Proof.
    intros H Hn Hs Hsz Hsy Hfr Hdi Hm. rewrite save_stream_any in Hs.
    destruct (fresh_parts size N ops z None None file H Hn Hs Hsz Hsy Hfr Hdi) as (p & d & x & Hd & Hx & Ez & Hc & Hi & Hr & Hal).
    destruct (file_says fl io None None z file _ p d x Hs Hi I Hm Hx (firsts_nodup _ _) Hc Hd) as (items & M & E1 & E2 & E3). rewrite Ez in M.
    eexists _, x, items. split; [exact Hal|]. split; [exact Hx|]. split; [exact M|]. split; [now apply items_stand|]. split.
    - rewrite map_length. exact E2.
    - specialize (E3 _ Hal). clear -E3. apply Forall_forall. intros it Hit. apply (in_map it_text) in Hit. rewrite E3 in Hit. apply in_map_iff in Hit as (w & E & _). now symmetry.
  Qed.

  (** ** Text streams *)
  Lemma tokens_chars k s ws : chars s -> tokens_of k s ws -> Forall chars ws.
  Proof.
    destruct k; cbn [tokens_of].
    - intros _ (n & Hn & ->). apply Forall_map, Forall_forall. intros c Hc. pose proof (normal_alnum _ _ Hn c Hc). constructor; [lia|constructor].
    - intros Hs ->. apply Forall_forall. intros w Hw. apply Forall_forall. intros c Hc. unfold chars in Hs. rewrite Forall_forall in Hs. apply Hs. exact (word_chars s w c Hw Hc).
  Qed.
  Lemma text_char_tok size inner words z0 ops z : new_tstream fl size inner words = Ok z0 -> thist fl z0 ops z -> Forall chars (tmet ops) -> char_tok (ttok z).
  Proof.
    intros H0 H Hm. destruct (SaveProofs.new_tstream_tok fl _ _ _ _ H0) as (T1 & T2 & T3 & _).
    destruct (thist_toks fl chars z0 ops z T1) as (K1 & K2 & _); [intros w i; rewrite T2; discriminate|exact H| |].
    - intros s ws Hs Hw. apply (tokens_chars (tkind (ttok z0)) s ws); [|exact Hw]. rewrite Forall_forall in Hm. now apply Hm.
    - intros i w Hw. apply (proj1 (proj2 K1)) in Hw. exact (K2 w i Hw).
  Qed.
  (** A tokenizer knows no more tokens than it has met characters. *)
  Lemma code_grows t w i t' : code_token true t w = Ok (i, t') -> (length (tfwd t') <= S (length (tfwd t)))%nat.
  Proof.
    unfold code_token. destruct (mfind seq_eqb (tfwd t) w) as [j|] eqn:E.
    - rewrite E. intros [= _ <-]. lia.
    - cbn zeta. intro H. match type of H with match ?x with _ => _ end = _ => destruct x; [|discriminate H] end. injection H as _ <-. cbn [tfwd].
      assert (G : forall (m : list (text * Z)) k v, (length (mset seq_eqb m k v) <= S (length m))%nat); [|apply G].
      clear. induction m as [|[a b] m IH]; intros k v; cbn [mset]; [easy|]. specialize (IH k v). destruct (seq_eqb k a); cbn [length]; unfold text, seq in *; lia.
  Qed.
  Lemma tokens_grow ws : forall t ids t', mapM (code_token true) ws t = Ok (ids, t') -> (length (tfwd t') <= length (tfwd t) + length ws)%nat.
  Proof.
    induction ws as [|w ws IH]; intros t ids t' H; cbn [mapM] in H; [injection H as _ <-; lia|]. apply bind_ok in H as ([i t1] & H1 & H). apply bind_ok in H as ([js t2] & H2 & H).
    injection H as _ <-. apply code_grows in H1. specialize (IH _ _ _ H2). cbn [length]. lia.
  Qed.
  Lemma transform_grows t s ids t' : tok_transform true t s = Ok (ids, t') -> (length (tfwd t') <= length (tfwd t) + length s)%nat.
  Proof.
    unfold tok_transform. intro H. apply bind_ok in H as (n & Hn & H). apply tokens_grow in H. pose proof (tokens_len _ _ _ (tokens_norm _ _ _ Hn)). lia.
  Qed.
  Lemma thist_grows z0 ops z : thist fl z0 ops z -> (Z.of_nat (length (tfwd (ttok z))) <= Z.of_nat (length (tfwd (ttok z0))) + thandled fl ops).
  Proof.
    induction 1 as [|ops z op z' H IH Hs]; [unfold thandled; cbn; lia|]. unfold thandled in *. rewrite map_app, zsum_app. cbn [map zsum fold_right].
    destruct op as [e s|s|]; cbn [tstep top_handled] in *.
    - unfold t_accept in Hs. apply bind_ok in Hs as ([ids tk] & Ht & Hs). apply bind_ok in Hs as (z1 & _ & Hs). injection Hs as <-. cbn [ttok]. apply transform_grows in Ht. lia.
    - destruct Hs as [pieces Hs]. unfold t_parse in Hs. apply bind_ok in Hs as ([ids tk] & Ht & Hs). apply bind_ok in Hs as ([r z1] & _ & Hs). apply bind_ok in Hs as (l & _ & Hs).
      injection Hs as _ <-. cbn [ttok]. apply transform_grows in Ht. lia.
    - unfold t_update in Hs. apply bind_ok in Hs as (z1 & _ & Hs). injection Hs as <-. cbn [ttok]. lia.
  Qed.
  (** Codes that stand for tokens. *)
  Lemma stands_text tk toks S it w : tok_ok tk -> coded tk toks S -> stands_for S it w -> exists ws, stands_for toks it ws /\ tok_decode tk w = concat ws.
  Proof.
    intros Hok Hc H. unfold stands_for in *. induction H as [|k c v w [Hk Hn] H (ws & I1 & I2)]; [now exists []|].
    destruct (Forall2_nth _ _ _ Hc _ _ Hn) as (t & Ht & Hf). exists (t :: ws). split; [now constructor|].
    change (c :: w) with ([c] ++ w). rewrite decode_app, (decode_one tk t c Hok Hf), I2. reflexivity.
  Qed.
  Lemma coded_length tk ws ids : coded tk ws ids -> length ws = length ids.
  Proof. induction 1; cbn [length]; congruence. Qed.
  Lemma texts_stand tk toks S items al : tok_ok tk -> coded tk toks S -> Forall2 (stands_for S) items al -> map it_text items = map Some (tok_decode_all tk al) ->
    Forall2 (fun it t => it_text it = Some t /\ exists ws, stands_for toks it ws /\ t = concat ws) items (tok_decode_all tk al).
  Proof.
    intros Hok Hc H. induction H as [|it w items al Hi H IH]; intro E; [constructor|]. cbn [map tok_decode_all] in *. injection E as E1 E2. constructor; [|now apply IH].
    split; [exact E1|]. destruct (stands_text _ _ _ _ _ Hok Hc Hi) as (ws & A & B). now exists ws.
  Qed.
  Lemma text_file size inner words z0 N ops z file : new_tstream fl size inner words = Ok z0 -> thist fl z0 ops z -> tnormal fl N ops -> Forall chars (tmet ops) ->
    save_tstream fl io true z = Ok file -> int32 size -> Forall int32 (t_freqs fl z) -> minp_file fl io (tst z) ->
    thandled fl ops <= 2 ^ 31 ->
    exists al toks coder x items, t_alphabet fl z = Ok al /\ Forall2 (tokens_of (if words then WordTok else CharTok)) (tfed fl ops) toks /\ zminp (tst z) = Some x /\
      model_file io file size x coder items None /\ length coder = length (firsts text_dec (concat toks)) /\ NoDup coder /\
      Forall2 (fun it t => it_text it = Some t /\ exists ws, stands_for (firsts text_dec (concat toks)) it ws /\ t = concat ws) items al /\
      map it_freq items = firstn (length al) (t_freqs fl z).
  Proof.
    intros E0 H Hn Hm Hs Hsz Hfr Hmp Hth. set (k := if words then WordTok else CharTok) in *. pose proof (text_char_tok _ _ _ _ _ _ E0 H Hm) as Hct.
    destruct (PropsStringLemmas.new_tstream_tok fl _ _ _ _ E0) as [Es Et]. assert (Hk0 : tok_ok (ttok z0)) by (rewrite Et; apply tok_ok_new).
    destruct (thist_int fl z0 ops z Hk0 H) as (iops & Hh & Hc & Hk & _). rewrite Es in Hh. rewrite Et in Hc. cbn [tkind new_tok] in Hc. fold k in Hc.
    destruct (coded_normal fl _ _ _ _ _ Hc Hn) as [Hin _]. destruct (coded_fed fl _ _ _ _ Hc) as (toks & Ht & Htc). apply coded_concat in Htc. fold (seen fl iops) in Htc.
    pose proof (firsts_coded _ _ _ Hk Htc) as Hfc. pose proof (coded_length _ _ _ Hfc) as Hfl.
    pose proof (thist_grows z0 ops z H) as Hvt. rewrite Et in Hvt. cbn [tfwd new_tok length Nat.add] in Hvt.
    rewrite save_tstream_any in Hs. unfold t_freqs in *.
    assert (Hsy : Forall int32 (seen fl iops)).
    { apply Forall_forall. intros i Hi. destruct (coded_in _ _ _ _ Htc Hi) as (w & _ & Hw).
      pose proof (tok_id _ _ _ Hk Hw). unfold int32. lia. }
    assert (Hdi : Z.of_nat (distinct (fed fl iops)) <= 2 ^ 31).
    { unfold distinct. fold (seen fl iops). rewrite <- adds_length, adds_firsts, <- Hfl.
      assert (Hl : (length (firsts text_dec (concat toks)) <= length (tfwd (ttok z)))%nat); [|lia].
      rewrite Hfl, <- (codes_length 0 (length (tfwd (ttok z)))). apply NoDup_incl_length; [apply firsts_nodup|]. intros i Hi. apply firsts_in in Hi.
      destruct (coded_in _ _ _ _ Htc Hi) as (w & _ & Hw). apply in_codes. pose proof (tok_id _ _ _ Hk Hw). lia. }
    destruct (fresh_parts size N iops (tst z) (Some (ttok z)) None file Hh Hin Hs Hsz Hsy Hfr Hdi) as (p & d & x & Hd & Hx & Ez & Hcl & Hi & Hr & Hal).
    destruct (file_says fl io (Some (ttok z)) None (tst z) file _ p d x Hs Hi Hct Hmp Hx (firsts_nodup _ _) Hcl Hd) as (items & M & E1 & E2 & E3). rewrite Ez in M.
    pose proof (items_stand _ _ _ Hr E1) as Hst. specialize (E3 _ Hal).
    eexists _, toks, _, x, items. split; [unfold t_alphabet; rewrite Hal; reflexivity|]. split; [exact Ht|]. split; [exact Hx|]. split; [exact M|]. split; [now symmetry|].
    split; [apply firsts_nodup|]. split; [exact (texts_stand _ _ _ _ _ Hk Hfc Hst E3)|]. unfold tok_decode_all. rewrite !map_length. exact E2.
  Qed.

  (** ** Fitted models *)
  Lemma sampling_seen (w : world fl) xs n : seen fl (sampling fl w xs n) = concat (map (drawn fl w xs) (List.seq 0 (n * length xs))).
  Proof.
    unfold seen. f_equal. unfold sampling. assert (G : forall k m, flat_map (op_fed fl) (flat_map (round fl w xs) (List.seq m k)) = map (drawn fl w xs) (List.seq (m * length xs) (k * length xs))).
    { induction k as [|k IH]; intro m; [easy|]. cbn [List.seq flat_map Nat.mul]. rewrite flat_map_app, IH, seq_app, map_app.
      replace (Datatypes.S m * length xs)%nat with (m * length xs + length xs)%nat by lia. f_equal. unfold round. rewrite flat_map_app. cbn [flat_map op_fed]. rewrite app_nil_r.
      generalize (List.seq (m * length xs) (length xs)) as l. clear. induction l as [|t l IH]; [easy|]. cbn [map flat_map draw op_fed app]. f_equal. exact IH. }
    exact (G n 0%nat).
  Qed.
  Lemma fitted_file size N iter w texts codes tk ops al : tok_transform_all true (new_tok CharTok) texts = Ok (codes, tk) ->
    good_fit fl size N [] w (new_vgram fl size iter) codes ops al -> int32 size ->
    exists v toks, tv_fit fl true w (new_tvgram fl size iter) texts = Ok v /\ Forall2 (tokens_of CharTok) texts toks /\
    let order := firsts text_dec (concat (map (fun t => nth (Z.to_nat (w_rand w t mod Z.of_nat (length texts))) toks []) (List.seq 0 (Z.to_nat iter * length texts)))) in
    Permutation order (firsts text_dec (concat toks)) /\
    forall v1 file, transformed fl v v1 -> Forall int32 (tv_freqs fl v1) -> minp_file fl io (vs (tv v1)) -> save_tvgram fl io true v1 = Ok file ->
    exists words coder x items, tv_alphabet fl v1 = Ok words /\ zminp (vs (tv v1)) = Some x /\ model_file io file size x coder items (Some (true, true)) /\
      length coder = length order /\ NoDup coder /\
      Forall2 (fun it t => it_text it = Some t /\ exists ws, stands_for order it ws /\ t = concat ws) items words /\ map it_freq items = tv_freqs fl v1.
  Proof.
    intros Et G Hsz. destruct (fit_reader fl L _ _ _ _ _ _ _ _ _ _ Et G) as (v & Ef & R). destruct (fit_tidy fl L _ _ _ _ _ _ _ _ G) as (v' & p & d & x & E & T & Hl & Es & Eal).
    rewrite Ef in E. injection E as <-. destruct (transform_all_coded _ _ _ _ (tok_ok_new CharTok) Et) as (Hk & [Ek _] & Hcs). cbn [tkind new_tok] in Ek, Hcs.
    assert (Hts : exists toks, Forall2 (tokens_of CharTok) texts toks /\ Forall2 (coded tk) toks codes).
    { clear -Hcs. induction Hcs as [|s c ss cs (ws & Hw & Hc) H (toks & H1 & H2)]; [exists []; split; constructor|]. exists (ws :: toks). split; now constructor. }
    destruct Hts as (toks & Ht & Htc). exists (mkTVGram v tk), toks.
    split; [unfold tv_fit, new_tvgram; cbn [tvtok tv]; rewrite Et; cbn [bind]; now rewrite Ef|]. split; [exact Ht|]. intro order.
    assert (Elen : @length seq codes = @length text texts) by (symmetry; exact (Forall2_len _ _ _ Hcs)).
    assert (Eops : seen fl ops = concat (map (drawn fl w codes) (List.seq 0 (Z.to_nat iter * length texts)))).
    { destruct G as (_ & _ & -> & _). cbn [viter new_vgram app]. rewrite sampling_seen. now rewrite Elen. }
    assert (Hdr : coded tk (concat (map (fun t => nth (Z.to_nat (w_rand w t mod Z.of_nat (length texts))) toks []) (List.seq 0 (Z.to_nat iter * length texts)))) (seen fl ops)).
    { rewrite Eops. apply coded_concat. generalize (List.seq 0 (Z.to_nat iter * length texts)) as l. clear -Htc Elen. induction l as [|t l IH]; [constructor|]. cbn [map concat].
      constructor; [|exact IH]. unfold drawn. rewrite Elen. generalize (Z.to_nat (w_rand w t mod Z.of_nat (length texts))) as i. clear -Htc.
      induction Htc as [|u c us cs Hu H IH]; intros [|i]; try (now constructor); [exact Hu|]. exact (IH i). }
    pose proof (firsts_coded _ _ _ Hk Hdr) as Hfc. fold order in Hfc. split.
    { apply NoDup_Permutation; try apply firsts_nodup. intro t. unfold order. rewrite !firsts_in. split.
      - intro H. apply in_concat in H as (ws & Hw & H). apply in_map_iff in Hw as (n & <- & _). apply in_concat. eexists. split; [|exact H].
        destruct (nth_in_or_default (Z.to_nat (w_rand w n mod Z.of_nat (length texts))) toks []) as [A|A]; [exact A|]. rewrite A in H. easy.
      - intro H. assert (Hti : token_in CharTok texts t).
        { apply in_concat in H as (ws & Hw & H). clear -Ht Hw H. induction Ht as [|s u ss us Hs _ IH]; [easy|]. destruct Hw as [->|Hw]; [exists s, ws; split; [now left|easy]|].
          destruct (IH Hw) as (s' & ws' & A & B). exists s', ws'. split; [now right|exact B]. }
        destruct (re_tokens _ _ _ _ _ _ _ R t Hti) as (i & Hi & Hf). destruct (coded_in _ _ _ _ Hdr Hi) as (t' & Ht' & Hf'). now rewrite (code_inj _ _ _ _ Hk Hf Hf'). }
    intros v1 file H1 Hf Hm Hs.
    assert (Ha : alnum_tok tk) by (refine (transform_all_alnum _ _ _ _ (tok_ok_new CharTok) eq_refl _ Et); intros q i Hq; discriminate Hq).
    destruct (transformed_alnum fl _ _ H1 Hk Ek Ha) as (Hk1 & _ & Ha1).
    destruct (reader_transformed_ext fl _ _ _ _ _ _ _ R H1) as (tk1 & -> & _ & Hext). cbn [tv tvtok] in *. unfold tv_freqs in *. cbn [tv] in *.
    pose proof (fitted_int fl _ _ _ _ _ _ _ _ _ _ _ _ G T Es Hsz (text_codes fl L _ _ _ _ _ _ _ _ _ Et G Hsz) Hf) as Hi. rewrite save_tvgram_any in Hs. cbn [tv tvtok] in Hs.
    assert (ES : symbols_of fl [] ops = firsts Z.eq_dec (seen fl ops)) by exact (adds_firsts _). rewrite ES in *.
    assert (Hal : s_alphabet fl (vs v) = Ok al).
    { unfold s_alphabet. rewrite (tidy_the_dict fl _ _ _ _ _ T). cbn [bind]. rewrite Eal. exact (like_decode_all _ _ _ (td_coder _ _ _ _ _ _ T) (td_range _ _ _ _ _ _ T)). }
    destruct (file_says fl io (Some tk1) _ (vs v) file _ p d x Hs Hi (alnum_chars tk1 Hk1 Ha1) Hm (td_minp _ _ _ _ _ _ T) (firsts_nodup _ _) (td_coder _ _ _ _ _ _ T) (tidy_the_dict fl _ _ _ _ _ T))
      as (items & M & E1 & E2 & E3). rewrite Es in M. specialize (E3 _ Hal).
    assert (Hfl : vfitted v = true /\ vcomputed v = true).
    { destruct (good_start fl L _ _ _ _ _ _ _ _ G) as (z & d1 & fs & b & acc & E & _). cbv zeta in E. rewrite Ef in E. injection E as ->. now split. }
    destruct Hfl as [F1 F2]. rewrite F1, F2 in M. pose proof (items_stand _ _ _ (td_range _ _ _ _ _ _ T) E1) as Hst. rewrite <- Eal in Hst.
    exists (tok_decode_all tk1 al), (firsts Z.eq_dec (seen fl ops)), x, items. split; [unfold tv_alphabet; cbn [tv tvtok]; now rewrite Hal|]. split; [exact (td_minp _ _ _ _ _ _ T)|].
    split; [exact M|]. split; [symmetry; exact (coded_length _ _ _ Hfc)|]. split; [apply firsts_nodup|].
    split; [exact (texts_stand tk1 order _ items al Hk1 (coded_ext _ _ _ _ Hext Hfc) Hst E3)|]. rewrite E2, <- Hl. apply firstn_all.
  Qed.
  (** Integers: without the flags. *)
  Lemma fitted_int_file size N ops0 w v xs ops al : good_fit fl size N ops0 w v xs ops al -> int32 size -> Forall int32 (seen fl ops) ->
    exists v', fit fl w v xs = Ok (true, v') /\ (Forall int32 (s_freqs fl (vs v')) -> minp_file fl io (vs v') -> forall file, save_vgram fl io true v' = Ok file ->
      exists x items, zminp (vs v') = Some x /\ model_file io file size x (firsts Z.eq_dec (seen fl ops)) items None /\
        Forall2 (stands_for (firsts Z.eq_dec (seen fl ops))) items al /\ map it_freq items = s_freqs fl (vs v') /\ Forall (fun it => it_text it = None) items).
  Proof.
    intros G Hsz Hsy. destruct (fit_tidy fl L _ _ _ _ _ _ _ _ G) as (v' & p & d & x & E & T & Hl & Es & Eal). exists v'. split; [exact E|]. intros Hf Hm file Hs.
    pose proof (fitted_int fl _ _ _ _ _ _ _ _ _ _ _ _ G T Es Hsz Hsy Hf) as Hi. change (save_any fl io true None None (vs v') = Ok file) in Hs.
    assert (ES : symbols_of fl [] ops = firsts Z.eq_dec (seen fl ops)) by exact (adds_firsts _). rewrite ES in *.
    destruct (file_says fl io None None (vs v') file _ p d x Hs Hi I Hm (td_minp _ _ _ _ _ _ T) (firsts_nodup _ _) (td_coder _ _ _ _ _ _ T) (tidy_the_dict fl _ _ _ _ _ T))
      as (items & M & E1 & E2 & E3). rewrite Es in M. exists x, items. split; [exact (td_minp _ _ _ _ _ _ T)|]. split; [exact M|].
    pose proof (items_stand _ _ _ (td_range _ _ _ _ _ _ T) E1) as Hst. rewrite <- Eal in Hst. split; [exact Hst|]. split; [unfold s_freqs; rewrite E2, <- Hl; apply firstn_all|].
    assert (Hal : s_alphabet fl (vs v') = Ok al).
    { unfold s_alphabet. rewrite (tidy_the_dict fl _ _ _ _ _ T). cbn [bind]. rewrite Eal. exact (like_decode_all _ _ _ (td_coder _ _ _ _ _ _ T) (td_range _ _ _ _ _ _ T)). }
    specialize (E3 _ Hal). clear -E3. apply Forall_forall. intros it Hit. apply (in_map it_text) in Hit. rewrite E3 in Hit. apply in_map_iff in Hit as (u & Eu & _). now symmetry.
  Qed.
End H.
