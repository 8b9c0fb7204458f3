(** StringProofs: text histories are integer histories; readings of texts. *)
From Verif Require Import Base Spec FloatOps FloatLaws ModelDict ModelCoder ModelTok Maps ModelStat ModelBuilder ModelStream ModelVGram ModelString
  SpecTok CoderProofs TokProofs DictProofs SpecStat SpecBuilder SpecStream SpecVGram SpecString.
Local Open Scope Z_scope.

(** ** Tokens *)
Lemma normal_form_fun s n n' : normal_form s n -> normal_form s n' -> n = n'.
Proof.
  intro H. revert n'. induction H as [|c l s r Hk H IH|c s r Hk H IH]; intros n' H'.
  - now inversion H'.
  - inversion H' as [|c' l' s' r' Hk' Hr'|c' s' r' Hk' Hr']; subst.
    + f_equal; [|now apply IH]. apply (mfind_nodup _ Zeqb_iff _ _ _ kept_nodup) in Hk. apply (mfind_nodup _ Zeqb_iff _ _ _ kept_nodup) in Hk'. congruence.
    + destruct (Hk' _ Hk).
  - inversion H' as [|c' l' s' r' Hk' Hr'|c' s' r' Hk' Hr']; subst; [destruct (Hk _ Hk')|now apply IH].
Qed.
Lemma kept_range c l : In (c, l) SpecTok.kept -> 0 <= c < 128 /\ 48 <= l < 128.
Proof.
  intro H. assert (G : forallb (fun p => (0 <=? fst p) && (fst p <? 128) && (48 <=? snd p) && (snd p <? 128)) SpecTok.kept = true) by (vm_compute; reflexivity).
  rewrite forallb_forall in G. specialize (G _ H). cbn [fst snd] in G. repeat (apply andb_true_iff in G as [G ?]). lia.
Qed.
Lemma char_out c : ~ 0 <= c < 128 -> forall b, is_alnum c = Ok b -> b = false.
Proof.
  intros Hc b. unfold is_alnum. destruct (c <? 0) eqn:E; [destruct (c =? -1); [now intros [= <-]|discriminate]|].
  intros [= <-]. lia.
Qed.
Lemma norm_form s : forall n, normalize CharTok s = Ok n -> normal_form s n.
Proof.
  unfold normalize. induction s as [|c s IH]; intros n H; cbn [keep_alnum bind] in H.
  - injection H as <-. constructor.
  - destruct (is_alnum c) as [b| | |] eqn:Ea; cbn [bind] in H; try discriminate.
    destruct (keep_alnum s) as [r| | |]; cbn [bind] in *; try discriminate.
    destruct (Z_le_dec 0 c) as [H0|H0]; [destruct (Z_lt_dec c 128) as [H1|H1]|].
    + destruct (char_ok c (conj H0 H1)) as [(Ha & l & Hl & Hlow & _)|(Ha & Hno)]; rewrite Ea in Ha; injection Ha as ->.
      * cbn [lower_all] in H. rewrite Hlow in H. cbn [bind] in H. destruct (lower_all r) as [r'| | |]; cbn [bind] in H; try discriminate.
        injection H as <-. apply nf_keep; [exact Hl|now apply IH].
      * apply nf_drop; [exact Hno|now apply IH].
    + rewrite (char_out c ltac:(lia) b Ea) in H. apply nf_drop; [|now apply IH]. intros l Hl. apply kept_range in Hl. lia.
    + rewrite (char_out c ltac:(lia) b Ea) in H. apply nf_drop; [|now apply IH]. intros l Hl. apply kept_range in Hl. lia.
Qed.
Lemma tokens_norm k s n : normalize k s = Ok n -> tokens_of k s (tokenize k n).
Proof.
  destruct k; cbn [tokens_of tokenize].
  - intro H. exists n. split; [now apply norm_form|reflexivity].
  - cbn [normalize]. now intros [= ->].
Qed.
Lemma tokens_fun k s a b : tokens_of k s a -> tokens_of k s b -> a = b.
Proof.
  destruct k; cbn [tokens_of]; [|congruence]. intros (n & H & ->) (n' & H' & ->). now rewrite (normal_form_fun _ _ _ H H').
Qed.
Lemma normal_form_len s n : normal_form s n -> (length n <= length s)%nat.
Proof. induction 1; cbn [length]; lia. Qed.
Lemma join_len ws : ~ In [] ws -> (length ws <= length (join ws))%nat.
Proof.
  induction ws as [|w ws IH]; intro H; [easy|]. assert (Hw : w <> []) by (intros ->; apply H; now left).
  destruct w as [|c w]; [easy|]. destruct ws as [|v ws]; [cbn; lia|].
  assert (G : (length (v :: ws) <= length (join (v :: ws)))%nat) by (apply IH; intro Hi; apply H; now right).
  change (join ((c :: w) :: v :: ws)) with ((c :: w) ++ 32 :: join (v :: ws)). rewrite app_length. cbn [length] in *. lia.
Qed.
Lemma tokens_nonempty k s ws w : tokens_of k s ws -> In w ws -> w <> [].
Proof.
  destruct k; cbn [tokens_of].
  - intros (n & _ & ->) H. apply in_map_iff in H as (c & <- & _). discriminate.
  - intros -> H. now apply (proj1 (word_tokens s)) in H.
Qed.
Lemma tokens_len k s ws : tokens_of k s ws -> (length ws <= length s)%nat.
Proof.
  intro T. destruct k; cbn [tokens_of] in T.
  - destruct T as (n & H & ->). rewrite map_length. now apply normal_form_len.
  - subst ws. destruct (word_tokens s) as [H1 [H2|[H2 _]]].
    + rewrite H2 at 2. apply join_len. intro H. now apply H1 in H.
    + rewrite H2 at 2. rewrite app_length. enough (length (tokenize WordTok s) <= length (join (tokenize WordTok s)))%nat by (unfold text in *; lia).
      apply join_len. intro H. now apply H1 in H.
Qed.
Lemma readable_norm k s : readable k s -> exists n, normalize k s = Ok n.
Proof.
  destruct k; cbn [readable normalize].
  - intro H. destruct (char_normalize s H) as (n & Hn & _). now exists n.
  - now exists s.
Qed.

Definition coded (tk : tokenizer) (ws : list text) (ids : list Z) : Prop :=
  Forall2 (fun w i => mfind seq_eqb (tfwd tk) w = Some i) ws ids.
Lemma coded_ext t t' ws ids : tok_ext t t' -> coded t ws ids -> coded t' ws ids.
Proof. exact (Forall2_ext_tok t t' ws ids). Qed.
Lemma code_inj tk w w' i : tok_ok tk -> mfind seq_eqb (tfwd tk) w = Some i -> mfind seq_eqb (tfwd tk) w' = Some i -> w = w'.
Proof. intros (_ & H & _) H1 H2. apply H in H1. apply H in H2. congruence. Qed.
Lemma coded_fun tk ws ids ids' : coded tk ws ids -> coded tk ws ids' -> ids = ids'.
Proof. intro H. revert ids'. induction H as [|w i ws ids Hw H IH]; intros ids' H'; inversion H'; subst; [easy|]. f_equal; [congruence|now apply IH]. Qed.

Lemma transform_coded t s ids t' : tok_ok t -> tok_transform true t s = Ok (ids, t') ->
  exists ws, tokens_of (tkind t) s ws /\ tok_ok t' /\ tok_ext t t' /\ coded t' ws ids.
Proof.
  intros Ht H. destruct (transform_inv _ _ _ _ Ht H) as (n & Hn & H1 & H2 & H3). exists (tokenize (tkind t) n). split; [now apply tokens_norm|easy].
Qed.
Lemma transform_total t s : tok_ok t -> readable (tkind t) s -> exists ids t', tok_transform true t s = Ok (ids, t').
Proof.
  intros Ht Hr. destruct (readable_norm _ _ Hr) as (n & Hn). destruct (transform_ok t s n Ht Hn) as (ids & t' & H & _). now exists ids, t'.
Qed.
Lemma decode_app tk a b : tok_decode tk (a ++ b) = tok_decode tk a ++ tok_decode tk b.
Proof.
  induction a as [|i a IH]; cbn [app tok_decode]; [easy|]. rewrite IH. destruct (mfind Z.eqb (tbwd tk) i); [apply app_assoc|easy].
Qed.
Lemma decode_concat tk vs : tok_decode tk (concat vs) = concat (map (tok_decode tk) vs).
Proof. induction vs as [|v vs IH]; cbn [concat map]; [easy|]. now rewrite decode_app, IH. Qed.

Section S.
  Context (fl : fops).

  Definition coded_op (k : tok_kind) (tk : tokenizer) (op : top fl) (iop : sop fl) : Prop :=
    match op, iop with
    | TAccept e s, SAccept e' ids => e = e' /\ exists ws, tokens_of k s ws /\ coded tk ws ids
    | TParse s, SParse ids => exists ws, tokens_of k s ws /\ coded tk ws ids
    | TUpdate, SUpdate => True
    | _, _ => False
    end.
  Lemma coded_op_ext k t t' op iop : tok_ext t t' -> coded_op k t op iop -> coded_op k t' op iop.
  Proof.
    intro He. destruct op as [e s|s|], iop as [e' ids|ids|]; cbn [coded_op]; try easy.
    - intros (E & ws & H1 & H2). split; [easy|]. exists ws. split; [easy|now apply (coded_ext t)].
    - intros (ws & H1 & H2). exists ws. split; [easy|now apply (coded_ext t)].
  Qed.
  Lemma coded_ops_ext k t t' ops iops : tok_ext t t' -> Forall2 (coded_op k t) ops iops -> Forall2 (coded_op k t') ops iops.
  Proof. intros He H. induction H; constructor; [now apply (coded_op_ext k t)|easy]. Qed.

  (** A text history is a history of the integer stream. *)
  Lemma thist_int z0 ops z : tok_ok (ttok z0) -> thist fl z0 ops z ->
    exists iops, shist fl (tst z0) iops (tst z) /\ Forall2 (coded_op (tkind (ttok z0)) (ttok z)) ops iops /\ tok_ok (ttok z) /\ tok_ext (ttok z0) (ttok z).
  Proof.
    intros H0 H. induction H as [|ops z op z' H (iops & I1 & I2 & I3 & I4) Hs].
    - exists []. split; [constructor|]. split; [constructor|]. split; [easy|apply tok_ext_refl].
    - pose proof I4 as [Ik _]. destruct op as [e s|s|]; cbn [tstep] in Hs.
      + unfold t_accept in Hs. apply bind_ok in Hs as ([ids tk] & Ht & Hs). apply bind_ok in Hs as (z1 & Ha & Hs). injection Hs as <-. cbn [tst ttok].
        destruct (transform_coded _ _ _ _ I3 Ht) as (ws & Hw & Hk & He & Hc). rewrite Ik in Hw. exists (iops ++ [SAccept e ids]).
        split; [exact (sh_step fl _ _ _ (SAccept e ids) _ I1 Ha)|]. split; [|split; [easy|now apply tok_ext_trans with (ttok z)]].
        apply Forall2_app; [now apply (coded_ops_ext _ (ttok z))|]. constructor; [|constructor]. split; [easy|]. now exists ws.
      + destruct Hs as [pieces Hs]. unfold t_parse in Hs. apply bind_ok in Hs as ([ids tk] & Ht & Hs). apply bind_ok in Hs as ([r z1] & Ha & Hs).
        apply bind_ok in Hs as (l & _ & Hs). injection Hs as _ <-. cbn [tst ttok].
        destruct (transform_coded _ _ _ _ I3 Ht) as (ws & Hw & Hk & He & Hc). rewrite Ik in Hw. exists (iops ++ [SParse ids]).
        split; [exact (sh_step fl _ _ _ (SParse ids) _ I1 (ex_intro _ r Ha))|]. split; [|split; [easy|now apply tok_ext_trans with (ttok z)]].
        apply Forall2_app; [now apply (coded_ops_ext _ (ttok z))|]. constructor; [|constructor]. now exists ws.
      + unfold t_update in Hs. apply bind_ok in Hs as (z1 & Ha & Hs). injection Hs as <-. cbn [tst ttok]. exists (iops ++ [SUpdate]).
        split; [exact (sh_step fl _ _ _ SUpdate _ I1 Ha)|]. split; [|now split]. apply Forall2_app; [easy|]. constructor; [easy|constructor].
  Qed.

  Lemma coded_ops_seen k tk ops iops : tok_ok tk -> Forall2 (coded_op k tk) ops iops -> forall w i, mfind seq_eqb (tfwd tk) w = Some i ->
    (In i (seen fl iops) <-> token_in k (tfed fl ops) w).
  Proof.
    intros Hok H w i Hw. unfold seen. induction H as [|op iop ops iops Ho H IH].
    - cbn. split; [easy|]. intros (s & ws & [] & _).
    - unfold fed, tfed in *. cbn [flat_map]. rewrite concat_app, in_app_iff, IH.
      split.
      + intros [Hi|(s & ws & H1 & H2 & H3)].
        * destruct op as [e s|s|], iop as [e' ids|ids|]; cbn [coded_op] in Ho; try easy. destruct Ho as (_ & ws & Hws & Hc).
          cbn [op_fed concat] in Hi. rewrite app_nil_r in Hi. exists s, ws. split; [apply in_or_app; left; now left|]. split; [easy|].
          clear -Hok Hw Hc Hi. induction Hc as [|v j ws ids Hv Hc IH]; [easy|]. destruct Hi as [->|Hi]; [left; exact (code_inj _ _ _ _ Hok Hv Hw)|right; now apply IH].
        * exists s, ws. split; [apply in_or_app; now right|easy].
      + intros (s & ws & H1 & H2 & H3). apply in_app_or in H1 as [H1|H1].
        * left. destruct op as [e s'|s'|]; cbn [top_fed] in H1; try easy. destruct H1 as [->|[]]. destruct iop as [e' ids|ids|]; cbn [coded_op] in Ho; try easy.
          destruct Ho as (_ & ws' & Hws & Hc). rewrite <- (tokens_fun _ _ _ _ H2 Hws) in Hc. cbn [op_fed concat]. rewrite app_nil_r.
          clear -Hw Hc H3. induction Hc as [|v j ws ids Hv Hc IH]; [easy|]. destruct H3 as [->|H3]; [left; congruence|right; now apply IH].
        * right. now exists s, ws.
  Qed.
  Lemma restrict_only (known : list Z) (P : text -> Prop) tk ws ids : coded tk ws ids ->
    (forall w i, mfind seq_eqb (tfwd tk) w = Some i -> (In i known <-> P w)) ->
    exists ks, only P ws ks /\ coded tk ks (restrict known ids).
  Proof.
    intros H HP. induction H as [|w i ws ids Hw H (ks & IH1 & IH2)].
    - exists []. split; constructor.
    - unfold restrict. cbn [filter]. destruct (in_dec Z.eq_dec i known) as [Hi|Hi].
      + exists (w :: ks). split; [apply only_keep; [now apply (HP w i)|exact IH1]|]. constructor; [exact Hw|exact IH2].
      + exists ks. split; [apply only_drop; [intro Hp; now apply (HP w i) in Hp|exact IH1]|exact IH2].
  Qed.

  (** The limits carry over. *)
  Lemma coded_normal k tk N ops iops : Forall2 (coded_op k tk) ops iops -> tnormal fl N ops ->
    normal fl N iops /\ handled fl iops <= thandled fl ops.
  Proof.
    intros H (H1 & H2 & H3 & H4 & H5).
    assert (Hh : handled fl iops <= thandled fl ops).
    { clear -H. unfold handled, thandled. induction H as [|op iop ops iops Ho H IH]; [cbn; lia|]. cbn [map zsum fold_right] in *.
      assert (op_handled fl iop <= top_handled fl op); [|unfold zsum in *; lia].
      destruct op as [e s|s|], iop as [e' ids|ids|]; cbn [coded_op] in Ho; try easy; cbn [op_handled top_handled].
      - destruct Ho as (_ & ws & Hw & Hc). apply Forall2_len in Hc. apply tokens_len in Hw. unfold text, seq in *. lia.
      - destruct Ho as (ws & Hw & Hc). apply Forall2_len in Hc. apply tokens_len in Hw. unfold text, seq in *. lia. }
    assert (Hu : updates fl iops = tupdates fl ops).
    { clear -H. unfold updates, tupdates. induction H as [|op iop ops iops Ho H IH]; [easy|].
      destruct op as [e s|s|], iop as [e' ids|ids|]; cbn [coded_op] in Ho; try easy; cbn [filter is_update is_tupdate length]; lia. }
    split; [|exact Hh]. split.
    - clear -H H1. induction H as [|op iop ops iops Ho H IH]; intros e s Hi; [easy|]. destruct Hi as [->|Hi].
      + destruct op as [e' s'|s'|]; cbn [coded_op] in Ho; try easy. destruct Ho as [<- _]. apply (H1 e' s'). now left.
      + apply (IH (fun e' s' Hi' => H1 e' s' (or_intror Hi')) e s Hi).
    - split; [exact H2|]. split; [|split; [lia|now rewrite Hu]].
      clear -H H3. unfold fed, tfed in *. induction H as [|op iop ops iops Ho H IH]; [constructor|]. cbn [flat_map] in *. apply Forall_app in H3 as [H3 H4].
      apply Forall_app. split; [|now apply IH]. destruct op as [e s|s|], iop as [e' ids|ids|]; cbn [coded_op] in Ho; try easy; cbn [op_fed]; try constructor; [|constructor].
      destruct Ho as (_ & ws & Hw & Hc). cbn [top_fed] in H3. inversion H3 as [|x l Hx _]; subst. apply Forall2_len in Hc. apply tokens_len in Hw. unfold text, seq in *. lia.
  Qed.
  Lemma coded_update k tk ops iops : Forall2 (coded_op k tk) ops iops -> In TUpdate ops -> In SUpdate iops.
  Proof.
    intro H. induction H as [|op iop ops iops Ho H IH]; [easy|]. intros [->|Hi].
    - left. now destruct iop; cbn [coded_op] in Ho.
    - right. now apply IH.
  Qed.

  (** The pieces of a parse are the words of the reading. *)
  Lemma decode_all_nth c : forall ws al i w, decode_all c ws = Ok al -> nth_error al i = Some w -> exists raw, nth_error ws i = Some raw /\ decode c raw = Ok w.
  Proof.
    induction ws as [|w ws IH]; intros al i v H Hi; cbn [decode_all] in H.
    - injection H as <-. destruct i; discriminate Hi.
    - apply bind_ok in H as (u & Hu & H). apply bind_ok in H as (r & Hr & H). injection H as <-. destruct i as [|i]; cbn [nth_error] in *.
      + injection Hi as <-. now exists w.
      + exact (IH _ _ _ Hr Hi).
  Qed.
  Lemma token_words_spec z tk al ids vs : s_alphabet fl z = Ok al -> Forall2 (word_at al) ids vs ->
    token_words fl z tk ids = Ok (map (tok_decode tk) vs).
  Proof.
    unfold s_alphabet. intro H. apply bind_ok in H as ([p d] & Hd & H). induction 1 as [|i v ids vs Hi Hv IH]; [easy|]. cbn [token_words map]. rewrite Hd. cbn [bind].
    destruct (decode_all_nth _ _ _ _ _ H Hi) as (raw & Hr & Hdec). unfold vget. rewrite Hr. cbn [bind]. rewrite Hdec. cbn [bind]. now rewrite IH.
  Qed.
End S.
