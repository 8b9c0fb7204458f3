(** Proofs for C73: objects that share a tokenizer do not notice each other. *)
From Verif Require Import Base FloatOps Maps ModelDict ModelCoder ModelTok ModelStat ModelBuilder ModelStream ModelVGram ModelString ModelShared
  SpecTok SpecStat SpecBuilder SpecStream SpecVGram SpecString SpecExtra SpecShared DictProofs TokProofs StreamProofs StringProofs TextPersist RenameProofs.
Local Open Scope Z_scope.

(** ** The renaming from the ids of [T] to those of [tk] *)
Definition ren (T tk : tokenizer) (x : Z) : Z :=
  let n := Z.of_nat (length (tfwd tk)) in
  match mfind Z.eqb (tbwd T) x with
  | Some w => match mfind seq_eqb (tfwd tk) w with Some i => i | None => n + x end
  | None => if x <? 0 then x else n + x
  end.
Lemma tok_id t w i : tok_ok t -> mfind seq_eqb (tfwd t) w = Some i -> 0 <= i < Z.of_nat (length (tfwd t)).
Proof.
  intros (_ & H1 & H2) Hi. apply H1 in Hi. destruct (Z_le_dec 0 i) as [L|L]; [destruct (Z_lt_dec i (Z.of_nat (length (tfwd t)))) as [L'|L']; [easy|]|];
    exfalso; assert (E : mfind Z.eqb (tbwd t) i = None) by (apply H2; lia); congruence.
Qed.
Lemma ren_val T tk x : tok_ok T -> tok_ok tk ->
  (exists w, mfind Z.eqb (tbwd T) x = Some w /\ mfind seq_eqb (tfwd tk) w = Some (ren T tk x)) \/
  (0 <= x /\ ren T tk x = Z.of_nat (length (tfwd tk)) + x) \/ (x < 0 /\ ren T tk x = x).
Proof.
  intros HT Ht. unfold ren. destruct (mfind Z.eqb (tbwd T) x) as [w|] eqn:E.
  - destruct (mfind seq_eqb (tfwd tk) w) as [i|] eqn:E'; [left; now exists w|]. right. left. split; [|easy].
    destruct HT as (h1 & H1 & h2). apply H1 in E. apply (tok_id T w x); [easy|exact E].
  - right. destruct (Z.ltb_spec x 0); [now right|now left].
Qed.
Lemma ren_inj T tk : tok_ok T -> tok_ok tk -> forall x y, ren T tk x = ren T tk y -> x = y.
Proof.
  intros HT Ht x y E.
  assert (R : forall z w, mfind seq_eqb (tfwd tk) w = Some (ren T tk z) -> 0 <= ren T tk z < Z.of_nat (length (tfwd tk))) by (intros z w; apply (tok_id tk w _ Ht)).
  destruct (ren_val T tk x HT Ht) as [(w & X1 & X2)|[[X1 X2]|[X1 X2]]], (ren_val T tk y HT Ht) as [(v & Y1 & Y2)|[[Y1 Y2]|[Y1 Y2]]];
    try (pose proof (R _ _ X2)); try (pose proof (R _ _ Y2)); try lia.
  rewrite E in X2. assert (w = v) by exact (code_inj tk w v _ Ht X2 Y2). subst v. destruct HT as (_ & H1 & _). apply H1 in X1. apply H1 in Y1. congruence.
Qed.
Lemma ren_word T tk w x i : tok_ok T -> mfind seq_eqb (tfwd T) w = Some x -> mfind seq_eqb (tfwd tk) w = Some i -> ren T tk x = i.
Proof. intros (_ & H1 & _) Hx Hi. unfold ren. apply H1 in Hx. now rewrite Hx, Hi. Qed.
Lemma ren_coded T tk ws : tok_ok T -> forall ids ids', coded T ws ids -> coded tk ws ids' -> ids' = map (ren T tk) ids.
Proof.
  intros HT. induction ws as [|w ws IH]; intros ids ids' H H'; inversion H; inversion H'; subst; [easy|]. cbn. f_equal; [symmetry; now apply (ren_word T tk w)|now apply IH].
Qed.

(** ** Transforming texts *)
Lemma transform_agree T tk s : tok_ok T -> tok_ok tk -> tkind T = tkind tk ->
  agree (fun _ _ => True) (tok_transform true T s) (tok_transform true tk s).
Proof.
  intros HT Ht E. unfold tok_transform. rewrite E. apply (agree_bind _ _ _ _ _ _ (agree_refl _)). intros n n' <-.
  destruct (code_tokens_ok (tokenize (tkind tk) n) T HT) as (ids & T' & -> & _). destruct (code_tokens_ok (tokenize (tkind tk) n) tk Ht) as (ids' & t' & -> & _). exact I.
Qed.
Lemma transform_keep t s ids t' : tok_ok t -> tok_transform true t s = Ok (ids, t') -> tok_ok t' /\ tok_ext t t' /\ tkind t' = tkind t.
Proof. intros H E. destruct (transform_coded _ _ _ _ H E) as (ws & _ & H1 & H2 & _). split; [easy|]. split; [easy|]. apply H2. Qed.
Lemma all_keep ss : forall t cs t', tok_ok t -> tok_transform_all true t ss = Ok (cs, t') -> tok_ok t' /\ tok_ext t t' /\ tkind t' = tkind t.
Proof.
  unfold tok_transform_all. induction ss as [|s ss IH]; intros t cs t' Ht H; cbn [mapM] in H; [injection H as <- <-; split; [easy|]; now split; [apply tok_ext_refl|]|].
  apply bind_ok in H as ([ids t1] & H1 & H). apply bind_ok in H as ([cs' t2] & H2 & H). injection H as <- <-.
  destruct (transform_keep _ _ _ _ Ht H1) as (K1 & K2 & K3). destruct (IH _ _ _ K1 H2) as (L1 & L2 & L3).
  split; [easy|]. split; [now apply tok_ext_trans with t1|congruence].
Qed.
Lemma all_agree ss : forall T tk, tok_ok T -> tok_ok tk -> tkind T = tkind tk ->
  agree (fun _ _ => True) (tok_transform_all true T ss) (tok_transform_all true tk ss).
Proof.
  unfold tok_transform_all. induction ss as [|s ss IH]; intros T tk HT Ht E; cbn [mapM]; [exact I|].
  pose proof (transform_agree T tk s HT Ht E) as A.
  destruct (tok_transform true T s) as [[ids T1]| | |] eqn:ET, (tok_transform true tk s) as [[ids' t1]| | |] eqn:Et; cbn in A |- *; try easy.
  destruct (transform_keep _ _ _ _ HT ET) as (K1 & K2 & K3). destruct (transform_keep _ _ _ _ Ht Et) as (L1 & L2 & L3).
  apply (agree_bind _ _ _ _ _ _ (IH T1 t1 K1 L1 ltac:(congruence))). intros [a a'] [b b'] _. exact I.
Qed.

(** ** Symbols known to a coder *)
Definition csyms (P : Z -> Prop) (c : coder) : Prop := forall k x, mfind Z.eqb (bwd c) k = Some x -> P x.
Lemma csyms_symbol P c x : csyms P c -> P x -> csyms P (snd (encode_symbol c x)).
Proof.
  intros H Hx. unfold encode_symbol. destruct (mfind Z.eqb (fwd c) x) as [v|] eqn:E; cbn [fwd bwd].
  - now rewrite E.
  - rewrite mfind_mset, Z.eqb_refl. cbn [snd]. intros k y. cbn [bwd]. rewrite mfind_mset. destruct (Z.eqb k _); [intros [= <-]; exact Hx|apply H].
Qed.
Lemma csyms_encode P : forall s c, csyms P c -> Forall P s -> csyms P (snd (encode c s)).
Proof.
  induction s as [|x s IH]; intros c H Hs; [exact H|]. inversion Hs; subst. cbn [encode]. pose proof (csyms_symbol P c x H H2) as H1.
  destruct (encode_symbol c x) as [v c1]. cbn [snd] in H1. pose proof (IH c1 H1 H3) as G. now destruct (encode c1 s).
Qed.
Lemma csyms_decode P c : csyms P c -> forall w v, decode c w = Ok v -> Forall P v.
Proof.
  intros H. induction w as [|k w IH]; intros v E; cbn in E; [injection E as <-; constructor|].
  destruct (mfind Z.eqb (bwd c) k) as [x|] eqn:Ek; [|discriminate]. apply bind_ok in E as (r & Er & E). injection E as <-. constructor; [exact (H k x Ek)|now apply IH].
Qed.
Lemma csyms_decode_all P c : csyms P c -> forall ws vs, decode_all c ws = Ok vs -> Forall (Forall P) vs.
Proof.
  intros H. induction ws as [|w ws IH]; intros vs E; cbn in E; [injection E as <-; constructor|].
  apply bind_ok in E as (v & Ev & E). apply bind_ok in E as (r & Er & E). injection E as <-. constructor; [exact (csyms_decode P c H w v Ev)|now apply IH].
Qed.
Section Syms.
  Context (fl : fops) (P : Z -> Prop).
  Definition zsyms (z : stream fl) : Prop := csyms P (zcoder z).
  Lemma zsyms_accept e z s z' : zsyms z -> Forall P s -> s_accept fl e z s = Ok z' -> zsyms z'.
  Proof.
    intros H Hs E. unfold s_accept in E. pose proof (csyms_encode P s _ H Hs) as G. destruct (encode (zcoder z) s) as [q c].
    apply bind_ok in E as (b & _ & E). injection E as <-. exact G.
  Qed.
  Lemma zsyms_put z p d : zsyms z -> zsyms (put_dict fl z p d).
  Proof. now unfold put_dict, zsyms. Qed.
  Lemma zsyms_parse z s r z' : zsyms z -> s_parse fl z s = Ok (r, z') -> zsyms z'.
  Proof.
    intros H E. unfold s_parse in E. apply bind_ok in E as (a & _ & E). apply bind_ok in E as ([p d] & _ & E). apply bind_ok in E as ([[ids n] d'] & _ & E).
    injection E as <- <-. now apply zsyms_put.
  Qed.
  Lemma zsyms_update z z' : zsyms z -> s_update fl z = Ok z' -> zsyms z'.
  Proof.
    intros H E. unfold s_update in E.
    assert (G : forall z1, ('(fs, b) <- result_freqs fl (zb z) (zfreqs z) ;; Ok (mkStream (zsize z) b (Some (result_ptr fl (zb z))) (zcoder z) fs (isum fs) (Some (get_min_probability fl b)))) = Ok z1 -> zsyms z1).
    { intros z1 E1. apply bind_ok in E1 as ([fs b] & _ & E1). injection E1 as <-. exact H. }
    destruct (zdict z) as [q|]; [|exact (G _ E)]. destruct (Nat.eqb q (result_ptr fl (zb z))); [now injection E as <-|exact (G _ E)].
  Qed.
  Lemma zsyms_sample w xs : Forall (Forall P) xs -> forall n t z st t' z', zsyms z -> sample fl w xs n t z = Ok (st, t', z') -> zsyms z'.
  Proof.
    intro Hx. induction n as [|n IH]; intros t z st t' z' H E; cbn [sample] in E; [now injection E as _ _ <-|].
    apply bind_ok in E as (x & Ex & E). apply bind_ok in E as (y & Ey & E).
    assert (Hy : zsyms y). { apply (zsyms_accept _ _ _ _ H) in Ey; [exact Ey|]. unfold vget, seq in *. destruct (nth_error xs _) as [x'|] eqn:En; [|discriminate]. injection Ex as <-. rewrite Forall_forall in Hx. apply Hx. exact (nth_error_In _ _ En). }
    destruct (w_term w t); [now injection E as _ _ <-|exact (IH _ _ _ _ _ Hy E)].
  Qed.
  Lemma zsyms_rounds w xs : Forall (Forall P) xs -> forall n t z st t' z', zsyms z -> rounds fl w xs n t z = Ok (st, t', z') -> zsyms z'.
  Proof.
    intro Hx. induction n as [|n IH]; intros t z st t' z' H E; cbn [rounds] in E; [now injection E as _ _ <-|].
    apply bind_ok in E as ([[stop t1] y] & Ey & E). pose proof (zsyms_sample w xs Hx _ _ _ _ _ _ H Ey) as Hy. destruct stop; [now injection E as _ _ <-|].
    apply bind_ok in E as (u & Eu & E). exact (IH _ _ _ _ _ (zsyms_update _ _ Hy Eu) E).
  Qed.
  Lemma zsyms_recount w fs : forall xs t z acc st t' z' acc', Forall (Forall P) xs -> zsyms z -> recount fl w fs xs t z acc = Ok (st, t', z', acc') -> zsyms z'.
  Proof.
    induction xs as [|x xs IH]; intros t z acc st t' z' acc' Hx H E; cbn [recount] in E; [now injection E as _ _ <- _|]. inversion Hx; subst.
    pose proof (csyms_encode P x _ H H2) as G. destruct (encode (zcoder z) x) as [q c]. cbn [snd] in G.
    apply bind_ok in E as ([p d] & _ & E). apply bind_ok in E as ([[ids n] d'] & _ & E). apply bind_ok in E as (a & _ & E). cbv zeta in E.
    destruct (w_term w t); [now injection E as _ _ <- _|]. eapply IH; [exact H3| |exact E]. exact G.
  Qed.
  Lemma zsyms_recompute w xs t z t' z' : Forall (Forall P) xs -> zsyms z -> recompute_freqs fl w xs t z = Ok (t', z') -> zsyms z'.
  Proof.
    intros Hx H E. unfold recompute_freqs in E. apply bind_ok in E as ([fs b] & _ & E). cbv zeta in E. apply bind_ok in E as ([[[st t1] y] acc] & Ey & E). injection E as _ <-.
    exact (zsyms_recount w fs _ _ (mkStream (zsize z) b (zdict z) (zcoder z) (zfreqs z) (ztotal z) (zminp z)) _ _ _ _ _ Hx H Ey).
  Qed.
  Lemma zsyms_fit w v xs dn v' : Forall (Forall P) xs -> zsyms (vs v) -> fit fl w v xs = Ok (dn, v') -> zsyms (vs v').
  Proof.
    intros Hx H E. unfold fit in E. destruct (vfitted v).
    - destruct (vcomputed v); [now injection E as _ <-|]. apply bind_ok in E as ([t z] & Ez & E). injection E as _ <-. exact (zsyms_recompute _ _ _ _ _ _ Hx H Ez).
    - apply bind_ok in E as ([[st t] z] & Ez & E). pose proof (zsyms_rounds w xs Hx _ _ _ _ _ _ H Ez) as Hz. destruct st; [injection E as _ <-; exact Hz|].
      apply bind_ok in E as ([t1 y] & Ey & E). injection E as _ <-. exact (zsyms_recompute _ _ _ _ _ _ Hx Hz Ey).
  Qed.
  Lemma zsyms_transform w v xs r v' : zsyms (vs v) -> transform fl w v xs = Ok (r, v') -> zsyms (vs v').
  Proof.
    intros H E. unfold transform in E. apply bind_ok in E as ([l z] & Ez & E). injection E as _ <-. cbn [vs on_stream]. revert l z Ez. generalize 0%nat.
    revert H. generalize (vs v). induction xs as [|x xs IH]; intros z0 H t l z Ez; cbn [transform_loop] in Ez; [now injection Ez as _ <-|].
    apply bind_ok in Ez as ([ids y] & Ey & Ez). pose proof (zsyms_parse _ _ _ _ H Ey) as Hy. destruct (w_term w t); [now injection Ez as _ <-|].
    apply bind_ok in Ez as ([r' u] & Eu & Ez). injection Ez as _ <-. exact (IH y Hy _ _ _ Eu).
  Qed.
End Syms.

(** ** One object, beside others and alone *)
Definition known (t : tokenizer) (x : Z) : Prop := exists w, mfind seq_eqb (tfwd t) w = Some x.
Lemma known_ext t t' x : tok_ext t t' -> known t x -> known t' x.
Proof. intros [_ H] [w Hw]. exists w. now apply H. Qed.
Lemma csyms_ext t t' c : tok_ext t t' -> csyms (known t) c -> csyms (known t') c.
Proof. intros H Hc k x E. apply (known_ext t t' x H). exact (Hc k x E). Qed.
Definition mtexts {fl} (k : mcall fl) : list text :=
  match k with CAccept _ s | CParse s => [s] | CFit _ xs | CTransform _ xs => xs | _ => [] end.
Lemma coded_known t ws ids : coded t ws ids -> Forall (known t) ids.
Proof. intro H. induction H as [|w i ws ids Hw H IH]; constructor; [now exists w|exact IH]. Qed.

Section Pair.
  Context (fl : fops) (T1 t1 : tokenizer) (HT1 : tok_ok T1) (Ht1 : tok_ok t1).
  Let f := ren T1 t1.
  Let Hf : forall x y, f x = f y -> x = y := ren_inj T1 t1 HT1 Ht1.

  (** [T] and [tk] on the way to [T1] and [t1]. *)
  Definition toks (T tk : tokenizer) : Prop :=
    tok_ok T /\ tok_ok tk /\ tkind T = tkind tk /\ tok_ext T T1 /\ tok_ext tk t1 /\
    forall w i, mfind seq_eqb (tfwd tk) w = Some i -> exists j, mfind seq_eqb (tfwd T) w = Some j.

  Lemma toks_step T tk s ids T' ids' t' : toks T tk -> tok_transform true T s = Ok (ids, T') -> tok_transform true tk s = Ok (ids', t') ->
    tok_ext T' T1 -> tok_ext t' t1 -> toks T' t' /\ ids' = map f ids /\ Forall (known t') ids'.
  Proof.
    intros (HT & Ht & Hk & _ & _ & Hw) ET Et XT Xt. destruct (transform_coded _ _ _ _ HT ET) as (ws & A1 & A2 & A3 & A4).
    destruct (transform_coded _ _ _ _ Ht Et) as (ws' & B1 & B2 & B3 & B4). rewrite Hk in A1. assert (ws' = ws) as -> by exact (tokens_fun _ _ _ _ B1 A1).
    split; [split; [exact A2|]; split; [exact B2|]; split; [rewrite (proj1 A3), (proj1 B3); exact Hk|]; split; [exact XT|]; split; [exact Xt|]|split].
    - intros w i Hi. destruct (transform_only _ _ _ _ Ht Et w i Hi) as [G|(us & G1 & G2)].
      + destruct (Hw w i G) as (j & Hj). exists j. now apply A3.
      + assert (us = ws) as -> by exact (tokens_fun _ _ _ _ G1 A1). clear -G2 A4. induction A4 as [|u j ws js Hu H IH]; [easy|]. destruct G2 as [->|G2]; [now exists j|now apply IH].
    - apply (ren_coded T1 t1 ws HT1); [exact (coded_ext T' T1 _ _ XT A4)|exact (coded_ext t' t1 _ _ Xt B4)].
    - exact (coded_known _ _ _ B4).
  Qed.
  Lemma toks_all ss : forall T tk cs T' cs' t', toks T tk -> tok_transform_all true T ss = Ok (cs, T') -> tok_transform_all true tk ss = Ok (cs', t') ->
    tok_ext T' T1 -> tok_ext t' t1 -> toks T' t' /\ cs' = map (map f) cs /\ Forall (Forall (known t')) cs'.
  Proof.
    unfold tok_transform_all. induction ss as [|s ss IH]; intros T tk cs T' cs' t' H ET Et XT Xt; cbn [mapM] in ET, Et.
    - injection ET as <- <-. injection Et as <- <-. split; [exact H|]. now split.
    - apply bind_ok in ET as ([ids Ta] & E1 & ET). apply bind_ok in ET as ([r Tb] & E2 & ET). injection ET as <- <-.
      apply bind_ok in Et as ([ids' ta] & F1 & Et). apply bind_ok in Et as ([r' tb] & F2 & Et). injection Et as <- <-.
      destruct H as (HT & Ht & HH). destruct (transform_keep _ _ _ _ HT E1) as (Ka & _). destruct (transform_keep _ _ _ _ Ht F1) as (La & _).
      destruct (all_keep ss _ _ _ Ka E2) as (_ & Kx & _). destruct (all_keep ss _ _ _ La F2) as (_ & Lx & _).
      destruct (toks_step T tk s ids Ta ids' ta (conj HT (conj Ht HH)) E1 F1 (tok_ext_trans _ _ _ Kx XT) (tok_ext_trans _ _ _ Lx Xt)) as (G1 & -> & G3).
      destruct (IH Ta ta r Tb r' tb G1 E2 F2 XT Xt) as (J1 & -> & J3). split; [exact J1|]. split; [reflexivity|]. constructor; [|exact J3].
      revert G3. apply Forall_impl. intros x. apply (known_ext ta tb x Lx).
  Qed.

  Lemma toks_decode T tk v : toks T tk -> Forall (known tk) (map f v) -> tok_decode tk (map f v) = tok_decode T v.
  Proof.
    intros (HT & Ht & _ & XT & Xt & Hw) H. induction v as [|x v IH]; [reflexivity|]. cbn [map tok_decode] in *. inversion H as [|? ? [w Hx] Hv]; subst. rewrite (IH Hv).
    destruct (Hw w _ Hx) as (y & Hy). assert (E : f y = f x) by exact (ren_word T1 t1 w y (f x) HT1 (proj2 XT _ _ Hy) (proj2 Xt _ _ Hx)).
    apply Hf in E. subst y. destruct HT as (_ & HT & _). destruct Ht as (_ & Ht & _). apply HT in Hy. apply Ht in Hx. now rewrite Hy, Hx.
  Qed.
  Lemma toks_decode_all T tk l : toks T tk -> Forall (Forall (known tk)) (map (map f) l) -> tok_decode_all tk (map (map f) l) = tok_decode_all T l.
  Proof.
    intros H Hl. unfold tok_decode_all. induction l as [|v l IH]; [reflexivity|]. cbn [map] in *. inversion Hl; subst. f_equal; [now apply toks_decode|now apply IH].
  Qed.

  Definition mren (tk : tokenizer) (m m' : member fl) : Prop :=
    match m, m' with
    | MStream z w n, MStream z' w' n' => zren f fl z z' /\ w' = w /\ n' = n /\ zsyms fl (known tk) z'
    | MVGram v, MVGram v' => vren f fl v v' /\ zsyms fl (known tk) (vs v')
    | _, _ => False
    end.
  Lemma mren_ext t t' m m' : tok_ext t t' -> mren t m m' -> mren t' m m'.
  Proof.
    intros X. destruct m as [z w n|v], m' as [z' w' n'|v']; cbn; try easy.
    - intros (A & B & C & D). repeat split; try easy; try apply A. now apply (csyms_ext t).
    - intros (A & D). split; [exact A|]. now apply (csyms_ext t).
  Qed.

  Lemma token_words_agree T tk z z' : toks T tk -> zren f fl z z' -> zsyms fl (known tk) z' ->
    forall r, agree eq (token_words fl z T r) (token_words fl z' tk r).
  Proof.
    intros Ht R Hs. induction r as [|i r IH]; cbn [token_words]; [reflexivity|]. rewrite (zren_dict f fl z z' R).
    apply (agree_bind _ _ _ _ _ _ (agree_refl _)). intros [p d] pd <-. apply (agree_bind _ _ _ _ _ _ (agree_refl _)). intros raw raw' <-.
    pose proof R as (_ & _ & _ & _ & _ & _ & C). pose proof (cren_decode f raw _ _ C) as A. pose proof (csyms_decode _ _ Hs raw) as D.
    destruct (decode (zcoder z) raw) as [v| | |], (decode (zcoder z') raw) as [v'| | |]; cbn in A |- *; try easy; try congruence. subst v'.
    apply (agree_bind _ _ _ _ _ _ IH). intros l l' <-. cbn. f_equal. symmetry. apply toks_decode; [exact Ht|]. now apply D.
  Qed.
  Lemma alphabet_agree T tk z z' : toks T tk -> zren f fl z z' -> zsyms fl (known tk) z' ->
    agree eq (al <- s_alphabet fl z ;; Ok (tok_decode_all T al)) (al <- s_alphabet fl z' ;; Ok (tok_decode_all tk al)).
  Proof.
    intros Ht R Hs. pose proof (zren_alphabet f fl z z' R) as A.
    assert (D : forall l, s_alphabet fl z' = Ok l -> Forall (Forall (known tk)) l).
    { intros l E. unfold s_alphabet in E. apply bind_ok in E as ([p d] & _ & E). exact (csyms_decode_all _ _ Hs _ _ E). }
    destruct (s_alphabet fl z) as [l| | |], (s_alphabet fl z') as [l'| | |]; cbn in A |- *; try easy; try congruence. subst l'. symmetry. apply toks_decode_all; [exact Ht|now apply D].
  Qed.
  Lemma decoded_agree T tk al : toks T tk -> Forall (Forall (known tk)) (map (map f) al) -> forall ids acc,
    agree eq (decoded T al ids acc) (decoded tk (map (map f) al) ids acc).
  Proof.
    intros Ht Hal. induction ids as [|i ids IH]; intro acc; cbn [decoded]; [reflexivity|]. unfold vget, seq in *. rewrite nth_error_map.
    destruct (nth_error al i) as [w|] eqn:E; cbn; [|reflexivity]. rewrite toks_decode with (T := T); [apply IH|exact Ht|].
    rewrite Forall_forall in Hal. apply Hal. apply in_map. exact (nth_error_In _ _ E).
  Qed.
  Lemma decoded_all_agree T tk al : toks T tk -> Forall (Forall (known tk)) (map (map f) al) -> forall r,
    agree eq (decoded_all T al r) (decoded_all tk (map (map f) al) r).
  Proof.
    intros Ht Hal. induction r as [|ids r IH]; cbn [decoded_all]; [reflexivity|]. apply (agree_bind _ _ _ _ _ _ (decoded_agree T tk al Ht Hal ids [])). intros a b <-.
    apply (agree_bind _ _ _ _ _ _ IH). intros c d <-. reflexivity.
  Qed.

  Definition inv (T tk : tokenizer) (m m' : member fl) : Prop := toks T tk /\ mren tk m m'.
  Definition same_result (T' t' : tokenizer) (a b : answer * member fl * tokenizer) : Prop :=
    fst (fst b) = fst (fst a) /\ snd a = T' /\ snd b = t' /\ inv T' t' (snd (fst a)) (snd (fst b)).

  Lemma one_text t s cs t' : tok_transform_all true t [s] = Ok (cs, t') -> exists ids, cs = [ids] /\ tok_transform true t s = Ok (ids, t').
  Proof.
    unfold tok_transform_all. cbn [mapM]. intro H. apply bind_ok in H as ([ids ta] & E & H). cbn in H. injection H as <- <-. now exists ids.
  Qed.
  Lemma call_agree T tk m m' k cs T' cs' t' : inv T tk m m' ->
    tok_transform_all true T (mtexts k) = Ok (cs, T') -> tok_transform_all true tk (mtexts k) = Ok (cs', t') -> tok_ext T' T1 -> tok_ext t' t1 ->
    agree (same_result T' t') (m_call fl m T k) (m_call fl m' tk k).
  Proof.
    intros [Htk R] ET Et XT Xt. destruct (toks_all _ _ _ _ _ _ _ Htk ET Et XT Xt) as (Htk' & Hc & Hs).
    pose proof Htk as (HT & Ht & _).
    destruct (all_keep _ _ _ _ Ht Et) as (_ & Kx & _). destruct (all_keep _ _ _ _ HT ET) as (_ & KX & _).
    destruct m as [z w n|v], m' as [z' w' n'|v']; cbn [mren] in R; try easy.
    - destruct R as (R & -> & -> & S). assert (S' : zsyms fl (known t') z') by now apply (csyms_ext tk).
      destruct k as [e s|s| |wo xs|wo xs| |]; cbn [m_call mtexts] in *; try reflexivity.
      + destruct (one_text _ _ _ _ ET) as (ids & -> & E1). destruct (one_text _ _ _ _ Et) as (ids' & -> & F1). cbn in Hc. injection Hc as ->. inversion Hs; subst.
        unfold t_accept. cbn [ttok tst twords tinner]. rewrite E1, F1. cbn [bind].
        pose proof (zren_accept f Hf fl e z z' ids R) as A. pose proof (zsyms_accept fl (known t') e z' (map f ids)) as D.
        destruct (s_accept fl e z ids) as [y| | |], (s_accept fl e z' (map f ids)) as [y'| | |]; cbn in A |- *; try easy.
        split; [easy|]. split; [easy|]. split; [easy|]. split; [exact Htk'|]. split; [exact A|]. split; [easy|]. split; [easy|]. now apply D.
      + destruct (one_text _ _ _ _ ET) as (ids & -> & E1). destruct (one_text _ _ _ _ Et) as (ids' & -> & F1). cbn in Hc. injection Hc as ->. inversion Hs; subst.
        unfold t_parse. cbn [ttok tst twords tinner]. rewrite E1, F1. cbn [bind].
        pose proof (zren_parse f fl z z' ids R) as A. pose proof (zsyms_parse fl (known t') z' (map f ids)) as D.
        destruct (s_parse fl z ids) as [[r y]| | |], (s_parse fl z' (map f ids)) as [[r' y']| | |]; cbn in A |- *; try easy.
        destruct A as [-> A]. specialize (D r y' S' eq_refl). pose proof (token_words_agree T' t' y y' Htk' A D r) as B.
        destruct (token_words fl y T' r) as [l| | |], (token_words fl y' t' r) as [l'| | |]; cbn in B |- *; try easy. subst l'.
        split; [easy|]. split; [easy|]. split; [easy|]. split; [exact Htk'|]. now split.
      + cbn in ET, Et. injection ET as <- <-. injection Et as <- <-. unfold t_update. cbn [ttok tst twords tinner].
        pose proof (zren_update f fl z z' R) as A. pose proof (zsyms_update fl (known tk) z') as D.
        destruct (s_update fl z) as [y| | |], (s_update fl z') as [y'| | |]; cbn in A |- *; try easy.
        split; [easy|]. split; [easy|]. split; [easy|]. split; [exact Htk'|]. split; [exact A|]. split; [easy|]. split; [easy|]. now apply D.
      + cbn in ET, Et. injection ET as <- <-. injection Et as <- <-. unfold t_alphabet. cbn [ttok tst].
        apply (agree_bind _ _ _ _ _ _ (alphabet_agree T tk z z' Htk R S)). intros l l' <-. cbn.
        split; [easy|]. split; [easy|]. split; [easy|]. split; [exact Htk|]. now split.
      + cbn in ET, Et. injection ET as <- <-. injection Et as <- <-. cbn. split; [cbn; f_equal; apply R|]. split; [easy|]. split; [easy|]. split; [exact Htk|]. now split.
    - destruct R as (R & S). assert (S' : zsyms fl (known t') (vs v')) by now apply (csyms_ext tk).
      destruct k as [e s|s| |wo xs|wo xs| |]; cbn [m_call mtexts] in *; try reflexivity.
      + unfold tv_fit. cbn [tvtok tv]. rewrite ET, Et. cbn [bind]. subst cs'.
        pose proof (vren_fit f Hf fl wo v v' cs R) as A. pose proof (zsyms_fit fl (known t') wo v' (map (map f) cs)) as D.
        destruct (fit fl wo v cs) as [[dn y]| | |], (fit fl wo v' (map (map f) cs)) as [[dn' y']| | |]; cbn in A |- *; try easy.
        split; [easy|]. split; [easy|]. split; [easy|]. split; [exact Htk'|]. split; [apply A|]. exact (D _ _ Hs S' eq_refl).
      + unfold tv_transform. cbn [tvtok tv]. rewrite ET, Et. cbn [bind]. subst cs'.
        pose proof (vren_transform f fl wo v v' cs R) as A. pose proof (zsyms_transform fl (known t') wo v' (map (map f) cs)) as D.
        destruct (transform fl wo v cs) as [[r y]| | |], (transform fl wo v' (map (map f) cs)) as [[r' y']| | |]; cbn in A |- *; try easy.
        destruct A as [-> A]. specialize (D r y' S' eq_refl). pose proof (zren_alphabet f fl _ _ (proj1 A)) as B.
        assert (Da : forall l, s_alphabet fl (vs y') = Ok l -> Forall (Forall (known t')) l).
        { intros l E. unfold s_alphabet in E. apply bind_ok in E as ([p d] & _ & E). exact (csyms_decode_all _ _ D _ _ E). }
        destruct (s_alphabet fl (vs y)) as [l| | |], (s_alphabet fl (vs y')) as [l'| | |]; cbn in B |- *; try easy. subst l'.
        pose proof (decoded_all_agree T' t' l Htk' (Da _ eq_refl) r) as C.
        destruct (decoded_all T' l r) as [x| | |], (decoded_all t' (map (map f) l) r) as [x'| | |]; cbn in C |- *; try easy. subst x'.
        split; [easy|]. split; [easy|]. split; [easy|]. split; [exact Htk'|]. now split.
      + cbn in ET, Et. injection ET as <- <-. injection Et as <- <-. unfold tv_alphabet. cbn [tvtok tv].
        apply (agree_bind _ _ _ _ _ _ (alphabet_agree T tk _ _ Htk (proj1 R) S)). intros l l' <-. cbn.
        split; [easy|]. split; [easy|]. split; [easy|]. split; [exact Htk|]. now split.
      + cbn in ET, Et. injection ET as <- <-. injection Et as <- <-. cbn. split; [cbn; f_equal; apply R|]. split; [easy|]. split; [easy|]. split; [exact Htk|]. now split.
  Qed.
End Pair.

Section Group.
  Context (fl : fops).

  Lemma all_app a : forall b t cs t', tok_transform_all true t (a ++ b) = Ok (cs, t') ->
    exists ca ta cb, tok_transform_all true t a = Ok (ca, ta) /\ tok_transform_all true ta b = Ok (cb, t').
  Proof.
    unfold tok_transform_all. induction a as [|s a IH]; intros b t cs t' H; cbn [mapM app] in *; [now exists [], t, cs|].
    apply bind_ok in H as ([ids t1] & E & H). apply bind_ok in H as ([r t2] & H & E2). injection E2 as <- <-.
    destruct (IH _ _ _ _ H) as (ca & ta & cb & Ha & Hb). exists (ids :: ca), ta, cb. split; [|exact Hb]. rewrite E. cbn. now rewrite Ha.
  Qed.
  Lemma all_join a : forall b t ca ta cb t', tok_transform_all true t a = Ok (ca, ta) -> tok_transform_all true ta b = Ok (cb, t') ->
    tok_transform_all true t (a ++ b) = Ok (ca ++ cb, t').
  Proof.
    unfold tok_transform_all. induction a as [|s a IH]; intros b t ca ta cb t' H H'; cbn [mapM app] in *; [now injection H as <- <-|].
    apply bind_ok in H as ([ids t1] & E & H). apply bind_ok in H as ([r t2] & H & E2). injection E2 as <- <-. rewrite E. cbn. now rewrite (IH _ _ _ _ _ _ H H').
  Qed.
  Lemma all_one t s ids t' : tok_transform true t s = Ok (ids, t') -> tok_transform_all true t [s] = Ok ([ids], t').
  Proof. intro H. unfold tok_transform_all. cbn [mapM]. now rewrite H. Qed.

  Lemma call_texts m T (k : mcall fl) a m' T' : m_call fl m T k = Ok (a, m', T') -> exists cs, tok_transform_all true T (mtexts k) = Ok (cs, T').
  Proof.
    intro H. destruct m as [z w n|v], k as [e s|s| |wo xs|wo xs| |]; cbn [m_call mtexts] in *; try discriminate; apply bind_ok in H as (x & E & H) || injection H as <- <- <-; try now exists [].
    - injection H as <- <- <-. unfold t_accept in E. cbn in E. apply bind_ok in E as ([ids tk] & E & E'). apply bind_ok in E' as (y & _ & E'). injection E' as <-. exists [ids]. now apply all_one.
    - destruct x as [l y]. injection H as <- <- <-. unfold t_parse in E. cbn in E. apply bind_ok in E as ([ids tk] & E & E'). apply bind_ok in E' as ([r u] & _ & E'). apply bind_ok in E' as (l' & _ & E'). injection E' as <- <-. exists [ids]. now apply all_one.
    - injection H as <- <- <-. unfold t_update in E. apply bind_ok in E as (y & _ & E). injection E as <-. now exists [].
    - injection H as <- <- <-. now exists [].
    - injection H as <- <- <-. unfold tv_fit in E. cbn in E. apply bind_ok in E as ([ids tk] & E & E'). apply bind_ok in E' as ([r u] & _ & E'). injection E' as <-. now exists ids.
    - destruct x as [l y]. injection H as <- <- <-. unfold tv_transform in E. cbn in E. apply bind_ok in E as ([ids tk] & E & E'). apply bind_ok in E' as ([r u] & _ & E').
      apply bind_ok in E' as (al & _ & E'). apply bind_ok in E' as (l' & _ & E'). injection E' as <- <-. now exists ids.
    - injection H as <- <- <-. now exists [].
  Qed.

  Definition shape (m m' : member fl) : Prop := match m, m' with MStream _ _ _, MStream _ _ _ | MVGram _, MVGram _ => True | _, _ => False end.
  Lemma call_fails m m' T tk (k : mcall fl) : shape m m' -> tok_ok T -> tok_ok tk -> tkind T = tkind tk ->
    (forall x, tok_transform_all true T (mtexts k) <> Ok x) -> agree (fun _ _ => False) (m_call fl m T k) (m_call fl m' tk k).
  Proof.
    intros Hs HT Ht E H.
    assert (G1 : forall s, mtexts k = [s] -> agree (fun _ _ => False) (tok_transform true T s) (tok_transform true tk s)).
    { intros s Es. rewrite Es in H. pose proof (transform_agree T tk s HT Ht E) as A.
      destruct (tok_transform true T s) as [[ids T']| | |] eqn:ET, (tok_transform true tk s) as [[ids' t']| | |]; cbn in A |- *; try easy. exact (H _ (all_one _ _ _ _ ET)). }
    assert (G2 : agree (fun _ _ => False) (tok_transform_all true T (mtexts k)) (tok_transform_all true tk (mtexts k))).
    { pose proof (all_agree (mtexts k) T tk HT Ht E) as A. destruct (tok_transform_all true T (mtexts k)) as [x| | |], (tok_transform_all true tk (mtexts k)); cbn in A |- *; try easy. exact (H _ eq_refl). }
    destruct m as [z w n|v], m' as [z' w' n'|v']; try easy; destruct k as [e s|s| |wo xs|wo xs| |]; cbn [m_call mtexts] in *; try reflexivity; try (exfalso; exact (H _ eq_refl)).
    - unfold t_accept. cbn [ttok]. specialize (G1 s eq_refl). destruct (tok_transform true T s), (tok_transform true tk s); cbn in G1 |- *; easy.
    - unfold t_parse. cbn [ttok]. specialize (G1 s eq_refl). destruct (tok_transform true T s), (tok_transform true tk s); cbn in G1 |- *; easy.
    - unfold tv_fit. cbn [tvtok]. destruct (tok_transform_all true T xs), (tok_transform_all true tk xs); cbn in G2 |- *; easy.
    - unfold tv_transform. cbn [tvtok]. destruct (tok_transform_all true T xs), (tok_transform_all true tk xs); cbn in G2 |- *; easy.
  Qed.

  Definition own_texts (i : nat) (log : list (gcall fl * answer)) : list text := flat_map (fun x => mtexts (fst x)) (of_member fl i log).
  Lemma own_app i log x : of_member fl i (log ++ [x]) = of_member fl i log ++ own fl i x.
  Proof. unfold of_member. rewrite flat_map_app. cbn. now rewrite app_nil_r. Qed.
  Lemma own_texts_app i log x : own_texts i (log ++ [x]) = own_texts i log ++ flat_map (fun y => mtexts (fst y)) (own fl i x).
  Proof. unfold own_texts. now rewrite own_app, flat_map_app. Qed.

  Lemma g_inv g c a g' : g_call fl g c = Ok (a, g') ->
    match c with
    | On i k => exists m m', nth_error (gmem g) i = Some m /\ m_call fl m (gtok g) k = Ok (a, m', gtok g') /\ gmem g' = upd (gmem g) i m'
    | Direct s => exists ids, tok_transform true (gtok g) s = Ok (ids, gtok g') /\ gmem g' = gmem g
    end.
  Proof.
    destruct c as [i k|s]; cbn [g_call]; intro H.
    - apply bind_ok in H as (m & Em & H). apply bind_ok in H as ([[a' m'] tk] & Ec & H). injection H as <- <-. exists m, m'.
      unfold vget in Em. destruct (nth_error (gmem g) i) as [x|]; [|discriminate]. now injection Em as ->.
    - apply bind_ok in H as ([ids tk] & E & H). injection H as _ <-. now exists ids.
  Qed.
  Lemma g_tok g c a g' : tok_ok (gtok g) -> g_call fl g c = Ok (a, g') -> tok_ok (gtok g') /\ tok_ext (gtok g) (gtok g') /\ tkind (gtok g') = tkind (gtok g).
  Proof.
    intros H E. apply g_inv in E. destruct c as [i k|s].
    - destruct E as (m & m' & _ & Ec & _). destruct (call_texts _ _ _ _ _ _ Ec) as (cs & Et). exact (all_keep _ _ _ _ H Et).
    - destruct E as (ids & Et & _). exact (transform_keep _ _ _ _ H Et).
  Qed.
  Lemma ghist_tok g0 log g : tok_ok (gtok g0) -> ghist fl g0 log g -> tok_ok (gtok g) /\ tok_ext (gtok g0) (gtok g) /\ tkind (gtok g) = tkind (gtok g0).
  Proof.
    intros H0 H. induction H as [|log g c a g' H (I1 & I2 & I3) Hc]; [split; [easy|]; now split; [apply tok_ext_refl|]|].
    destruct (g_tok _ _ _ _ I1 Hc) as (J1 & J2 & J3). split; [easy|]. split; [now apply tok_ext_trans with (gtok g)|congruence].
  Qed.
  (** The tokenizer that object [i] would have on its own. *)
  Lemma own_tok g0 log g i t0 : tok_ok (gtok g0) -> tok_ok t0 -> tkind t0 = tkind (gtok g0) -> ghist fl g0 log g ->
    exists cs tk, tok_transform_all true t0 (own_texts i log) = Ok (cs, tk) /\ tok_ok tk /\ tkind tk = tkind t0.
  Proof.
    intros HT Ht E H. induction H as [|log g c a g' H (cs & tk & I1 & I2 & I3) Hc]; [now exists [], t0|].
    rewrite own_texts_app. destruct (ghist_tok _ _ _ HT H) as (K1 & K2 & K3). apply g_inv in Hc. destruct c as [j k|s]; cbn [own]; [|exists cs, tk; cbn; now rewrite app_nil_r].
    destruct Hc as (m & m' & _ & Hc & _). destruct (Nat.eqb j i); [|exists cs, tk; cbn; now rewrite app_nil_r]. cbn [flat_map fst]. rewrite app_nil_r.
    destruct (call_texts _ _ _ _ _ _ Hc) as (ds & Hd). pose proof (all_agree (mtexts k) (gtok g) tk K1 I2 ltac:(congruence)) as A.
    rewrite Hd in A. destruct (tok_transform_all true tk (mtexts k)) as [[es tk']| | |] eqn:Ee; try easy. exists (cs ++ es), tk'. split; [exact (all_join _ _ _ _ _ _ _ I1 Ee)|].
    destruct (all_keep _ _ _ _ I2 Ee) as (L1 & _ & L3). split; [exact L1|congruence].
  Qed.

  Lemma toks_mono T1 t1 T T' tk : toks T1 t1 T tk -> tok_ok T' -> tok_ext T T' -> tok_ext T' T1 -> toks T1 t1 T' tk.
  Proof.
    intros (A & B & C & D & E & G) H1 [H2 H3] H4. split; [exact H1|]. split; [exact B|]. split; [congruence|]. split; [exact H4|]. split; [exact E|].
    intros w i Hw. destruct (G w i Hw) as (j & Hj). exists j. now apply H3.
  Qed.
  Lemma mren_fresh T1 t1 t m : fresh_member fl m -> mren fl T1 t1 t m m.
  Proof. intros [size w n|size iter]; cbn; [split; [apply zren_new|]; now repeat split|split; [apply vren_new|easy]]. Qed.

  Lemma own_life g0 i m0 T1 t1 : tok_ok T1 -> tok_ok t1 -> (exists k, gtok g0 = new_tok k) -> nth_error (gmem g0) i = Some m0 -> fresh_member fl m0 ->
    forall log g, ghist fl g0 log g -> tok_ext (gtok g) T1 -> forall cs tk, tok_transform_all true (gtok g0) (own_texts i log) = Ok (cs, tk) -> tok_ext tk t1 ->
    exists m m', nth_error (gmem g) i = Some m /\ mhist fl m0 (gtok g0) (of_member fl i log) m' tk /\ inv fl T1 t1 (gtok g) tk m m'.
  Proof.
    intros HT1 Ht1 (kd & Ek) Hm0 Hf log g H. pose proof (tok_ok_new kd) as Hn. rewrite <- Ek in Hn. induction H as [|log g c a g' H IH Hc]; intros X cs tk Et Xt.
    - cbn in Et. injection Et as <- <-. exists m0, m0. split; [exact Hm0|]. split; [constructor|]. split; [|now apply mren_fresh].
      repeat split; try apply X; try apply Xt; try apply Hn. intros w j Hj. now exists j.
    - destruct (ghist_tok _ _ _ Hn H) as (K1 & K2 & K3). destruct (g_tok _ _ _ _ K1 Hc) as (L1 & L2 & L3).
      rewrite own_texts_app in Et. rewrite own_app. apply g_inv in Hc.
      assert (Other : own fl i (c, a) = [] -> (forall m, nth_error (gmem g) i = Some m -> nth_error (gmem g') i = Some m) ->
        exists m m', nth_error (gmem g') i = Some m /\ mhist fl m0 (gtok g0) (of_member fl i log ++ own fl i (c, a)) m' tk /\ inv fl T1 t1 (gtok g') tk m m').
      { intros Eo Hk. rewrite Eo in *. cbn in Et. rewrite app_nil_r in *. destruct (IH (tok_ext_trans _ _ _ L2 X) cs tk Et Xt) as (m & m' & I1 & I2 & I3 & I4).
        exists m, m'. split; [now apply Hk|]. split; [exact I2|]. split; [exact (toks_mono _ _ _ _ _ I3 L1 L2 X)|exact I4]. }
      destruct c as [j k|s]; [|apply Other; [easy|]; destruct Hc as (ids & _ & ->); easy].
      destruct Hc as (m & m1 & Em & Ec & Eg). cbn [own] in *. destruct (Nat.eqb_spec j i) as [->|Hj].
      + clear Other. cbn [flat_map fst] in Et. rewrite app_nil_r in Et. destruct (all_app _ _ _ _ _ Et) as (ca & ta & cb & Ea & Eb).
        assert (Hta : tok_ok ta) by apply (all_keep _ _ _ _ Hn Ea). destruct (all_keep _ _ _ _ Hta Eb) as (_ & Xa & _).
        destruct (IH (tok_ext_trans _ _ _ L2 X) ca ta Ea (tok_ext_trans _ _ _ Xa Xt)) as (m2 & m' & I1 & I2 & I3). rewrite Em in I1. injection I1 as <-.
        destruct (call_texts _ _ _ _ _ _ Ec) as (cc & Ed). pose proof (call_agree fl T1 t1 HT1 Ht1 _ _ _ _ _ _ _ _ _ I3 Ed Eb X Xt) as A.
        destruct (agree_ok _ _ _ _ A Ec) as ([[a' m1'] tk'] & Ec' & Q1 & Q2 & Q3 & Q4). cbn [fst snd] in *. subst a' tk'.
        exists m1, m1'. split; [rewrite Eg; clear -Em; revert i Em; induction (gmem g) as [|x l IHl]; intros [|i] Em; cbn in *; try easy; now apply IHl|]. split; [|exact Q4].
        exact (mh_step fl _ _ _ _ _ _ _ _ _ I2 Ec').
      + apply Other; [easy|]. intros m2 E2. rewrite Eg. clear -Hj E2. revert i j Hj E2. induction (gmem g) as [|x l IHl]; intros [|i] [|j] Hj E2; cbn in *; try easy.
        apply IHl; [congruence|exact E2].
  Qed.

  Lemma mhist_det m0 t0 log m t : mhist fl m0 t0 log m t -> forall m' t', mhist fl m0 t0 log m' t' -> m' = m /\ t' = t.
  Proof.
    induction 1 as [|log m t k a m1 t1 H IH E]; intros m' t' H'; inversion H' as [Q|l2 m2 t2 k2 a2 m3 t3 H2 E2 Q]; try easy.
    - now destruct l2.
    - now destruct log.
    - subst. apply app_inj_tail in Q as [-> [= -> ->]]. destruct (IH _ _ H2) as [-> ->]. rewrite E in E2. injection E2 as <- <-. easy.
  Qed.
  Lemma mren_shape T1 t1 t m m' : mren fl T1 t1 t m m' -> shape m m'.
  Proof. destruct m, m'; cbn; easy. Qed.

  Definition answer_of (r : answer * member fl * tokenizer) : answer := fst (fst r).
  Lemma shared g0 i m0 k : gtok g0 = new_tok k -> nth_error (gmem g0) i = Some m0 -> fresh_member fl m0 ->
    forall log g, ghist fl g0 log g ->
    exists m t, mhist fl m0 (new_tok k) (of_member fl i log) m t /\
      forall c, through answer_of (m_call fl m t c) = through fst (g_call fl g (On i c)).
  Proof.
    intros Ek Hm Hf log g H. pose proof (tok_ok_new k) as Hn. rewrite <- Ek in *. destruct (ghist_tok _ _ _ Hn H) as (K1 & K2 & K3).
    destruct (own_tok g0 log g i (gtok g0) Hn Hn eq_refl H) as (cs & tk & Et & Ht & Hk).
    assert (L : forall T1 t1, tok_ok T1 -> tok_ok t1 -> tok_ext (gtok g) T1 -> tok_ext tk t1 ->
      exists m m', nth_error (gmem g) i = Some m /\ mhist fl m0 (gtok g0) (of_member fl i log) m' tk /\ inv fl T1 t1 (gtok g) tk m m').
    { intros T1 t1 A B C D. apply (own_life g0 i m0 T1 t1 A B (ex_intro _ k Ek) Hm Hf log g H C cs tk Et D). }
    destruct (L (gtok g) tk K1 Ht (tok_ext_refl _) (tok_ext_refl _)) as (m & m' & Em & Hh & Hi). exists m', tk. split; [exact Hh|].
    intro c. cbn [g_call]. unfold vget. rewrite Em. cbn [bind].
    assert (A : agree (fun a b => fst (fst b) = fst (fst a)) (m_call fl m (gtok g) c) (m_call fl m' tk c)).
    { pose proof (all_agree (mtexts c) (gtok g) tk K1 Ht ltac:(congruence)) as A.
      destruct (tok_transform_all true (gtok g) (mtexts c)) as [[ca T1]| | |] eqn:ET.
      2-4: assert (F : agree (fun _ _ => False) (m_call fl m (gtok g) c) (m_call fl m' tk c)) by
        (apply call_fails; [exact (mren_shape _ _ _ _ _ (proj2 Hi))|exact K1|exact Ht|congruence|rewrite ET; easy]);
        destruct (m_call fl m (gtok g) c), (m_call fl m' tk c); cbn in F |- *; easy.
      destruct (tok_transform_all true tk (mtexts c)) as [[cb t1]| | |] eqn:Eb; try easy.
      destruct (all_keep _ _ _ _ K1 ET) as (M1 & M2 & M3). destruct (all_keep _ _ _ _ Ht Eb) as (N1 & N2 & N3).
      destruct (L T1 t1 M1 N1 M2 N2) as (m2 & m2' & Em2 & Hh2 & Hi2). rewrite Em in Em2. injection Em2 as <-. destruct (mhist_det _ _ _ _ _ Hh _ _ Hh2) as [-> _].
      pose proof (call_agree fl T1 t1 M1 N1 _ _ _ _ _ _ _ _ _ Hi2 ET Eb (tok_ext_refl _) (tok_ext_refl _)) as B.
      destruct (m_call fl m (gtok g) c), (m_call fl m' tk c); cbn in B |- *; try easy. apply B. }
    destruct (m_call fl m (gtok g) c) as [[[a m1] T1]| | |], (m_call fl m' tk c) as [[[a' m1'] t1]| | |]; cbn in A |- *; try easy; congruence.
  Qed.

  (** The same calls get the same answers, whatever else was done with the tokenizer. *)
  Lemma mhist_answers m0 t0 : forall log m t, mhist fl m0 t0 log m t -> forall log' m' t', mhist fl m0 t0 log' m' t' -> map fst log = map fst log' -> log = log'.
  Proof.
    induction 1 as [|log m t k a m1 t1 H IH E]; intros log' m' t' H' Q.
    - destruct log'; [easy|discriminate].
    - inversion H' as [Q'|l2 m2 t2 k2 a2 m3 t3 H2 E2 Q']; subst; rewrite ?map_app in Q; cbn in Q; [now destruct (map fst log)|].
      apply app_inj_tail in Q as [Q ->]. assert (log = l2) as <- by exact (IH _ _ _ H2 Q). destruct (mhist_det _ _ _ _ _ H _ _ H2) as [-> ->]. rewrite E in E2. injection E2 as <- <- <-. reflexivity.
  Qed.
  Lemma apart g0 i m0 k g0' i' : gtok g0 = new_tok k -> nth_error (gmem g0) i = Some m0 -> gtok g0' = new_tok k -> nth_error (gmem g0') i' = Some m0 -> fresh_member fl m0 ->
    forall log g log' g', ghist fl g0 log g -> ghist fl g0' log' g' -> map fst (of_member fl i log) = map fst (of_member fl i' log') -> of_member fl i log = of_member fl i' log'.
  Proof.
    intros E1 E2 E3 E4 Hf log g log' g' H H' Q. destruct (shared g0 i m0 k E1 E2 Hf log g H) as (m & t & A & _). destruct (shared g0' i' m0 k E3 E4 Hf log' g' H') as (m' & t' & A' & _).
    exact (mhist_answers _ _ _ _ _ A _ _ _ A' Q).
  Qed.
End Group.
