(** Greedy parsing, and the dictionaries that lookups and parses can produce. *)
From Verif Require Import Base Spec FloatOps ModelDict OrderProofs DictProofs.

Definition no_empty (d : dict) : Prop := forall w, In w (seqs d) -> w <> [].

(** ** Extension by symbols *)
Lemma ext_refl ws : extends_by_symbols ws ws.
Proof. exists []. simpl. now rewrite app_nil_r. Qed.
Lemma ext_trans a b c : extends_by_symbols a b -> extends_by_symbols b c -> extends_by_symbols a c.
Proof. intros [l ->] [k ->]. exists (l ++ k). now rewrite map_app, app_assoc. Qed.
Lemma ext_learn d c : extends_by_symbols (seqs d) (seqs (learn d c)).
Proof. now exists [c]. Qed.
Lemma ext_word_at ws ws' i w : extends_by_symbols ws ws' -> word_at ws i w -> word_at ws' i w.
Proof.
  intros [cs ->] H. unfold word_at in *. rewrite nth_error_app1; [easy|].
  now apply nth_some_lt in H.
Qed.
Lemma ext_length ws ws' : extends_by_symbols ws ws' -> length ws <= length ws'.
Proof. intros [cs ->]. rewrite app_length. lia. Qed.
Lemma no_empty_ext d d' : no_empty d -> extends_by_symbols (seqs d) (seqs d') -> no_empty d'.
Proof.
  intros H [cs E] w Hw. rewrite E in Hw. apply in_app_iff in Hw as [Hw|Hw].
  - now apply H.
  - apply in_map_iff in Hw as (c & <- & _). easy.
Qed.
Lemma word_at_in ws i w : word_at ws i w -> In w ws.
Proof. apply nth_error_In. Qed.

Lemma spells_nil ws : spells ws [] [].
Proof. exists []. now split. Qed.
Lemma spells_cons ws i w ids s : word_at ws i w -> spells ws ids s -> spells ws (i :: ids) (w ++ s).
Proof. intros Hw (vs & H & <-). exists (w :: vs). split; [now constructor|easy]. Qed.
Lemma spells_app ws ids1 s1 ids2 s2 :
  spells ws ids1 s1 -> spells ws ids2 s2 -> spells ws (ids1 ++ ids2) (s1 ++ s2).
Proof.
  intros (vs1 & H1 & <-) (vs2 & H2 & <-). exists (vs1 ++ vs2).
  split; [now apply Forall2_app|now rewrite concat_app].
Qed.
Lemma spells_ext ws ws' ids s : extends_by_symbols ws ws' -> spells ws ids s -> spells ws' ids s.
Proof.
  intros He (vs & H & Hc). exists vs. split; [|easy].
  clear Hc. induction H; constructor; [eapply ext_word_at; eassumption|easy].
Qed.

(** ** One lookup on a well-formed dictionary *)
Lemma search_wf d q ex : wf_dict d -> (ex = None -> q <> []) ->
  exists r d', search d q ex = Ok (r, d') /\ wf_dict d' /\
    extends_by_symbols (seqs d) (seqs d') /\
    (ex <> None -> d' = d) /\ (ex = None -> r <> None) /\ dsize d' <= S (dsize d) /\
    forall i, r = Some i -> exists w, word_at (seqs d') i w /\ prefix w q /\ allowed ex i = true.
Proof.
  intros Hwf Hq. destruct (search_sound d q ex Hwf Hq) as (r & d' & H & Hd & Hr & Hi).
  exists r, d'. split; [easy|].
  destruct Hd as [->|(Hn & c & q' & Hqq & -> & ->)].
  - split; [easy|]. split; [apply ext_refl|]. split; [easy|]. split; [easy|]. split; [lia|easy].
  - split; [now apply learn_wf|]. split; [apply ext_learn|]. split; [easy|]. split; [easy|].
    split; [|easy]. unfold dsize, learn; cbn. rewrite app_length. simpl. lia.
Qed.

(** Total behaviour of a lookup: only the empty query can go wrong. *)
Lemma search_ok_wf d q ex r d' : wf_dict d -> search d q ex = Ok (r, d') ->
  wf_dict d' /\ extends_by_symbols (seqs d) (seqs d').
Proof.
  intros Hwf H. destruct ex as [l|].
  - destruct (search_wf d q (Some l) Hwf) as (r1 & d1 & H1 & H2 & H3 & _); [easy|].
    rewrite H in H1. injection H1 as -> ->. easy.
  - destruct q as [|c q].
    + (* empty query *)
      unfold search in H.
      destruct (lower_bound_spec (seqs d) []) as (i & E & Hl & Hp & _). rewrite E in H. cbn [bind] in H.
      assert (i = 0). { destruct i as [|i]; [easy|]. destruct (Hp i eq_refl) as (w & _ & Hw). now destruct w. }
      subst i. destruct (Nat.ltb 0 (dsize d)).
      * destruct (get d 0) as [w| | |]; cbn [bind] in H; try discriminate.
        destruct (seq_eqb w [] && allowed None 0); [injection H as _ <-; split; [easy|apply ext_refl]|].
        simpl in H. discriminate.
      * simpl in H. discriminate.
    + destruct (search_wf d (c :: q) None Hwf) as (r1 & d1 & H1 & H2 & H3 & _); [easy|].
      rewrite H in H1. injection H1 as -> ->. easy.
Qed.

Lemma drop_front_app w r : drop_front (length w) (w ++ r) = Ok r.
Proof.
  unfold drop_front. rewrite app_length.
  assert (E : Nat.leb (length w) (length w + length r) = true) by (apply Nat.leb_le; lia).
  rewrite E. f_equal. rewrite skipn_app, skipn_all, Nat.sub_diag. easy.
Qed.

(** ** Lossless, no exclusions *)
Lemma linear_loop_lossless : forall fuel d s b,
  wf_dict d -> no_empty d -> length s <= fuel ->
  exists ids d', linear_loop fuel d s b None = Ok (b ++ ids, d') /\
    spells (seqs d') ids s /\ wf_dict d' /\ extends_by_symbols (seqs d) (seqs d').
Proof.
  induction fuel as [|fuel IH]; intros d s b Hwf Hne Hlen.
  - destruct s; [|simpl in Hlen; lia]. exists [], d. cbn. rewrite app_nil_r.
    split; [easy|]. split; [apply spells_nil|]. split; [easy|apply ext_refl].
  - destruct s as [|c s0]; [exists [], d; cbn; rewrite app_nil_r; split; [easy|];
      split; [apply spells_nil|]; split; [easy|apply ext_refl]|].
    cbn [linear_loop].
    destruct (search_wf d (c :: s0) None Hwf) as (r & d1 & -> & Hwf1 & Hext1 & _ & Hr & _ & Hi); [easy|].
    cbn [bind]. destruct r as [i|]; [|now destruct Hr].
    destruct (Hi i eq_refl) as (w & Hw & [t Ht] & _).
    assert (Hne1 : no_empty d1) by (now apply (no_empty_ext d d1)).
    unfold get. rewrite (vget_some _ _ _ Hw). cbn [bind]. rewrite Ht, drop_front_app. cbn [bind].
    assert (Hwne : w <> []) by (apply Hne1; now apply word_at_in in Hw).
    destruct (IH d1 t (b ++ [i])) as (ids & d2 & H2 & Hsp & Hwf2 & Hext2); try easy.
    { assert (length (c :: s0) = length w + length t) by (rewrite Ht; apply app_length).
      destruct w; [easy|]. simpl in *. lia. }
    exists (i :: ids), d2. rewrite H2, <- app_assoc. split; [easy|]. split.
    + apply spells_cons; [now apply (ext_word_at (seqs d1))|easy].
    + split; [easy|]. now apply (ext_trans _ (seqs d1)).
Qed.

(** ** Exact greedy reading *)
Lemma no_prefix_covers ws c r : In [c] ws -> ~ no_prefix ws (fun _ => True) (c :: r).
Proof.
  intros Hin H. apply In_nth_error in Hin as [j Hj].
  apply (H j [c] Hj); [now exists r|easy].
Qed.

Lemma linear_loop_greedy ex d : full_dict d -> no_empty d -> forall fuel s b,
  (ex = None -> covers (seqs d) s) -> length s <= fuel ->
  exists ids, linear_loop fuel d s b ex = Ok (b ++ ids, d) /\
    greedy (seqs d) (fun k => allowed ex k = true) s ids.
Proof.
  intros Hfull Hne. induction fuel as [|fuel IH]; intros s b Hcov Hlen.
  - destruct s; [|simpl in Hlen; lia]. exists []. cbn. rewrite app_nil_r. split; [easy|constructor].
  - destruct s as [|c s0]; [exists []; cbn; rewrite app_nil_r; split; [easy|constructor]|].
    cbn [linear_loop].
    assert (Hne0 : ex = None -> c :: s0 <> []) by easy.
    pose proof (search_full d (c :: s0) ex Hfull Hne0) as Hs.
    destruct (search d (c :: s0) ex) as [[[i|] d1]| | |]; try contradiction; cbn [bind].
    + destruct Hs as [[-> Hlong]|(-> & Hno & _)].
      * pose proof Hlong as (w & Hw & [t Ht] & Hok & Hmax).
        unfold get. rewrite (vget_some _ _ _ Hw). cbn [bind]. rewrite Ht, drop_front_app. cbn [bind].
        assert (Hwne : w <> []) by (apply Hne; now apply word_at_in in Hw).
        destruct (IH t (b ++ [i])) as (ids & H2 & Hgr).
        -- intros Hex c' Hc'. apply Hcov; [easy|]. rewrite Ht. apply in_app_iff. now right.
        -- assert (length (c :: s0) = length w + length t) by (rewrite Ht; apply app_length).
           destruct w; [easy|]. simpl in *. lia.
        -- exists (i :: ids). rewrite H2, <- app_assoc. split; [easy|].
           apply greedy_take; try easy. now rewrite <- Ht.
      * exfalso. apply (no_prefix_covers (seqs d) c s0); [|easy]. apply Hcov; [easy|now left].
    + destruct Hs as (-> & Hex & Hno).
      unfold drop_front. cbn [length Nat.leb skipn bind].
      destruct (IH s0 b) as (ids & H2 & Hgr).
      * intros Hn. congruence.
      * simpl in Hlen. lia.
      * exists ids. rewrite H2. split; [easy|]. now apply greedy_skip.
Qed.

(** ** Exclusions on any well-formed dictionary: safe, terminating, dictionary unchanged *)
Lemma linear_loop_excl l d : wf_dict d -> no_empty d -> forall fuel s b,
  length s <= fuel ->
  exists ids, linear_loop fuel d s b (Some l) = Ok (b ++ ids, d) /\
    Forall (fun i => ~ In i l /\ i < dsize d) ids.
Proof.
  intros Hwf Hne. induction fuel as [|fuel IH]; intros s b Hlen.
  - destruct s; [|simpl in Hlen; lia]. exists []. cbn. now rewrite app_nil_r.
  - destruct s as [|c s0]; [exists []; cbn; now rewrite app_nil_r|].
    cbn [linear_loop].
    destruct (search_wf d (c :: s0) (Some l) Hwf) as (r & d1 & -> & _ & _ & Hd & _ & _ & Hi); [easy|].
    rewrite (Hd ltac:(easy)) in *. cbn [bind]. destruct r as [i|].
    + destruct (Hi i eq_refl) as (w & Hw & [t Ht] & Hal).
      unfold get. rewrite (vget_some _ _ _ Hw). cbn [bind]. rewrite Ht, drop_front_app. cbn [bind].
      assert (Hwne : w <> []) by (apply Hne; now apply word_at_in in Hw).
      destruct (IH t (b ++ [i])) as (ids & H2 & Hf).
      { assert (length (c :: s0) = length w + length t) by (rewrite Ht; apply app_length).
        destruct w; [easy|]. simpl in *. lia. }
      exists (i :: ids). rewrite H2, <- app_assoc. split; [easy|]. constructor; [|easy].
      split.
      * intro Hin. simpl in Hal. apply negb_true_iff in Hal.
        assert (existsb (Nat.eqb i) l = true).
        { apply existsb_exists. exists i. split; [easy|apply Nat.eqb_refl]. }
        congruence.
      * unfold dsize. now apply nth_some_lt in Hw.
    + unfold drop_front. cbn [length Nat.leb skipn bind].
      destruct (IH s0 b) as (ids & H2 & Hf); [simpl in Hlen; lia|].
      exists ids. now rewrite H2.
Qed.
