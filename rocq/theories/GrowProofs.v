(** GrowProofs: what expand adds. *)
From Verif Require Import Base Spec SpecWeight FloatOps FloatLaws ModelDict Maps ModelStat SpecStat
  OrderProofs DictProofs GreedyProofs WeightedProofs StatProofs ExpandProofs SpecGrow.

Section Grow.
  Context (fl : fops) (L : flaws fl).

  (** Every pair of the table ends up with its text known. *)
  Lemma expand_pairs_known e d tot se : forall ps its known its' known',
    expand_pairs fl e d tot se ps (its, known) = Ok (its', known') ->
    forall p t, In p ps -> joined (seqs d) p t -> In t known'.
  Proof.
    induction ps as [|[[f s] c] ps IH]; intros its known its' known' H p t Hp Hj; [easy|].
    unfold expand_pairs in H. cbn [foldM] in H.
    apply bind_ok in H as ([its1 known1] & H1 & H).
    apply bind_ok in H1 as (ew & Hew & H1). apply bind_ok in H1 as (sw & Hsw & H1).
    apply bind_ok in H1 as (sc & Hsc & H1). apply bind_ok in H1 as (t1 & Ht & H1).
    destruct Hp as [<-|Hp]; [|now apply (IH _ _ _ _ H p t)].
    pose proof (expand_pairs_sound fl e d tot se ps _ _ _ _ H) as (new & txts & _ & -> & _).
    apply in_or_app. left.
    assert (E : t1 = t).
    { apply (item_text_pair fl d (mkItem (Some f) s sc c) t1 f eq_refl) in Ht as (f' & a & b & E & Ha & Hb & ->).
      cbn [first] in E. injection E as <-.
      destruct Hj as (a' & b' & Ha' & Hb' & ->). cbn [fst snd second] in *. unfold word_at in *. congruence. }
    subst t1. destruct (known_in known t) eqn:E.
    - injection H1 as <- <-. now apply known_in_spec.
    - injection H1 as <- <-. apply in_or_app. right. now left.
  Qed.

  Definition share_of (acc : F fl) (m : F fl) (it : item fl) : F fl :=
    match first it with Some _ => fmin fl m (fdiv fl (fofZ fl (icount it)) acc) | None => m end.
  (** Where the output loop stops. *)
  Lemma expand_out_stop d acc : forall items slots mp ws fs ws' fs' mp', (0 <= slots)%Z ->
    expand_out fl d acc items slots mp ws fs = Ok (ws', fs', mp') ->
    exists taken rest txts, items = taken ++ rest /\ ws' = ws ++ txts /\ fs' = fs ++ map icount taken /\
      Forall2 (fun it t => item_text fl d it = Ok t) taken txts /\
      Forall (fun it => fltb fl (score it) (fofZ fl 0) = false) taken /\
      mp' = fold_left (share_of acc) taken mp /\
      (rest = [] \/ (exists it r, rest = it :: r /\ fltb fl (score it) (fofZ fl 0) = true) \/
       Z.of_nat (length taken) = slots).
  Proof.
    induction items as [|it items IH]; intros slots mp ws fs ws' fs' mp' Hs H; cbn [expand_out] in H.
    - injection H as <- <- <-. exists [], [], []. rewrite !app_nil_r. do 3 (split; [easy|]). do 2 (split; [constructor|]).
      split; [easy|now left].
    - destruct (fltb fl (score it) (fofZ fl 0)) eqn:E.
      { injection H as <- <- <-. exists [], (it :: items), []. rewrite !app_nil_r. do 3 (split; [easy|]).
        do 2 (split; [constructor|]). split; [easy|]. right. left. now exists it, items. }
      destruct (Z.ltb_spec (slots - 1) 0).
      { injection H as <- <- <-. exists [], (it :: items), []. rewrite !app_nil_r. do 3 (split; [easy|]).
        do 2 (split; [constructor|]). split; [easy|]. right. right. cbn. lia. }
      apply bind_ok in H as (w & Hw & H). apply IH in H as (tk & rest & txts & -> & -> & -> & Ht & Hsc & -> & Hr); [|lia].
      exists (it :: tk), rest, (w :: txts). rewrite <- !app_assoc. split; [easy|]. split; [easy|]. split; [easy|].
      split; [now constructor|]. split; [now constructor|]. split; [easy|].
      destruct Hr as [Hr|[Hr|Hr]]; [now left|right; now left|right; right]. cbn [length]. lia.
  Qed.

  Definition key_of (it : item fl) : (nat * nat) * Z :=
    ((match first it with Some f => f | None => 0 end, second it), icount it).

  Lemma app_longer {A} : forall (a b c d : list A), a ++ b = c ++ d -> length c <= length a ->
    exists m, a = c ++ m /\ d = m ++ b.
  Proof.
    intros a b c. revert a. induction c as [|x c IH]; intros a d H Hl; [now exists a|].
    destruct a as [|y a]; cbn [length] in Hl; [lia|]. cbn [app] in H. injection H as -> H.
    destruct (IH a d H) as (m & -> & ->); [lia|]. now exists m.
  Qed.
  Lemma sorted_mid {A} (R : A -> A -> Prop) l1 x l2 y l3 : StronglySorted R (l1 ++ x :: l2 ++ y :: l3) -> R x y.
  Proof.
    induction l1 as [|a l1 IH]; cbn [app]; intro H; inversion_clear H as [|? ? H1 H2]; [|now apply IH].
    rewrite Forall_forall in H2. apply H2. apply in_or_app. right. now left.
  Qed.
  Lemma sorted_app {A} (R : A -> A -> Prop) l1 l2 x y : StronglySorted R (l1 ++ l2) -> In x l1 -> In y l2 -> R x y.
  Proof.
    intros H Hx Hy. apply in_split in Hx as (a & b & ->). apply in_split in Hy as (c & d & ->).
    rewrite <- app_assoc in H. cbn [app] in H. rewrite app_assoc in H. now apply sorted_mid in H.
  Qed.
  Lemma sorted_skip {A} (R : A -> A -> Prop) l1 l2 : StronglySorted R (l1 ++ l2) -> StronglySorted R l2.
  Proof. induction l1 as [|a l1 IH]; [easy|]. cbn [app]. intro H. inversion_clear H. now apply IH. Qed.
  Lemma filter_perm {A} (f : A -> bool) l l' : Permutation l l' -> Permutation (filter f l) (filter f l').
  Proof.
    induction 1 as [|x l l' H IH|x y l|l l1 l2 H1 IH1 H2 IH2]; cbn.
    - constructor.
    - destruct (f x); [now constructor|easy].
    - destruct (f x), (f y); constructor || reflexivity; reflexivity.
    - now apply (perm_trans IH1).
  Qed.
  Lemma filter_all {A} (f : A -> bool) l : Forall (fun x => f x = true) l -> filter f l = l.
  Proof. induction 1 as [|x l H _ IH]; [easy|]. cbn. rewrite H. now f_equal. Qed.
  Lemma filter_none {A} (f : A -> bool) l : Forall (fun x => f x = false) l -> filter f l = [].
  Proof. induction 1 as [|x l H _ IH]; [easy|]. cbn. now rewrite H. Qed.
  Lemma forall2_split {A B} (R : A -> B -> Prop) l1 l2 t : Forall2 R (l1 ++ l2) t ->
    exists t1 t2, t = t1 ++ t2 /\ Forall2 R l1 t1 /\ Forall2 R l2 t2.
  Proof. intro H. apply Forall2_app_inv_l in H as (t1 & t2 & H1 & H2 & ->). now exists t1, t2. Qed.

  Theorem expand_selects e d (st : sstat fl) slots ws fs mp :
    env_ok fl e -> draws_ok fl e -> full_dict d -> no_empty d -> length (sfreqs st) <= dsize d ->
    table_ok (length (sfreqs st)) (pairs st) -> (0 <= slots)%Z -> expand fl e d st slots = Ok (ws, fs, mp) ->
    exists olds news old_txts new_txts,
      Permutation olds (List.seq 0 (dsize d)) /\ ws = old_txts ++ new_txts /\
      Forall2 (word_at (seqs d)) olds old_txts /\
      incl news (pairs st) /\ Forall2 (joined (seqs d)) news new_txts /\
      fs = map (freq fl st) olds ++ map snd news /\
      mp = least_share fl (pairs st) (minp st) news /\
      best_first fl (e_gamma e) (pairs st) news /\
      Forall (fun p => exists v, worth fl (e_gamma e) (pairs st) p = Some v /\ fltb fl v (fofZ fl 0) = false) news /\
      (forall p t, In p (pairs st) -> joined (seqs d) p t -> ~ In t ws ->
         exists q v, In q (pairs st) /\ joined (seqs d) q t /\ worth fl (e_gamma e) (pairs st) q = Some v /\
           (fltb fl v (fofZ fl 0) = true \/
            Z.of_nat (length news) = slots /\
            forall r u, In r news -> worth fl (e_gamma e) (pairs st) r = Some u -> fltb fl u v = false)).
  Proof.
    intros He Hdr Hf Hne Hlen Htab Hsl H.
    pose proof (ok_pairs fl e He (pairs st)) as Hpp.
    pose proof (table_perm _ _ _ Hpp Htab) as Htab'.
    pose proof Htab' as (Hpos & Hnd & Hk & Hb).
    unfold expand in H. rewrite (expand_words_full fl d st Hf Hne) in H. cbn [bind] in H.
    rewrite (margins_spec fl L st _ Hpos Hk Hb) in H. cbn [bind fst] in H.
    set (ps := e_pairs e (pairs st)) in *. set (n := length (sfreqs st)) in *.
    set (tot := fold_left (fadd fl) (ofs fl n (starts ps)) (fofZ fl 0)) in *.
    set (its0 := map (word_item fl st) (List.seq 0 (dsize d))) in *.
    apply bind_ok in H as ([items kn] & Hp & H).
    pose proof (expand_pairs_known e d tot _ ps _ _ _ _ Hp) as Hknown.
    apply expand_pairs_sound in Hp as (new & txts & -> & -> & _ & Htx & Hfrom & _).
    assert (Hspec : forall it, In it new -> exists f, first it = Some f /\ In ((f, second it), icount it) ps /\
              worth fl (e_gamma e) (pairs st) (key_of it) = Some (score it) /\ score_fine fl (score it)).
    { intros it Hit. rewrite Forall_forall in Hfrom. apply Hfrom in Hit.
      destruct (scores_spec fl L e st ps it Htab' Hit) as (f & v & Hff & Hin & Hv & Hsc).
      exists f. split; [easy|]. split; [easy|].
      destruct (pair_counts ps _ _ _ Hpos Hnd Hin) as (C1 & C2 & C3).
      destruct (Hdr _ _ _ _ C1 C2 (conj C3 Hb)) as (v' & Hv' & Hfi).
      rewrite Hv in Hv'. injection Hv' as <-. rewrite Hsc. split; [|easy].
      unfold worth, key_of. rewrite Hff. cbn [fst snd].
      rewrite (starts_perm _ _ f Hpp), (ends_perm _ _ (second it) Hpp), (all_pairs_perm _ _ Hpp). fold ps. now rewrite Hv. }
    assert (Hw0 : Forall (fun it => score it = fmax fl /\ first it = None) its0).
    { unfold its0. apply Forall_forall. intros it Hit. apply in_map_iff in Hit as (i & <- & _). easy. }
    assert (Hnan : Forall (fun it => fnan fl (score it) = false) (its0 ++ new)).
    { apply Forall_app. split.
      - eapply Forall_impl; [|exact Hw0]. intros it [-> _]. apply (max_num fl L).
      - apply Forall_forall. intros it Hit. destruct (Hspec it Hit) as (f & _ & _ & _ & [Hn _]). exact Hn. }
    destruct (sort_items_ok fl e _ He Hnan) as (Hs & Hperm & Hsorted).
    rewrite Hs in H. cbn [bind] in H. set (sl := e_sort e (its0 ++ new)) in *.
    assert (Hcls : Forall (fun it => if is_word fl it then score it = fmax fl else fltb fl (score it) (fmax fl) = true) sl).
    { apply (Permutation_Forall Hperm). apply Forall_app. split.
      - eapply Forall_impl; [|exact Hw0]. intros it [H1 H2]. unfold is_word. now rewrite H2.
      - apply Forall_forall. intros it Hit. destruct (Hspec it Hit) as (f & Hff & _ & _ & [_ Hm]).
        unfold is_word. now rewrite Hff. }
    assert (Hsplit := sorted_split fl L (is_word fl) sl Hsorted Hcls).
    set (front := filter (is_word fl) sl) in *. set (others := filter (fun it => negb (is_word fl it)) sl) in *.
    assert (Hisw : Forall (fun it => is_word fl it = true) its0).
    { eapply Forall_impl; [|exact Hw0]. intros it [_ E]. unfold is_word. now rewrite E. }
    assert (Hisn : Forall (fun it => is_word fl it = false) new).
    { apply Forall_forall. intros it Hit. destruct (Hspec it Hit) as (f & Hff & _). unfold is_word. now rewrite Hff. }
    assert (Hfront : Permutation its0 front).
    { apply (filter_perm (is_word fl)) in Hperm. rewrite filter_app, (filter_all _ _ Hisw), (filter_none _ _ Hisn), app_nil_r in Hperm. exact Hperm. }
    assert (Hothers : Permutation new others).
    { apply (filter_perm (fun it => negb (is_word fl it))) in Hperm. rewrite filter_app in Hperm.
      rewrite filter_none, filter_all in Hperm; [exact Hperm| |].
      - eapply Forall_impl; [|exact Hisn]. intros it E. now rewrite E.
      - eapply Forall_impl; [|exact Hisw]. intros it E. now rewrite E. }
    assert (Hfl : length front = dsize d).
    { rewrite <- (Permutation_length Hfront). unfold its0. now rewrite map_length, seq_length. }
    apply expand_out_stop in H as (taken & rest & out & Htk & -> & -> & Hout & Hpos' & -> & Hstop); [|lia].
    cbn [app]. rewrite Htk in Hsplit.
    assert (Hle : length front <= length taken).
    { destruct (le_lt_dec (length front) (length taken)) as [|Hlt]; [easy|exfalso].
      destruct (app_longer front others taken rest (eq_sym Hsplit)) as (m & E1 & E2); [lia|].
      destruct m as [|it m]; [rewrite E1, app_nil_r in Hlt; lia|].
      destruct Hstop as [->|[(x & r & E & Hneg)|E]]; [discriminate| |lia].
      rewrite E in E2. cbn [app] in E2. injection E2 as <- _.
      assert (Hin : In x its0).
      { apply (Permutation_in x (Permutation_sym Hfront)). rewrite E1. apply in_or_app. right. now left. }
      rewrite Forall_forall in Hw0. destruct (Hw0 x Hin) as [Hx _]. rewrite Hx in Hneg.
      destruct (max_num fl L) as [_ Hm]. congruence. }
    destruct (app_longer taken rest front others Hsplit Hle) as (tk & -> & Hoth).
    apply forall2_split in Hout as (o1 & o2 & -> & Ho1 & Ho2).
    assert (Hold : exists olds, Permutation olds (List.seq 0 (dsize d)) /\ front = map (word_item fl st) olds).
    { destruct (Permutation_map_inv _ _ (Permutation_sym Hfront)) as (l & E & Hl). exists l. split; [|easy]. now symmetry. }
    destruct Hold as (olds & Holds & Efront).
    assert (Hinnew : forall it, In it tk \/ In it rest -> In it new).
    { intros it Hit. apply (Permutation_in it (Permutation_sym Hothers)). rewrite Hoth. now apply in_or_app. }
    exists olds, (map key_of tk), o1, o2.
    split; [easy|]. split; [easy|]. split.
    { rewrite Efront in Ho1. clear - Ho1. revert o1 Ho1. induction olds as [|i olds IH]; intros o1 H; inversion_clear H; constructor.
      - cbn in H0. now apply vget_ok.
      - now apply IH. }
    assert (Hkey : forall it, In it new -> In (key_of it) (pairs st)).
    { intros it Hit. destruct (Hspec it Hit) as (f & Hff & Hin & _).
      unfold key_of. rewrite Hff. now apply (Permutation_in _ (Permutation_sym Hpp)). }
    assert (Htxt : forall it t, In it new -> item_text fl d it = Ok t -> joined (seqs d) (key_of it) t).
    { intros it t Hit Ht. destruct (Hspec it Hit) as (f & Hff & Hin & _).
      destruct (item_text_pair fl d it t f Hff Ht) as (f' & a & b & Hf' & Ha & Hb' & ->).
      exists a, b. unfold key_of. rewrite Hf'. easy. }
    split.
    { intros p Hin. apply in_map_iff in Hin as (it & <- & Hit). apply Hkey, Hinnew. now left. }
    split.
    { assert (Hx : forall it, In it tk -> In it new) by (intros; apply Hinnew; now left).
      clear - Ho2 Hx Htxt. revert o2 Ho2. induction tk as [|it tk IH]; intros o2 H; inversion_clear H; constructor.
      - apply Htxt; [|easy]. apply Hx. now left.
      - apply IH; [|easy]. intros x Hin. apply Hx. now right. }
    split.
    { rewrite map_app, Efront, !map_map. f_equal. }
    split.
    { rewrite fold_left_app. unfold least_share.
      assert (Eacc : fsumZ fl (map snd ps) = fofZ fl (all_pairs (pairs st))).
      { unfold fsumZ. rewrite (fsumZ_exact fl L _ 0).
        - now rewrite (all_pairs_perm _ _ Hpp).
        - lia.
        - apply Forall_forall. intros x Hx. apply in_map_iff in Hx as (p & <- & Hp).
          unfold pos in Hpos. rewrite Forall_forall in Hpos. specialize (Hpos p Hp). lia.
        - exact Hb. }
      assert (E0 : fold_left (share_of (fsumZ fl (map snd ps))) front (minp st) = minp st).
      { rewrite Efront. clear. induction olds as [|i l IH]; [easy|]. exact IH. }
      rewrite E0, Eacc.
      assert (Hx : forall it, In it tk -> exists f, first it = Some f).
      { intros it Hit. destruct (Hspec it (Hinnew it (or_introl Hit))) as (f & Hff & _). now exists f. }
      clear - Hx. generalize (minp st). induction tk as [|it tk IH]; intro m; [easy|]. cbn [fold_left map].
      rewrite IH by (intros y Hy; apply Hx; now right). f_equal. unfold share_of, key_of.
      destruct (Hx it (or_introl eq_refl)) as [f ->]. reflexivity. }
    assert (Hso : StronglySorted (fun a b => fltb fl (fneg fl (score b)) (fneg fl (score a)) = false) (tk ++ rest)).
    { rewrite <- Hoth. apply (sorted_skip _ front). rewrite <- Hsplit, <- Htk. exact Hsorted. }
    split.
    { intros l1 p l2 q l3 v w E Hv Hw.
      destruct (map_eq_app _ _ _ _ E) as (t1 & t2 & Et & E1 & E2).
      destruct t2 as [|ip t2]; [discriminate|]. cbn [map] in E2. injection E2 as <- E2.
      destruct (map_eq_app _ _ _ _ E2) as (t3 & t4 & Et' & E3 & E4).
      destruct t4 as [|iq t4]; [discriminate|]. cbn [map] in E4. injection E4 as <- E4.
      subst tk t2.
      destruct (Hspec ip) as (_ & _ & _ & Wp & _).
      { apply Hinnew. left. apply in_or_app. right. now left. }
      destruct (Hspec iq) as (_ & _ & _ & Wq & _).
      { apply Hinnew. left. apply in_or_app. right. right. apply in_or_app. right. now left. }
      rewrite Wp in Hv. rewrite Wq in Hw. injection Hv as <-. injection Hw as <-.
      replace ((t1 ++ ip :: t3 ++ iq :: t4) ++ rest) with (t1 ++ ip :: t3 ++ iq :: (t4 ++ rest)) in Hso
        by (rewrite <- !app_assoc; cbn [app]; rewrite <- !app_assoc; reflexivity).
      apply sorted_mid in Hso. now rewrite (neg_lt fl L) in Hso. }
    apply Forall_app in Hpos' as [_ Hpos'].
    split.
    { apply Forall_forall. intros p Hin. apply in_map_iff in Hin as (it & <- & Hit).
      destruct (Hspec it (Hinnew it (or_introl Hit))) as (_ & _ & _ & W & _). exists (score it). split; [easy|].
      rewrite Forall_forall in Hpos'. now apply Hpos'. }
    intros p t Hin Hj Hno.
    assert (Hkn : In t (seqs d ++ txts)).
    { apply (Hknown p t); [|easy]. now apply (Permutation_in _ Hpp). }
    apply in_app_or in Hkn as [Hkn|Hkn].
    { exfalso. apply Hno. apply in_or_app. left.
      pose proof (words_texts fl d st) as Hwt. fold its0 in Hwt.
      destruct (forall2_perm _ _ _ _ Hfront Hwt) as (t' & Hpt & Hft').
      rewrite (forall2_fun _ _ _ _ (text_fun fl d) Ho1 Hft'). now apply (Permutation_in t Hpt). }
    destruct (forall2_incl _ _ _ Htx t Hkn) as (it & Hit & Hti).
    assert (Hrest : In it rest).
    { assert (Hin' : In it (tk ++ rest)) by (rewrite <- Hoth; now apply (Permutation_in it Hothers)).
      apply in_app_or in Hin' as [Hin'|]; [|easy]. exfalso. apply Hno. apply in_or_app. right.
      clear - Hin' Ho2 Hti. induction Ho2 as [|x y l l' Hxy _ IH]; [easy|].
      destruct Hin' as [->|Hin']; [left; congruence|right; now apply IH]. }
    destruct (Hspec it Hit) as (_ & _ & _ & W & [Wn _]).
    exists (key_of it), (score it). split; [now apply Hkey|]. split; [now apply Htxt|]. split; [easy|].
    destruct Hstop as [->|[(x & r & E & Hneg)|E]]; [easy| |].
    - left. destruct (fltb fl (score it) (fofZ fl 0)) eqn:E0; [easy|exfalso]. rewrite E in Hrest, Hso.
      destruct Hrest as [->|Hr]; [congruence|].
      apply in_split in Hr as (r1 & r2 & ->).
      apply sorted_mid in Hso. rewrite (neg_lt fl L) in Hso.
      pose proof (le_trans fl L (fofZ fl 0) (score it) (score x) Wn E0 Hso). congruence.
    - right. split.
      + rewrite map_length. rewrite app_length in E. lia.
      + intros q u Hq Hu. apply in_map_iff in Hq as (iq & <- & Hiq).
        destruct (Hspec iq (Hinnew iq (or_introl Hiq))) as (_ & _ & _ & Wq & _).
        rewrite Wq in Hu. injection Hu as <-.
        pose proof (sorted_app _ _ _ _ _ Hso Hiq Hrest) as Hx. cbn in Hx. now rewrite (neg_lt fl L) in Hx.
  Qed.
End Grow.
