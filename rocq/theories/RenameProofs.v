(** Proofs for C66: only the pattern of equal symbols matters. *)
From Verif Require Import Base FloatOps Maps ModelDict ModelCoder ModelStat ModelBuilder ModelStream ModelVGram SpecStat SpecBuilder SpecStream DictProofs StreamProofs SpecExtra.
Local Open Scope Z_scope.

(** Equal outcomes, up to [R] on results. *)
Definition agree {A B} (R : A -> B -> Prop) (o : outcome A) (o' : outcome B) : Prop :=
  match o, o' with
  | Ok a, Ok b => R a b
  | UB k, UB k' => k = k'
  | Throw e, Throw e' => e = e'
  | NoTerm, NoTerm => True
  | _, _ => False
  end.
Lemma agree_bind {A B C D} (R : A -> B -> Prop) (Q : C -> D -> Prop) o o' k k' :
  agree R o o' -> (forall a b, R a b -> agree Q (k a) (k' b)) -> agree Q (bind o k) (bind o' k').
Proof. destruct o, o'; cbn; intros H K; try easy; now apply K. Qed.
Lemma agree_refl {A} (o : outcome A) : agree eq o o.
Proof. now destruct o. Qed.
Lemma agree_through {A B C} (g : A -> C) (h : B -> C) R o o' : agree R o o' -> (forall a b, R a b -> h b = g a) -> through h o' = through g o.
Proof. destruct o, o'; cbn; intros H K; try easy; try congruence. f_equal. now apply K. Qed.
Lemma agree_ok {A B} (R : A -> B -> Prop) o o' a : agree R o o' -> o = Ok a -> exists b, o' = Ok b /\ R a b.
Proof. intros H ->. destruct o'; cbn in H; try easy. now exists a0. Qed.

Section R.
  Context (f : Z -> Z) (Hf : forall x y, f x = f y -> x = y).

  Definition cren (c c' : coder) : Prop :=
    (forall x, mfind Z.eqb (fwd c') (f x) = mfind Z.eqb (fwd c) x) /\
    (forall k, mfind Z.eqb (bwd c') k = option_map f (mfind Z.eqb (bwd c) k)) /\ length (fwd c') = length (fwd c).
  Lemma feqb x y : Z.eqb (f x) (f y) = Z.eqb x y.
  Proof. destruct (Z.eqb_spec x y) as [->|H]; [apply Z.eqb_refl|]. apply Z.eqb_neq. intro E. now apply H, Hf. Qed.
  Lemma mset_new (m : list (Z * Z)) k v : mfind Z.eqb m k = None -> length (mset Z.eqb m k v) = S (length m).
  Proof. induction m as [|[k' v'] m IH]; cbn; [easy|]. destruct (Z.eqb k k'); [discriminate|]. intro H. cbn. now rewrite IH. Qed.

  Lemma cren_symbol c c' x : cren c c' -> fst (encode_symbol c' (f x)) = fst (encode_symbol c x) /\ cren (snd (encode_symbol c x)) (snd (encode_symbol c' (f x))).
  Proof.
    intros (H1 & H2 & H3). unfold encode_symbol. rewrite H1. destruct (mfind Z.eqb (fwd c) x) as [v|] eqn:E.
    - rewrite H1, E. cbn. now split.
    - cbn [fwd bwd]. rewrite !mfind_mset, !Z.eqb_refl. cbn [fst snd]. rewrite H3. split; [easy|]. split; [|split]; cbn [fwd bwd].
      + intro y. rewrite !mfind_mset, feqb. destruct (Z.eqb y x); [easy|apply H1].
      + intro k. rewrite !mfind_mset. destruct (Z.eqb k (Z.of_nat (length (fwd c)))); [easy|apply H2].
      + rewrite !mset_new; [now rewrite H3|exact E|now rewrite H1].
  Qed.
  Lemma cren_encode : forall s c c', cren c c' -> fst (encode c' (map f s)) = fst (encode c s) /\ cren (snd (encode c s)) (snd (encode c' (map f s))).
  Proof.
    induction s as [|x s IH]; intros c c' H; [now split|]. cbn [encode map]. destruct (cren_symbol c c' x H) as [E1 C1].
    destruct (encode_symbol c x) as [v c1], (encode_symbol c' (f x)) as [v' c1']. cbn [fst snd] in *. subst v'.
    destruct (IH c1 c1' C1) as [E2 C2]. destruct (encode c1 s) as [vs c2], (encode c1' (map f s)) as [vs' c2']. cbn [fst snd] in *. now subst vs'.
  Qed.
  Lemma cren_immutable s c c' : cren c c' -> encode_immutable c' (map f s) = encode_immutable c s.
  Proof. intro H. induction s as [|x s IH]; [easy|]. cbn. destruct H as (H1 & _). rewrite H1, IH. now destruct (mfind Z.eqb (fwd c) x). Qed.
  Lemma cren_decode w c c' : cren c c' -> agree (fun a b => b = map f a) (decode c w) (decode c' w).
  Proof.
    intro H. induction w as [|k w IH]; [reflexivity|]. cbn. destruct H as (_ & H2 & _). rewrite H2. destruct (mfind Z.eqb (bwd c) k) as [v|]; [|reflexivity].
    cbn. apply (agree_bind _ _ _ _ _ _ IH). intros a b ->. reflexivity.
  Qed.
  Lemma cren_decode_all ws c c' : cren c c' -> agree (fun a b => b = map (map f) a) (decode_all c ws) (decode_all c' ws).
  Proof.
    intro H. induction ws as [|w ws IH]; [reflexivity|]. cbn. apply (agree_bind _ _ _ _ _ _ (cren_decode w c c' H)). intros a b ->.
    apply (agree_bind _ _ _ _ _ _ IH). intros a' b' ->. reflexivity.
  Qed.

  Context (fl : fops).
  Definition zren (z z' : stream fl) : Prop :=
    zsize z' = zsize z /\ zb z' = zb z /\ zdict z' = zdict z /\ zfreqs z' = zfreqs z /\ ztotal z' = ztotal z /\ zminp z' = zminp z /\
    cren (zcoder z) (zcoder z').
  Lemma zren_new size : zren (new_stream fl size) (new_stream fl size).
  Proof. repeat split; easy. Qed.

  Lemma zren_accept e z z' s : zren z z' -> agree zren (s_accept fl e z s) (s_accept fl e z' (map f s)).
  Proof.
    intros (H1 & H2 & H3 & H4 & H5 & H6 & H7). unfold s_accept. destruct (cren_encode s _ _ H7) as [E C].
    destruct (encode (zcoder z) s) as [q c], (encode (zcoder z') (map f s)) as [q' c']. cbn [fst snd] in *. subst q'. rewrite H2.
    apply (agree_bind _ _ _ _ _ _ (agree_refl _)). intros b b' <-. cbn. repeat split; easy || apply C.
  Qed.
  Lemma zren_dict z z' : zren z z' -> the_dict fl z' = the_dict fl z.
  Proof. intros (H1 & H2 & H3 & _). unfold the_dict. now rewrite H2, H3. Qed.
  Lemma zren_put z z' p d : zren z z' -> zren (put_dict fl z p d) (put_dict fl z' p d).
  Proof. intros (H1 & H2 & H3 & H4 & H5 & H6 & H7). unfold put_dict. rewrite H2. repeat split; cbn; easy || apply H7. Qed.
  Lemma zren_parse z z' s : zren z z' -> agree (fun a b => fst b = fst a /\ zren (snd a) (snd b)) (s_parse fl z s) (s_parse fl z' (map f s)).
  Proof.
    intro H. pose proof H as (H1 & H2 & H3 & H4 & H5 & H6 & H7). unfold s_parse. rewrite (cren_immutable s _ _ H7), H2, (zren_dict _ _ H), H4, H5.
    apply (agree_bind _ _ _ _ _ _ (agree_refl _)). intros a a' <-. apply (agree_bind _ _ _ _ _ _ (agree_refl _)). intros [p d] pd' <-.
    apply (agree_bind _ _ _ _ _ _ (agree_refl _)). intros [[ids n] d'] idd <-. cbn. split; [easy|now apply zren_put].
  Qed.
  Lemma zren_update z z' : zren z z' -> agree zren (s_update fl z) (s_update fl z').
  Proof.
    intro H. pose proof H as (H1 & H2 & H3 & H4 & H5 & H6 & H7). unfold s_update. rewrite H2, H3, H4.
    assert (G : agree zren
      ('(fs, b) <- result_freqs fl (zb z) (zfreqs z) ;; Ok (mkStream (zsize z) b (Some (result_ptr fl (zb z))) (zcoder z) fs (isum fs) (Some (get_min_probability fl b))))
      ('(fs, b) <- result_freqs fl (zb z) (zfreqs z) ;; Ok (mkStream (zsize z') b (Some (result_ptr fl (zb z))) (zcoder z') fs (isum fs) (Some (get_min_probability fl b))))).
    { apply (agree_bind _ _ _ _ _ _ (agree_refl _)). intros [fs b] fb <-. cbn. repeat split; cbn; easy || apply H7. }
    destruct (zdict z) as [q|]; [|exact G]. destruct (Nat.eqb q (result_ptr fl (zb z))); [exact H|exact G].
  Qed.
  Lemma zren_alphabet z z' : zren z z' -> agree (fun a b => b = map (map f) a) (s_alphabet fl z) (s_alphabet fl z').
  Proof.
    intro H. pose proof H as (_ & _ & _ & _ & _ & _ & H7). unfold s_alphabet. rewrite (zren_dict _ _ H).
    apply (agree_bind _ _ _ _ _ _ (agree_refl _)). intros [p d] pd <-. now apply cren_decode_all.
  Qed.

  Lemma zren_step z z' op z1 : zren z z' -> sstep fl z op z1 -> exists z1', sstep fl z' (renamed_op f op) z1' /\ zren z1 z1'.
  Proof.
    intros R Hs. destruct op as [e s|s|]; cbn [sstep renamed_op] in *.
    - destruct (agree_ok _ _ _ _ (zren_accept e z z' s R) Hs) as (b & E & Rb). now exists b.
    - destruct Hs as [ids Hs]. destruct (agree_ok _ _ _ _ (zren_parse z z' s R) Hs) as ([ids' b] & E & Ei & Rb). cbn in Ei, Rb. exists b. split; [|exact Rb]. now exists ids'.
    - destruct (agree_ok _ _ _ _ (zren_update z z' R) Hs) as (b & E & Rb). now exists b.
  Qed.
  Lemma zren_hist z0 z0' ops z : zren z0 z0' -> shist fl z0 ops z -> exists z', shist fl z0' (map (renamed_op f) ops) z' /\ zren z z'.
  Proof.
    intros H0 H. induction H as [|ops z op z1 H IH Hs]; [exists z0'; split; [constructor|exact H0]|]. destruct IH as (z' & H' & R).
    destruct (zren_step _ _ _ _ R Hs) as (z1' & Hs' & R'). exists z1'. split; [|exact R']. rewrite map_app. exact (sh_step fl _ _ z' (renamed_op f op) z1' H' Hs').
  Qed.

  Lemma zren_answers z z' : zren z z' -> same_answers f z z'.
  Proof.
    intro H. split; [apply H|]. split; [|split; [|split]].
    - assert (E : through (fun x => x) (s_alphabet fl z') = through (map (map f)) (s_alphabet fl z))
        by exact (agree_through _ _ _ _ _ (zren_alphabet z z' H) (fun a b E => E)).
      rewrite <- E. now destruct (s_alphabet fl z').
    - intro s. exact (agree_through _ _ _ _ _ (zren_parse z z' s H) (fun a b E => proj1 E)).
    - intros e s. exact (agree_through (fun _ => tt) (fun _ => tt) _ _ _ (zren_accept e z z' s H) (fun a b E => eq_refl)).
    - exact (agree_through (fun _ => tt) (fun _ => tt) _ _ _ (zren_update z z' H) (fun a b E => eq_refl)).
  Qed.

  (** IntVGram *)
  Definition vren (v v' : vgram fl) : Prop := zren (vs v) (vs v') /\ viter v' = viter v /\ vfitted v' = vfitted v /\ vcomputed v' = vcomputed v.
  Definition same_run (a b : bool * nat * stream fl) : Prop := fst b = fst a /\ zren (snd a) (snd b).
  Lemma vget_map (xs : list seq) i : agree (fun a b => b = map f a) (vget xs i) (vget (map (map f) xs) i).
  Proof. unfold vget, seq in *. rewrite nth_error_map. destruct (nth_error xs i); cbn; reflexivity. Qed.
  Lemma zren_sample w xs : forall n t z z', zren z z' -> agree same_run (sample fl w xs n t z) (sample fl w (map (map f) xs) n t z').
  Proof.
    induction n as [|n IH]; intros t z z' H; cbn [sample]; [now split|]. rewrite map_length.
    apply (agree_bind _ _ _ _ _ _ (vget_map xs _)). intros x x' ->. apply (agree_bind _ _ _ _ _ _ (zren_accept _ z z' x H)). intros y y' R.
    destruct (w_term w t); [now split|now apply IH].
  Qed.
  Lemma zren_rounds w xs : forall n t z z', zren z z' -> agree same_run (rounds fl w xs n t z) (rounds fl w (map (map f) xs) n t z').
  Proof.
    induction n as [|n IH]; intros t z z' H; cbn [rounds]; [now split|]. rewrite map_length.
    apply (agree_bind _ _ _ _ _ _ (zren_sample w xs _ t z z' H)). intros [[stop t1] y] [[stop' t1'] y'] [E R]. cbn [fst snd] in E, R. injection E as -> ->.
    destruct stop; [now split|]. apply (agree_bind _ _ _ _ _ _ (zren_update _ _ R)). intros u u' R'. now apply IH.
  Qed.
  Lemma zren_recount w fs : forall xs t z z' acc, zren z z' ->
    agree (fun a b => (fst (fst b), snd b) = (fst (fst a), snd a) /\ zren (snd (fst a)) (snd (fst b))) (recount fl w fs xs t z acc) (recount fl w fs (map (map f) xs) t z' acc).
  Proof.
    induction xs as [|x xs IH]; intros t z z' acc H; cbn [recount map]; [now split|]. pose proof H as (H1 & H2 & H3 & H4 & H5 & H6 & H7).
    destruct (cren_encode x _ _ H7) as [E C]. destruct (encode (zcoder z) x) as [q c], (encode (zcoder z') (map f x)) as [q' c']. cbn [fst snd] in *. subst q'.
    rewrite (zren_dict _ _ H), H2. apply (agree_bind _ _ _ _ _ _ (agree_refl _)). intros [p d] pd <-.
    apply (agree_bind _ _ _ _ _ _ (agree_refl _)). intros [[ids n] d'] idd <-. apply (agree_bind _ _ _ _ _ _ (agree_refl _)). intros a a' <-.
    assert (R : zren (mkStream (zsize z) (hput fl (zb z) p d') (zdict z) c (zfreqs z) (ztotal z) (zminp z))
      (mkStream (zsize z') (hput fl (zb z) p d') (zdict z') c' (zfreqs z') (ztotal z') (zminp z'))) by (repeat split; cbn; easy || apply C).
    destruct (w_term w t); [now split|now apply IH].
  Qed.
  Lemma zren_recompute w xs t z z' : zren z z' ->
    agree (fun a b => fst b = fst a /\ zren (snd a) (snd b)) (recompute_freqs fl w xs t z) (recompute_freqs fl w (map (map f) xs) t z').
  Proof.
    intro H. pose proof H as (H1 & H2 & H3 & H4 & H5 & H6 & H7). unfold recompute_freqs. rewrite H2.
    apply (agree_bind _ _ _ _ _ _ (agree_refl _)). intros [fs b] fb <-.
    assert (R : zren (mkStream (zsize z) b (zdict z) (zcoder z) (zfreqs z) (ztotal z) (zminp z))
      (mkStream (zsize z') b (zdict z') (zcoder z') (zfreqs z') (ztotal z') (zminp z'))) by (repeat split; cbn; easy || apply H7).
    apply (agree_bind _ _ _ _ _ _ (zren_recount w fs xs t _ _ _ R)). intros [[[stop t1] y] acc] [[[stop' t1'] y'] acc'] [E (G1 & G2 & G3 & G4 & G5 & G6 & G7)].
    cbn [fst snd] in *. injection E as -> -> ->. cbn. split; [easy|]. rewrite G5. repeat split; cbn; easy || apply G7.
  Qed.
  Lemma vren_fit w v v' xs : vren v v' -> agree (fun a b => fst b = fst a /\ vren (snd a) (snd b)) (fit fl w v xs) (fit fl w v' (map (map f) xs)).
  Proof.
    intros H. pose proof H as (Hz & H1 & H2 & H3). unfold fit. rewrite H1, H2, H3. destruct (vfitted v) eqn:Ef.
    - destruct (vcomputed v) eqn:Ec; [now split|]. apply (agree_bind _ _ _ _ _ _ (zren_recompute w xs _ _ _ Hz)). intros [t z] [t' z'] [E R].
      cbn in *. split; [easy|]. now split.
    - apply (agree_bind _ _ _ _ _ _ (zren_rounds w xs _ _ _ _ Hz)). intros [[stop t] z] [[stop' t'] z'] [E R]. cbn [fst snd] in E, R. injection E as -> ->.
      destruct stop; [cbn; split; [easy|]; split; [exact R|]; cbn; now rewrite H1, Ef, H2, H3|].
      apply (agree_bind _ _ _ _ _ _ (zren_recompute w xs _ _ _ R)). intros [t1 y] [t1' y'] [E R']. cbn in *. split; [easy|]. now split.
  Qed.
  Lemma vren_transform w v v' xs : vren v v' ->
    agree (fun a b => fst b = fst a /\ vren (snd a) (snd b)) (transform fl w v xs) (transform fl w v' (map (map f) xs)).
  Proof.
    intros (Hz & H1 & H2 & H3). unfold transform.
    assert (G : forall xs t z z', zren z z' -> agree (fun a b => fst b = fst a /\ zren (snd a) (snd b)) (transform_loop fl w xs t z) (transform_loop fl w (map (map f) xs) t z')).
    { induction xs0 as [|x xs0 IH]; intros t z z' H; cbn [transform_loop map]; [now split|].
      apply (agree_bind _ _ _ _ _ _ (zren_parse z z' x H)). intros [ids y] [ids' y'] [E R]. cbn [fst snd] in *. subst ids'.
      destruct (w_term w t); [now split|]. apply (agree_bind _ _ _ _ _ _ (IH (S t) _ _ R)). intros [r u] [r' u'] [E R']. cbn in *. now subst r'. }
    apply (agree_bind _ _ _ _ _ _ (G xs 0%nat _ _ Hz)). intros [r z] [r' z'] [E R]. cbn in *. split; [easy|]. split; [exact R|]. cbn. easy.
  Qed.
  Lemma vren_new size iter : vren (new_vgram fl size iter) (new_vgram fl size iter).
  Proof. split; [apply zren_new|easy]. Qed.
  Lemma vren_life v0 v0' ks v : vren v0 v0' -> vlife fl v0 ks v -> exists v', vlife fl v0' (map (renamed_call f) ks) v' /\ vren v v'.
  Proof.
    intros H0 H. induction H as [|ks v k v1 H IH Hs]; [exists v0'; split; [constructor|exact H0]|]. destruct IH as (v' & H' & R).
    assert (G : exists v1', vstep fl v' (renamed_call f k) v1' /\ vren v1 v1').
    { destruct k as [w xs|w xs|op]; cbn [vstep renamed_call] in *.
      - destruct Hs as [dn Hs]. destruct (agree_ok _ _ _ _ (vren_fit w v v' xs R) Hs) as ([dn' b] & E & Ei & Rb). cbn in Ei, Rb. exists b. split; [|exact Rb]. now exists dn'.
      - destruct Hs as [r Hs]. destruct (agree_ok _ _ _ _ (vren_transform w v v' xs R) Hs) as ([r' b] & E & Ei & Rb). cbn in Ei, Rb. exists b. split; [|exact Rb]. now exists r'.
      - destruct Hs as (z & Hs & ->). destruct R as (Rz & R1 & R2 & R3). destruct (zren_step _ _ _ _ Rz Hs) as (z1' & Hs' & R').
        exists (on_stream fl v' z1'). split; [now exists z1'|]. split; [exact R'|easy]. }
    destruct G as (v1' & Hs' & R1). exists v1'. split; [|exact R1]. rewrite map_app. exact (vl_step fl _ _ v' (renamed_call f k) v1' H' Hs').
  Qed.

  Lemma renamed_stream size ops z : shist fl (new_stream fl size) ops z ->
    exists z', shist fl (new_stream fl size) (map (renamed_op f) ops) z' /\ same_answers f z z'.
  Proof. intro H. destruct (zren_hist _ _ _ _ (zren_new size) H) as (z' & H' & R). exists z'. split; [exact H'|now apply zren_answers]. Qed.
  Lemma renamed_vgram size iter ks v : vlife fl (new_vgram fl size iter) ks v ->
    exists v', vlife fl (new_vgram fl size iter) (map (renamed_call f) ks) v' /\ same_answers f (vs v) (vs v') /\
      (forall w xs, through fst (fit fl w v' (map (map f) xs)) = through fst (fit fl w v xs)) /\
      (forall w xs, through fst (transform fl w v' (map (map f) xs)) = through fst (transform fl w v xs)).
  Proof.
    intro H. destruct (vren_life _ _ _ _ (vren_new size iter) H) as (v' & H' & R). exists v'. split; [exact H'|]. split; [now apply zren_answers, R|]. split; intros w xs.
    - exact (agree_through _ _ _ _ _ (vren_fit w v v' xs R) (fun a b E => proj1 E)).
    - exact (agree_through _ _ _ _ _ (vren_transform w v v' xs R) (fun a b E => proj1 E)).
  Qed.
End R.
