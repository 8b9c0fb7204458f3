(** TokProofs: tokenizers. *)
From Coq Require Import Permutation.
From Verif Require Import Base Maps ModelTok SpecTok OrderProofs DictProofs CoderProofs.
Local Open Scope Z_scope.

Lemma mfind_some_in {K V} (eqb : K -> K -> bool) (Heq : forall a b, eqb a b = true <-> a = b)
  (m : list (K * V)) k v : mfind eqb m k = Some v -> In (k, v) m.
Proof.
  induction m as [|[k' v'] m IH]; simpl; [easy|]. destruct (eqb k k') eqn:E.
  - apply Heq in E. subst. intros [= ->]. now left.
  - intros H. right. auto.
Qed.
Lemma mfind_none_in {K V} (eqb : K -> K -> bool) (Heq : forall a b, eqb a b = true <-> a = b)
  (m : list (K * V)) k : mfind eqb m k = None <-> ~ In k (map fst m).
Proof.
  induction m as [|[k' v'] m IH]; simpl; [easy|]. destruct (eqb k k') eqn:E.
  - apply Heq in E. subst. split; [easy|]. intros H. exfalso. apply H. now left.
  - rewrite IH. split; [|tauto]. intros H [->|H']; [|easy].
    assert (eqb k k = true) by now apply Heq. congruence.
Qed.
Lemma mfind_nodup {K V} (eqb : K -> K -> bool) (Heq : forall a b, eqb a b = true <-> a = b)
  (m : list (K * V)) k v : NoDup (map fst m) -> In (k, v) m -> mfind eqb m k = Some v.
Proof.
  induction m as [|[k' v'] m IH]; simpl; [easy|]. inversion 1 as [|? ? Hn Hd]; subst.
  intros [[= -> ->]|Hi].
  - assert (E : eqb k k = true) by now apply Heq. now rewrite E.
  - destruct (eqb k k') eqn:E; [|auto]. apply Heq in E. subst. exfalso. apply Hn.
    apply in_map_iff. now exists (k', v).
Qed.
Lemma Zeqb_iff a b : Z.eqb a b = true <-> a = b.
Proof. apply Z.eqb_eq. Qed.
Lemma seq_eqb_iff a b : seq_eqb a b = true <-> a = b.
Proof.
  revert b. induction a as [|x a IH]; intros [|y b]; simpl; try easy.
  rewrite andb_true_iff, Z.eqb_eq, IH. split; [intros [-> ->]; easy|intros [= -> ->]; easy].
Qed.

(** The two maps are inverse to each other and the ids are 0..n-1. *)
Definition tok_ok (t : tokenizer) : Prop :=
  length (tbwd t) = length (tfwd t) /\
  (forall w i, mfind seq_eqb (tfwd t) w = Some i <-> mfind Z.eqb (tbwd t) i = Some w) /\
  (forall i, mfind Z.eqb (tbwd t) i = None <-> ~ (0 <= i < Z.of_nat (length (tfwd t)))).

Lemma tok_ok_new k : tok_ok (new_tok k).
Proof. split; [easy|]. split; [easy|]. intros i. simpl. split; [lia|easy]. Qed.

(** [t'] knows everything [t] knows. *)
Definition tok_ext (t t' : tokenizer) : Prop :=
  tkind t' = tkind t /\ forall w i, mfind seq_eqb (tfwd t) w = Some i -> mfind seq_eqb (tfwd t') w = Some i.
Lemma tok_ext_refl t : tok_ext t t.
Proof. now split. Qed.
Lemma tok_ext_trans a b c : tok_ext a b -> tok_ext b c -> tok_ext a c.
Proof. intros [H1 H2] [H3 H4]. split; [congruence|auto]. Qed.

Lemma code_token_ok t w : tok_ok t -> exists i t',
  code_token true t w = Ok (i, t') /\ tok_ok t' /\ tok_ext t t' /\ mfind seq_eqb (tfwd t') w = Some i /\
  (forall i0, mfind seq_eqb (tfwd t) w = Some i0 -> i = i0 /\ t' = t) /\
  (forall v j, mfind seq_eqb (tfwd t') v = Some j ->
     mfind seq_eqb (tfwd t) v = Some j \/ v = w).
Proof.
  intros Hok. destruct Hok as (Hlen & Hinv & Hdom). unfold code_token.
  destruct (mfind seq_eqb (tfwd t) w) as [i|] eqn:Hw.
  - exists i, t. rewrite Hw. split; [easy|]. split; [easy|]. split; [apply tok_ext_refl|].
    split; [easy|]. split; [now intros i0 [= ->]|]. intros v j H. now left.
  - rewrite (mset_absent _ _ _ _ Hw).
    assert (Hb : mfind Z.eqb (tbwd t) (Z.of_nat (length (tbwd t))) = None) by (apply Hdom; lia).
    rewrite (mset_absent _ _ _ _ Hb). rewrite Hlen in *.
    set (n := Z.of_nat (length (tfwd t))) in *.
    assert (Hf : forall v, mfind seq_eqb (tfwd t ++ [(w, n)]) v =
              match mfind seq_eqb (tfwd t) v with Some j => Some j
              | None => if seq_eqb v w then Some n else None end).
    { intros v. rewrite mfind_app. now destruct (mfind _ _ v). }
    assert (Hg : forall i, mfind Z.eqb (tbwd t ++ [(n, w)]) i =
              match mfind Z.eqb (tbwd t) i with Some j => Some j
              | None => if Z.eqb i n then Some w else None end).
    { intros i. rewrite mfind_app. now destruct (mfind _ _ i). }
    cbn [tfwd]. rewrite Hf, Hw. assert (E : seq_eqb w w = true) by now apply seq_eqb_iff. rewrite E.
    exists n. eexists. split; [reflexivity|].
    split; [|split; [|split; [|split]]].
    + unfold tok_ok. cbn [tfwd tbwd]. rewrite !app_length, Hlen. cbn [length]. split; [easy|]. split.
      * intros v i. rewrite Hf, Hg. destruct (mfind seq_eqb (tfwd t) v) as [j|] eqn:Hv.
        -- split.
           ++ intros [= <-]. apply Hinv in Hv. now rewrite Hv.
           ++ destruct (mfind Z.eqb (tbwd t) i) as [u|] eqn:Hi.
              ** intros [= ->]. apply Hinv in Hi. congruence.
              ** destruct (Z.eqb i n); [|easy]. intros [= ->]. congruence.
        -- destruct (seq_eqb v w) eqn:Evw.
           ++ apply seq_eqb_iff in Evw. subst v. split.
              ** intros [= <-]. rewrite Hb. now rewrite Z.eqb_refl.
              ** destruct (mfind Z.eqb (tbwd t) i) as [u|] eqn:Hi.
                 --- intros [= ->]. apply Hinv in Hi. congruence.
                 --- destruct (Z.eqb_spec i n); [now subst|easy].
           ++ split; [easy|]. destruct (mfind Z.eqb (tbwd t) i) as [u|] eqn:Hi.
              ** intros [= ->]. apply Hinv in Hi. congruence.
              ** destruct (Z.eqb i n); [|easy]. intros [= ->]. congruence.
      * intros i. rewrite Hg. specialize (Hdom i).
        match goal with |- context [Z.of_nat (?a + 1)%nat] =>
          replace (Z.of_nat (a + 1)%nat) with (n + 1) by (unfold n; rewrite Nat2Z.inj_add; reflexivity) end.
        assert (Hn0 : 0 <= n) by apply Nat2Z.is_nonneg.
        destruct (mfind Z.eqb (tbwd t) i) as [u|].
        -- split; [easy|]. intros H. exfalso. destruct (Z_le_dec 0 i), (Z_lt_dec i n);
             (assert (Hy : ~ (0 <= i < n)) by lia; apply Hdom in Hy; discriminate); lia.
        -- destruct (Z.eqb_spec i n).
           ++ split; [easy|lia].
           ++ assert (~ (0 <= i < n)) by now apply Hdom. split; [|easy]. lia.
    + split; [easy|]. intros v j Hv. cbn [tfwd]. now rewrite Hf, Hv.
    + now rewrite Hf, Hw, E.
    + easy.
    + intros v j. rewrite Hf. destruct (mfind seq_eqb (tfwd t) v); [now left|].
      destruct (seq_eqb v w) eqn:Ev; [|easy]. right. now apply seq_eqb_iff.
Qed.

Lemma code_tokens_ok ws : forall t, tok_ok t -> exists ids t',
  mapM (code_token true) ws t = Ok (ids, t') /\ tok_ok t' /\ tok_ext t t' /\
  Forall2 (fun w i => mfind seq_eqb (tfwd t') w = Some i) ws ids.
Proof.
  induction ws as [|w ws IH]; intros t Ht; simpl.
  - exists [], t. split; [easy|]. split; [easy|]. split; [apply tok_ext_refl|constructor].
  - destruct (code_token_ok t w Ht) as (i & t1 & -> & H1 & He1 & Hi & _). simpl.
    destruct (IH t1 H1) as (ids & t2 & -> & H2 & He2 & Hf). simpl.
    exists (i :: ids), t2. split; [easy|]. split; [easy|].
    split; [now apply tok_ext_trans with t1|]. constructor; [|easy]. now apply He2.
Qed.

Lemma code_tokens_known ws ids : forall t,
  Forall2 (fun w i => mfind seq_eqb (tfwd t) w = Some i) ws ids ->
  mapM (code_token true) ws t = Ok (ids, t).
Proof.
  intros t H. induction H as [|w i ws ids Hw Hf IH]; simpl; [easy|].
  assert (Hc : code_token true t w = Ok (i, t)) by (unfold code_token; now rewrite Hw, Hw).
  rewrite Hc. simpl. rewrite IH. easy.
Qed.

Lemma transform_ok t s n : tok_ok t -> normalize (tkind t) s = Ok n -> exists ids t',
  tok_transform true t s = Ok (ids, t') /\ tok_ok t' /\ tok_ext t t' /\
  Forall2 (fun w i => mfind seq_eqb (tfwd t') w = Some i) (tokenize (tkind t) n) ids.
Proof. intros Ht Hn. unfold tok_transform. rewrite Hn. simpl. now apply code_tokens_ok. Qed.

Lemma transform_inv t s ids t' : tok_ok t -> tok_transform true t s = Ok (ids, t') ->
  exists n, normalize (tkind t) s = Ok n /\ tok_ok t' /\ tok_ext t t' /\
  Forall2 (fun w i => mfind seq_eqb (tfwd t') w = Some i) (tokenize (tkind t) n) ids.
Proof.
  intros Ht H. destruct (normalize (tkind t) s) as [n| | |] eqn:Hn;
    unfold tok_transform in H; rewrite Hn in H; simpl in H; try discriminate.
  destruct (transform_ok t s n Ht Hn) as (ids' & t'' & H' & Hok).
  unfold tok_transform in H'. rewrite Hn in H'. simpl in H'. rewrite H in H'. injection H' as <- <-.
  now exists n.
Qed.

Lemma tok_history_ok t0 t : tok_ok t0 -> tok_history true t0 t -> tok_ok t /\ tok_ext t0 t.
Proof.
  intros H0. induction 1 as [|t s ids t' Hh [IH1 IH2] Ht]; [split; [easy|apply tok_ext_refl]|].
  destruct (transform_inv t s ids t' IH1 Ht) as (n & _ & Hok & He & _).
  split; [easy|now apply tok_ext_trans with t].
Qed.

Lemma decode_tokens t ws ids : tok_ok t ->
  Forall2 (fun w i => mfind seq_eqb (tfwd t) w = Some i) ws ids -> tok_decode t ids = concat ws.
Proof.
  intros (_ & Hinv & _) H. induction H as [|w i ws ids Hw Hf IH]; simpl; [easy|].
  apply Hinv in Hw. rewrite Hw. now rewrite IH.
Qed.

Lemma Forall2_ext_tok t t' ws ids : tok_ext t t' ->
  Forall2 (fun w i => mfind seq_eqb (tfwd t) w = Some i) ws ids ->
  Forall2 (fun w i => mfind seq_eqb (tfwd t') w = Some i) ws ids.
Proof. intros [_ H] Hf. induction Hf; constructor; auto. Qed.

(** Construction from a dense map. *)
Lemma tok_of_map_bwd (m : list (text * Z)) : NoDup (map snd m) -> forall b,
  (forall z, In z (map fst b) -> ~ In z (map snd m)) ->
  fold_left (fun b p => mset Z.eqb b (snd p) (fst p)) m b = b ++ map (fun p => (snd p, fst p)) m.
Proof.
  induction m as [|[w z] m IH]; intros Hn b Hb; simpl; [now rewrite app_nil_r|].
  inversion Hn as [|? ? Hz Hn']; subst.
  rewrite mset_absent.
  - rewrite IH; [now rewrite <- app_assoc|easy|]. intros y Hy. rewrite map_app, in_app_iff in Hy.
    destruct Hy as [Hy|[<-|[]]]; [|easy]. intros Hi. apply (Hb y Hy). simpl. now right.
  - apply (mfind_none_in Z.eqb Zeqb_iff). intros Hi. apply (Hb z Hi). simpl. now left.
Qed.

Definition dense_map (m : list (text * Z)) : Prop :=
  NoDup (map fst m) /\ Permutation (map snd m) (map Z.of_nat (List.seq 0 (length m))).

Lemma in_codes z k n : In z (codes k n) <-> Z.of_nat k <= z < Z.of_nat (k + n).
Proof.
  unfold codes. rewrite in_map_iff. split.
  - intros (x & <- & Hx). apply in_seq in Hx. lia.
  - intros H. exists (Z.to_nat z). split; [lia|]. apply in_seq. lia.
Qed.
Lemma codes_nodup k n : NoDup (codes k n).
Proof.
  unfold codes. apply FinFun.Injective_map_NoDup; [|apply seq_NoDup]. intros a b. apply Nat2Z.inj.
Qed.

Lemma tok_of_map_ok k m : dense_map m -> tok_ok (tok_of_map k m).
Proof.
  intros [Hk Hv].
  assert (Hvn : NoDup (map snd m)).
  { apply (Permutation_NoDup (Permutation_sym Hv)). apply codes_nodup. }
  unfold tok_ok, tok_of_map. cbn [tfwd tbwd]. rewrite tok_of_map_bwd; [|easy|easy].
  simpl. rewrite map_length. split; [easy|].
  assert (Hfst : map fst (map (fun p : text * Z => (snd p, fst p)) m) = map snd m).
  { rewrite map_map. reflexivity. }
  split.
  - intros w i. split; intros H.
    + apply (mfind_some_in _ seq_eqb_iff) in H. apply (mfind_nodup _ Zeqb_iff); [now rewrite Hfst|].
      apply in_map_iff. now exists (w, i).
    + apply (mfind_some_in _ Zeqb_iff) in H. apply in_map_iff in H. destruct H as ([w' i'] & [= <- <-] & H).
      now apply (mfind_nodup _ seq_eqb_iff).
  - intros i. rewrite (mfind_none_in _ Zeqb_iff), Hfst.
    assert (Hi : In i (map snd m) <-> 0 <= i < Z.of_nat (length m)).
    { rewrite <- (in_codes i 0 (length m)). split; apply Permutation_in; [easy|now apply Permutation_sym]. }
    tauto.
Qed.

(** Properties in their final form. *)
Lemma tok_roundtrip_from t0 t s ids t' t'' : tok_ok t0 ->
  tok_history true t0 t -> tok_transform true t s = Ok (ids, t') -> tok_history true t' t'' ->
  exists n, normalize (tkind t0) s = Ok n /\ tok_decode t'' ids = concat (tokenize (tkind t0) n) /\
    tok_transform true t'' s = Ok (ids, t'').
Proof.
  intros H0 Hh Ht Hh'. destruct (tok_history_ok _ _ H0 Hh) as [Hok [Hk _]].
  destruct (transform_inv _ _ _ _ Hok Ht) as (n & Hn & Hok' & He & Hf).
  destruct (tok_history_ok _ _ Hok' Hh') as [Hok'' He'].
  rewrite Hk in *. exists n. split; [easy|].
  pose proof (Forall2_ext_tok _ _ _ _ He' Hf) as Hf'. split; [now apply decode_tokens|].
  unfold tok_transform. destruct He' as [Hk' _], He as [Hk2 _].
  rewrite Hk', Hk2, Hk, Hn. simpl. now apply code_tokens_known.
Qed.

Lemma tok_roundtrip k t s ids t' t'' :
  tok_history true (new_tok k) t -> tok_transform true t s = Ok (ids, t') -> tok_history true t' t'' ->
  exists n, normalize k s = Ok n /\ tok_decode t'' ids = concat (tokenize k n) /\
    tok_transform true t'' s = Ok (ids, t'').
Proof. apply (tok_roundtrip_from (new_tok k)). apply tok_ok_new. Qed.

Lemma Forall2_len {A B} (R : A -> B -> Prop) l l' : Forall2 R l l' -> length l = length l'.
Proof. induction 1; simpl; congruence. Qed.

Lemma Forall2_nth {A B} (R : A -> B -> Prop) l l' i b : Forall2 R l l' -> nth_error l' i = Some b ->
  exists a, nth_error l i = Some a /\ R a b.
Proof.
  intros H. revert i. induction H as [|x y l l' Hxy H IH]; intros [|i] Hi; simpl in *; try discriminate.
  - injection Hi as <-. now exists x.
  - now apply IH.
Qed.

Lemma tok_injective t0 t s1 ids1 t1 t1' s2 ids2 t2 n1 n2 i j z : tok_ok t0 ->
  tok_history true t0 t -> tok_transform true t s1 = Ok (ids1, t1) -> tok_history true t1 t1' ->
  tok_transform true t1' s2 = Ok (ids2, t2) ->
  normalize (tkind t0) s1 = Ok n1 -> normalize (tkind t0) s2 = Ok n2 ->
  nth_error ids1 i = Some z -> nth_error ids2 j = Some z ->
  nth_error (tokenize (tkind t0) n1) i = nth_error (tokenize (tkind t0) n2) j.
Proof.
  intros H0 Hh Ht1 Hh' Ht2 Hn1 Hn2 Hi Hj.
  destruct (tok_history_ok _ _ H0 Hh) as [Hok [Hk _]].
  destruct (transform_inv _ _ _ _ Hok Ht1) as (n1' & Hn1' & Hok1 & He1 & Hf1).
  destruct (tok_history_ok _ _ Hok1 Hh') as [Hok1' He1'].
  destruct (transform_inv _ _ _ _ Hok1' Ht2) as (n2' & Hn2' & Hok2 & He2 & Hf2).
  assert (Hk1 : tkind t1' = tkind t0). { destruct He1' as [-> _], He1 as [-> _]. easy. }
  rewrite Hk in *. rewrite Hk1 in *. rewrite Hn1 in Hn1'. rewrite Hn2 in Hn2'.
  injection Hn1' as <-. injection Hn2' as <-.
  pose proof (Forall2_ext_tok _ _ _ _ He2 (Forall2_ext_tok _ _ _ _ He1' Hf1)) as Hf1'.
  destruct (Forall2_nth _ _ _ _ _ Hf1' Hi) as (a & Ha0 & Ha).
  destruct (Forall2_nth _ _ _ _ _ Hf2 Hj) as (b & Hb0 & Hb).
  destruct Hok2 as (_ & Hinv & _). apply Hinv in Ha. apply Hinv in Hb.
  rewrite Ha in Hb. injection Hb as <-. transitivity (Some a); [exact Ha0|symmetry; exact Hb0].
Qed.

(** Character normalization. *)
Definition kept_find (c : Z) : option Z := mfind Z.eqb kept c.
Definition char_case (c : Z) : bool :=
  match is_alnum c with
  | Ok true => match kept_find c, to_lower c with
               | Some l, Ok l' => (l =? l') && (match is_alnum l with Ok b => b | _ => false end)
                    && (match to_lower l with Ok l'' => l =? l'' | _ => false end)
               | _, _ => false end
  | Ok false => match kept_find c with None => true | _ => false end
  | _ => false
  end.
Lemma char_cases : forallb char_case (codes 0 128) = true.
Proof. vm_compute. reflexivity. Qed.
Lemma kept_nodup : NoDup (map fst kept).
Proof.
  assert (H : nodup Z.eq_dec (map fst kept) = map fst kept) by (vm_compute; reflexivity).
  rewrite <- H. apply NoDup_nodup.
Qed.
Lemma char_ok c : 0 <= c < 128 ->
  (is_alnum c = Ok true /\ exists l, In (c, l) kept /\ to_lower c = Ok l /\ 
      is_alnum l = Ok true /\ to_lower l = Ok l /\ (forall l', In (c, l') kept -> l' = l)) \/
  (is_alnum c = Ok false /\ forall l, ~ In (c, l) kept).
Proof.
  intros Hc. pose proof char_cases as H. rewrite forallb_forall in H.
  specialize (H c). rewrite in_codes in H. specialize (H ltac:(lia)). unfold char_case in H.
  destruct (is_alnum c) as [[|]| | |]; try discriminate.
  - left. split; [easy|]. unfold kept_find in H. destruct (mfind Z.eqb kept c) as [l|] eqn:Hl; [|easy].
    destruct (to_lower c) as [l'| | |]; try discriminate. exists l.
    apply andb_true_iff in H. destruct H as [H H3]. apply andb_true_iff in H. destruct H as [H1 H2].
    apply Z.eqb_eq in H1. subst l'. split; [now apply (mfind_some_in _ Zeqb_iff)|]. split; [easy|].
    destruct (is_alnum l) as [[|]| | |]; try discriminate. split; [easy|].
    destruct (to_lower l) as [l''| | |]; try discriminate. apply Z.eqb_eq in H3. split; [now subst|].
    intros l3 Hl3. apply (mfind_nodup _ Zeqb_iff _ _ _ kept_nodup) in Hl3. congruence.
  - right. split; [easy|]. unfold kept_find in H. destruct (mfind Z.eqb kept c) eqn:Hl; [easy|].
    intros l Hi. apply (mfind_nodup _ Zeqb_iff _ _ _ kept_nodup) in Hi. congruence.
Qed.

Lemma char_normalize s : ascii_text s -> exists n, normalize CharTok s = Ok n /\ normal_form s n /\
  (forall n', normal_form s n' -> n' = n) /\ normalize CharTok n = Ok n.
Proof.
  unfold normalize. induction s as [|c s IH]; intros Hs.
  - exists []. split; [easy|]. split; [constructor|]. split; [|easy]. now inversion 1.
  - destruct IH as (n & Hn & Hf & Hu & Hi). { intros x Hx. apply Hs. now right. }
    simpl in *. destruct (keep_alnum s) as [r| | |] eqn:Hr; try discriminate. simpl in Hn.
    destruct (char_ok c (Hs c (or_introl eq_refl))) as [(Ha & l & Hl & Hlow & Hal & Hll & Hlu)|(Ha & Hno)];
      rewrite Ha; simpl.
    + rewrite Hlow. simpl. rewrite Hn. simpl. exists (l :: n). split; [easy|].
      split; [now constructor|]. split.
      * inversion 1; subst; [f_equal; auto|exfalso; match goal with H : forall l, ~ In (_, l) kept |- _ => exact (H _ Hl) end].
      * simpl. rewrite Hal. simpl. destruct (keep_alnum n) as [r'| | |]; try discriminate. simpl in *.
        rewrite Hll. simpl. now rewrite Hi.
    + exists n. split; [easy|]. split; [now constructor|]. split; [|easy].
      inversion 1; subst; [exfalso; eapply Hno; eassumption|auto].
Qed.

Lemma concat_singles {A} (l : list A) : concat (map (fun c => [c]) l) = l.
Proof. induction l; simpl; congruence. Qed.

Lemma char_roundtrip s t : ascii_text s -> tok_history true (new_tok CharTok) t ->
  exists n ids t', normalize CharTok s = Ok n /\ tok_transform true t s = Ok (ids, t') /\
    length ids = length n /\ tok_decode t' ids = n.
Proof.
  intros Hs Hh. destruct (char_normalize s Hs) as (n & Hn & _).
  destruct (tok_history_ok _ _ (tok_ok_new CharTok) Hh) as [Hok [Hk _]]. simpl in Hk.
  rewrite <- Hk in Hn.
  destruct (transform_ok t s n Hok Hn) as (ids & t' & Ht & Hok' & He & Hf).
  rewrite Hk in *. exists n, ids, t'. split; [easy|]. split; [easy|]. split.
  - apply Forall2_len in Hf. unfold tokenize in Hf. rewrite map_length in Hf. symmetry. exact Hf.
  - rewrite (decode_tokens _ _ _ Hok' Hf). apply concat_singles.
Qed.

Lemma char_non_ascii s a c b : s = a ++ c :: b -> (forall x, In x a -> 0 <= x < 128) ->
  c < -1 -> forall rf t, tkind t = CharTok -> tok_transform rf t s = UB BadCtype.
Proof.
  intros -> Ha Hc rf t Hk. unfold tok_transform. rewrite Hk. unfold normalize.
  assert (H : keep_alnum (a ++ c :: b) = UB BadCtype); [|now rewrite H].
  induction a as [|x a IH]; simpl.
  - unfold is_alnum. destruct (Z.ltb_spec c 0); [|lia]. destruct (Z.eqb_spec c (-1)); [lia|easy].
  - rewrite IH by (intros y Hy; apply Ha; now right).
    unfold is_alnum. destruct (Z.ltb_spec x 0); [|easy]. specialize (Ha x (or_introl eq_refl)). lia.
Qed.

(** Word tokenization. *)
Lemma word_loop_cons_nonempty t c cur : word_loop t (cur ++ [c]) <> [].
Proof.
  revert c cur. induction t as [|x t IH]; intros c cur; simpl.
  - now destruct cur.
  - destruct (cur ++ [c]) eqn:E; [now destruct cur|]. rewrite andb_true_r.
    destruct (x =? 32); [easy|]. apply (IH x (z :: l)).
Qed.
Lemma word_loop_nil t : word_loop t [] = [] -> t = [].
Proof.
  destruct t as [|c t]; [easy|]. simpl. rewrite andb_false_r. intros H.
  exfalso. now apply (word_loop_cons_nonempty t c []) in H.
Qed.

Lemma word_loop_spec t : forall cur, ~ In 32 (tl cur) ->
  (forall w, In w (word_loop t cur) -> w <> [] /\ ~ In 32 (tl w)) /\
  (cur ++ t = join (word_loop t cur) \/
   (cur ++ t = join (word_loop t cur) ++ [32] /\ last (cur ++ t) 0 = 32)).
Proof.
  induction t as [|c t IH]; intros cur Hc; simpl.
  - destruct cur as [|x cur]; simpl.
    + split; [easy|now left].
    + split; [|left; now rewrite app_nil_r]. intros w [<-|[]]. split; [easy|exact Hc].
  - destruct cur as [|x cur].
    + rewrite andb_false_r. simpl. exact (IH [c] (fun H => H)).
    + rewrite andb_true_r. destruct (Z.eqb_spec c 32) as [->|Hn].
      * destruct (IH [] (fun H => H)) as [H1 H2]. split.
        -- intros w [<-|Hw]; [split; [easy|exact Hc]|auto].
        -- destruct (word_loop t []) as [|w ws] eqn:E.
           ++ apply word_loop_nil in E. subst t. right. split; [easy|]. apply last_last.
           ++ simpl app in H2. destruct H2 as [H2|[H2 H3]].
              ** left. rewrite H2. reflexivity.
              ** right. split; [rewrite H2 at 1; simpl; rewrite <- app_assoc; reflexivity|].
                 change ((x :: cur) ++ 32 :: t) with ((x :: cur) ++ [32] ++ t).
                 rewrite app_assoc. rewrite H2. rewrite app_assoc. apply last_last.
      * replace ((x :: cur) ++ c :: t) with (((x :: cur) ++ [c]) ++ t) by now rewrite <- app_assoc.
        apply IH. simpl. intros Hi. apply in_app_iff in Hi. destruct Hi as [Hi|[Hi|[]]]; [|congruence].
        now apply Hc.
Qed.

Lemma word_tokens s :
  (forall w, In w (tokenize WordTok s) -> w <> [] /\ ~ In 32 (tl w)) /\
  (s = join (tokenize WordTok s) \/
   (s = join (tokenize WordTok s) ++ [32] /\ last s 0 = 32)).
Proof. exact (word_loop_spec s [] (fun H => H)). Qed.

Lemma char_tokens s :
  concat (tokenize CharTok s) = s /\ forall w, In w (tokenize CharTok s) -> length w = 1%nat.
Proof.
  split; [apply concat_singles|]. intros w H. apply in_map_iff in H. now destruct H as (c & <- & _).
Qed.
Lemma word_normalize s : normalize WordTok s = Ok s.
Proof. reflexivity. Qed.
Lemma ascii_check s : forallb (fun c => (0 <=? c) && (c <? 128)) s = true -> ascii_text s.
Proof. intros H c Hc. rewrite forallb_forall in H. specialize (H c Hc). lia. Qed.

Lemma tok_fresh_dense k m t s1 ids1 t1 t1' s2 ids2 t2 n1 n2 i j z :
  dense_map m ->
  tok_history true (tok_of_map k m) t -> tok_transform true t s1 = Ok (ids1, t1) ->
  tok_history true t1 t1' -> tok_transform true t1' s2 = Ok (ids2, t2) ->
  normalize k s1 = Ok n1 -> normalize k s2 = Ok n2 ->
  nth_error ids1 i = Some z -> nth_error ids2 j = Some z ->
  nth_error (tokenize k n1) i = nth_error (tokenize k n2) j.
Proof. intros Hd. apply (tok_injective (tok_of_map k m)). now apply tok_of_map_ok. Qed.

Lemma tok_roundtrip_dense k m t s ids t' t'' : dense_map m ->
  tok_history true (tok_of_map k m) t -> tok_transform true t s = Ok (ids, t') ->
  tok_history true t' t'' ->
  exists n, normalize k s = Ok n /\ tok_decode t'' ids = concat (tokenize k n) /\
    tok_transform true t'' s = Ok (ids, t'').
Proof. intros Hd. apply (tok_roundtrip_from (tok_of_map k m)). now apply tok_of_map_ok. Qed.
