(** CoderProofs: the symbol coder is always the numbering of a duplicate-free list of symbols. *)
From Coq Require Import Permutation.
From Verif Require Import Base Maps ModelCoder SpecCoder DictProofs.

Definition codes (k n : nat) : list Z := map Z.of_nat (List.seq k n).
Definition coder_of (syms : list Z) : coder :=
  mkCoder (combine syms (codes 0 (length syms))) (combine (codes 0 (length syms)) syms).

Lemma codes_length k n : length (codes k n) = n.
Proof. unfold codes. now rewrite map_length, seq_length. Qed.
Lemma codes_S k n : codes k (S n) = codes k n ++ [Z.of_nat (k + n)].
Proof. unfold codes. rewrite seq_S, map_app. reflexivity. Qed.

Lemma combine_snoc {A B} (l : list A) (m : list B) a b :
  length l = length m -> combine (l ++ [a]) (m ++ [b]) = combine l m ++ [(a, b)].
Proof.
  revert m. induction l as [|x l IH]; intros [|y m] H; try easy. simpl in *. rewrite IH; congruence.
Qed.

Lemma mset_absent {K V} (eqb : K -> K -> bool) (m : list (K * V)) k v :
  mfind eqb m k = None -> mset eqb m k v = m ++ [(k, v)].
Proof.
  induction m as [|[k' v'] m IH]; simpl; [easy|]. destruct (eqb k k'); [easy|].
  intros H. now rewrite IH.
Qed.

Lemma mfind_app {K V} (eqb : K -> K -> bool) (m1 m2 : list (K * V)) k :
  mfind eqb (m1 ++ m2) k =
  match mfind eqb m1 k with Some v => Some v | None => mfind eqb m2 k end.
Proof. induction m1 as [|[k' v'] m IH]; simpl; [easy|]. now destruct (eqb k k'). Qed.

Lemma mfind_fwd syms k x :
  match mfind Z.eqb (combine syms (codes k (length syms))) x with
  | Some v => exists i, nth_error syms i = Some x /\ v = Z.of_nat (k + i) /\ ~ In x (firstn i syms)
  | None => ~ In x syms
  end.
Proof.
  revert k. induction syms as [|y syms IH]; intros k; simpl; [easy|].
  destruct (Z.eqb_spec x y) as [->|Hn].
  - exists 0. simpl. rewrite Nat.add_0_r. easy.
  - specialize (IH (S k)). unfold codes in IH. destruct (mfind _ _ _) as [v|].
    + destruct IH as (i & Hi & -> & Hn'). exists (S i). simpl. split; [easy|].
      split; [f_equal; lia|]. intros [->|H]; easy.
    + intros [->|H]; easy.
Qed.

Lemma mfind_bwd (syms : list Z) k z :
  match mfind Z.eqb (combine (codes k (length syms)) syms) z with
  | Some x => exists i, nth_error syms i = Some x /\ z = Z.of_nat (k + i)
  | None => ~ (Z.of_nat k <= z < Z.of_nat (k + length syms))%Z
  end.
Proof.
  revert k. induction syms as [|y syms IH]; intros k; simpl; [lia|].
  destruct (Z.eqb_spec z (Z.of_nat k)) as [->|Hn].
  - exists 0. simpl. now rewrite Nat.add_0_r.
  - specialize (IH (S k)). unfold codes in IH. destruct (mfind _ _ _) as [x|].
    + destruct IH as (i & Hi & ->). exists (S i). simpl. split; [easy|f_equal; lia].
    + simpl in IH. lia.
Qed.

Lemma fwd_some syms x i : NoDup syms -> nth_error syms i = Some x ->
  mfind Z.eqb (fwd (coder_of syms)) x = Some (Z.of_nat i).
Proof.
  intros Hn Hi. simpl. pose proof (mfind_fwd syms 0 x) as H. destruct (mfind _ _ _) as [v|].
  - destruct H as (j & Hj & -> & _). simpl. do 2 f_equal.
    apply (proj1 (NoDup_nth_error syms) Hn).
    + apply nth_error_Some. congruence.
    + congruence.
  - exfalso. apply H. eapply nth_error_In; eauto.
Qed.

Lemma fwd_none syms x : ~ In x syms -> mfind Z.eqb (fwd (coder_of syms)) x = None.
Proof.
  intros Hn. simpl. pose proof (mfind_fwd syms 0 x) as H. destruct (mfind _ _ _) as [v|]; [|easy].
  destruct H as (j & Hj & _). now apply nth_error_In in Hj.
Qed.

Lemma bwd_some (syms : list Z) x i : nth_error syms i = Some x ->
  mfind Z.eqb (bwd (coder_of syms)) (Z.of_nat i) = Some x.
Proof.
  intros Hi. simpl. pose proof (mfind_bwd syms 0 (Z.of_nat i)) as H. destruct (mfind _ _ _) as [v|].
  - destruct H as (j & Hj & He). simpl in He. apply Nat2Z.inj in He. congruence.
  - exfalso. apply H. assert (i < length syms) by (apply nth_error_Some; congruence). lia.
Qed.

Lemma bwd_none syms z : (z < 0 \/ Z.of_nat (length syms) <= z)%Z ->
  mfind Z.eqb (bwd (coder_of syms)) z = None.
Proof.
  intros Hz. simpl. pose proof (mfind_bwd syms 0 z) as H. destruct (mfind _ _ _) as [v|]; [|easy].
  destruct H as (j & Hj & ->). assert (j < length syms) by (apply nth_error_Some; congruence). lia.
Qed.

(** Numbering the symbols of [s] after those of [syms]. *)
Definition add1 (l : list Z) (x : Z) : list Z := if in_dec Z.eq_dec x l then l else l ++ [x].
Definition adds (syms : list Z) (s : seq) : list Z := fold_left add1 s syms.

Lemma adds_app syms a b : adds syms (a ++ b) = adds (adds syms a) b.
Proof. apply fold_left_app. Qed.
Lemma add1_nodup l x : NoDup l -> NoDup (add1 l x).
Proof.
  intros H. unfold add1. destruct (in_dec _ _ _) as [|Hn]; [easy|].
  apply NoDup_Add with (a := x) (l := l); [|easy].
  rewrite <- (app_nil_r l) at 1. apply Add_app.
Qed.
Lemma adds_nodup s : forall l, NoDup l -> NoDup (adds l s).
Proof. induction s; intros l H; simpl; [easy|]. apply IHs. now apply add1_nodup. Qed.
Lemma add1_ext l x : exists r, add1 l x = l ++ r.
Proof. unfold add1. destruct (in_dec _ _ _); [exists []|exists [x]]; now rewrite ?app_nil_r. Qed.
Lemma adds_ext s : forall l, exists r, adds l s = l ++ r.
Proof.
  induction s as [|x s IH]; intros l; simpl; [exists []; now rewrite app_nil_r|].
  destruct (IH (add1 l x)) as [r Hr]. destruct (add1_ext l x) as [r' Hr'].
  exists (r' ++ r). now rewrite Hr, Hr', app_assoc.
Qed.
Lemma add1_in l x y : In y (add1 l x) <-> In y l \/ y = x.
Proof.
  unfold add1. destruct (in_dec _ _ _) as [Hi|Hn]; [intuition congruence|].
  rewrite in_app_iff. simpl. intuition congruence.
Qed.
Lemma adds_in s y : forall l, In y (adds l s) <-> In y l \/ In y s.
Proof.
  induction s as [|x s IH]; intros l; simpl; [intuition|].
  rewrite IH, add1_in. intuition congruence.
Qed.
Lemma adds_known s : forall l, (forall x, In x s -> In x l) -> adds l s = l.
Proof.
  induction s as [|x s IH]; intros l H; simpl; [easy|].
  unfold add1 at 1. destruct (in_dec _ _ _) as [Hi|Hn].
  - apply IH. intros y Hy. apply H. now right.
  - exfalso. apply Hn, H. now left.
Qed.

(** Position of a symbol. *)
Fixpoint pos_of (l : list Z) (x : Z) : nat :=
  match l with [] => 0 | y :: t => if Z.eq_dec x y then 0 else S (pos_of t x) end.
Lemma pos_of_nth l x : In x l -> nth_error l (pos_of l x) = Some x.
Proof.
  induction l as [|y l IH]; simpl; [easy|]. intros H. destruct (Z.eq_dec x y) as [->|Hn]; [easy|].
  simpl. apply IH. intuition congruence.
Qed.
Lemma pos_of_app l r x : In x l -> pos_of (l ++ r) x = pos_of l x.
Proof.
  induction l as [|y l IH]; simpl; [easy|]. intros H. destruct (Z.eq_dec x y); [easy|].
  f_equal. apply IH. intuition congruence.
Qed.
Lemma pos_of_lt l x : In x l -> pos_of l x < length l.
Proof. intros H. apply nth_error_Some. rewrite pos_of_nth; easy. Qed.
Lemma pos_of_unique l x i : NoDup l -> nth_error l i = Some x -> pos_of l x = i.
Proof.
  intros Hn Hi. apply (proj1 (NoDup_nth_error l) Hn).
  - apply pos_of_lt. eapply nth_error_In; eauto.
  - rewrite pos_of_nth; [easy|]. eapply nth_error_In; eauto.
Qed.

Lemma encode_symbol_spec syms x : NoDup syms ->
  encode_symbol (coder_of syms) x =
  (Z.of_nat (pos_of (add1 syms x) x), coder_of (add1 syms x)).
Proof.
  intros Hn. unfold encode_symbol. unfold add1. destruct (in_dec Z.eq_dec x syms) as [Hi|Hni].
  - rewrite (fwd_some syms x (pos_of syms x)); [|easy|now apply pos_of_nth].
    rewrite (fwd_some syms x (pos_of syms x)); [easy|easy|now apply pos_of_nth].
  - assert (Hf : length (fwd (coder_of syms)) = length syms).
    { simpl. rewrite combine_length, codes_length. lia. }
    rewrite (fwd_none syms x Hni). rewrite Hf.
    assert (He : mkCoder (mset Z.eqb (fwd (coder_of syms)) x (Z.of_nat (length syms)))
                   (mset Z.eqb (bwd (coder_of syms)) (Z.of_nat (length syms)) x)
                 = coder_of (syms ++ [x])).
    { rewrite (mset_absent _ _ _ _ (fwd_none syms x Hni)).
      rewrite mset_absent by (apply bwd_none; lia).
      unfold coder_of. cbn [fwd bwd]. rewrite app_length. cbn [length]. rewrite Nat.add_1_r, codes_S.
      rewrite !combine_snoc by now rewrite codes_length. reflexivity. }
    rewrite He. rewrite (fwd_some (syms ++ [x]) x (pos_of (syms ++ [x]) x)); [easy| |].
    + pose proof (add1_nodup syms x Hn) as H. unfold add1 in H.
      destruct (in_dec Z.eq_dec x syms); easy.
    + apply pos_of_nth. apply in_app_iff. right. now left.
Qed.

Lemma encode_spec s : forall syms, NoDup syms ->
  encode (coder_of syms) s =
  (map (fun x => Z.of_nat (pos_of (adds syms s) x)) s, coder_of (adds syms s)).
Proof.
  induction s as [|x s IH]; intros syms Hn; simpl; [easy|].
  rewrite encode_symbol_spec by easy. rewrite IH by now apply add1_nodup.
  do 2 f_equal. f_equal. destruct (adds_ext s (add1 syms x)) as [r ->].
  rewrite pos_of_app; [easy|]. apply add1_in. now right.
Qed.

Lemma decode_spec syms s : (forall z, In z s -> (0 <= z < Z.of_nat (length syms))%Z) ->
  exists r, decode (coder_of syms) s = Ok r /\
    Forall2 (fun z x => nth_error syms (Z.to_nat z) = Some x) s r.
Proof.
  induction s as [|z s IH]; intros H; simpl; [now exists []|].
  destruct IH as (r & Hr & Hf). { intros y Hy. apply H. now right. }
  destruct (nth_error syms (Z.to_nat z)) as [x|] eqn:Hx.
  - pose proof (bwd_some syms x (Z.to_nat z) Hx) as Hb. rewrite Z2Nat.id in Hb by (apply H; now left).
    simpl in Hb. rewrite Hb, Hr. simpl. exists (x :: r). split; [easy|]. now constructor.
  - exfalso. apply nth_error_None in Hx. specialize (H z (or_introl eq_refl)). lia.
Qed.

Lemma decode_bad syms s z : In z s -> (z < 0 \/ Z.of_nat (length syms) <= z)%Z ->
  decode (coder_of syms) s = Throw OutOfRange.
Proof.
  induction s as [|y s IH]; simpl; [easy|]. intros [->|Hi] Hz.
  - pose proof (bwd_none syms z Hz) as H. simpl in H. now rewrite H.
  - rewrite (IH Hi Hz). now destruct (mfind _ _ y).
Qed.

Lemma decode_encoded syms s : NoDup syms -> (forall x, In x s -> In x syms) ->
  decode (coder_of syms) (map (fun x => Z.of_nat (pos_of syms x)) s) = Ok s.
Proof.
  intros Hn. induction s as [|x s IH]; intros H; simpl; [easy|].
  pose proof (bwd_some syms x _ (pos_of_nth syms x (H x (or_introl eq_refl)))) as Hb. simpl in Hb.
  rewrite Hb, IH; [easy|]. intros y Hy. apply H. now right.
Qed.

Lemma encode_immutable_spec syms s : NoDup syms ->
  encode_immutable (coder_of syms) s =
  map (fun x => Z.of_nat (pos_of syms x))
      (filter (fun x => if in_dec Z.eq_dec x syms then true else false) s).
Proof.
  intros Hn. induction s as [|x s IH]; [easy|]. cbn [encode_immutable filter].
  destruct (in_dec Z.eq_dec x syms) as [Hi|Hi].
  - rewrite (fwd_some syms x (pos_of syms x)); [|easy|now apply pos_of_nth]. cbn [map]. now rewrite IH.
  - now rewrite (fwd_none syms x Hi).
Qed.

Lemma coder_history_spec ins outs c : coder_history ins outs c ->
  c = coder_of (adds [] (concat ins)) /\
  concat outs = map (fun x => Z.of_nat (pos_of (adds [] (concat ins)) x)) (concat ins).
Proof.
  induction 1 as [|ins outs c s v c' Hh [IH1 IH2] He]; [easy|].
  rewrite !concat_app. simpl. rewrite !app_nil_r, adds_app, map_app.
  rewrite IH1, encode_spec in He by (apply adds_nodup; constructor).
  injection He as <- <-. split; [easy|]. f_equal. rewrite IH2. apply map_ext_in.
  intros x Hx. destruct (adds_ext s (adds [] (concat ins))) as [r ->].
  rewrite pos_of_app; [easy|]. apply adds_in. now right.
Qed.

Lemma adds_length h : length (adds [] h) = length (nodup Z.eq_dec h).
Proof.
  apply Permutation_length. apply NoDup_Permutation.
  - apply adds_nodup. constructor.
  - apply NoDup_nodup.
  - intros x. rewrite adds_in, nodup_In. simpl. tauto.
Qed.

Lemma adds_nth_new h : forall n x, nth_error (adds [] h) n = Some x <-> nth_new h n x.
Proof.
  intros n x. split.
  - intros Hn. assert (Hi : In x h).
    { apply nth_error_In in Hn. apply adds_in in Hn. now destruct Hn. }
    assert (Hs : exists a b, h = a ++ x :: b /\ ~ In x a).
    { clear Hn. induction h as [|y h IH]; [easy|]. destruct (Z.eq_dec y x) as [->|Hd].
      - now exists [], h.
      - destruct Hi as [->|Hi]; [easy|]. destruct (IH Hi) as (a & b & -> & Ha).
        exists (y :: a), b. split; [easy|]. intros [->|H]; easy. }
    destruct Hs as (a & b & -> & Ha). exists a, b. split; [easy|]. split; [easy|].
    rewrite <- adds_length. rewrite adds_app in Hn. simpl in Hn.
    assert (Hadd : add1 (adds [] a) x = adds [] a ++ [x]).
    { unfold add1. destruct (in_dec _ _ _) as [H|]; [|easy]. apply adds_in in H. now destruct H. }
    rewrite Hadd in Hn. destruct (adds_ext b (adds [] a ++ [x])) as [r Hr].
    assert (Hnd : NoDup ((adds [] a ++ [x]) ++ r)).
    { rewrite <- Hr. apply adds_nodup. rewrite <- Hadd. apply add1_nodup, adds_nodup. constructor. }
    rewrite Hr in Hn. symmetry. apply (proj1 (NoDup_nth_error _) Hnd).
    + apply nth_error_Some. congruence.
    + rewrite Hn. rewrite <- app_assoc. rewrite nth_error_app2 by lia. now rewrite Nat.sub_diag.
  - intros (a & b & -> & Ha & <-). rewrite <- adds_length, adds_app. simpl.
    assert (Hadd : add1 (adds [] a) x = adds [] a ++ [x]).
    { unfold add1. destruct (in_dec _ _ _) as [H|]; [|easy]. apply adds_in in H. now destruct H. }
    rewrite Hadd. destruct (adds_ext b (adds [] a ++ [x])) as [r ->].
    rewrite <- app_assoc. rewrite nth_error_app2 by lia. now rewrite Nat.sub_diag.
Qed.

Lemma coder_later_spec c c' syms : coder_later c c' -> NoDup syms -> c = coder_of syms ->
  exists r, c' = coder_of (syms ++ r) /\ NoDup (syms ++ r).
Proof.
  induction 1 as [c|c s c' c'' Hl IH He]; intros Hn Hc.
  - exists []. now rewrite app_nil_r.
  - destruct (IH Hn Hc) as (r & -> & Hn'). rewrite encode_spec in He by easy. simpl in He.
    destruct (adds_ext s (syms ++ r)) as [r' Hr']. exists (r ++ r').
    rewrite app_assoc, <- Hr'. split; [easy|]. now apply adds_nodup.
Qed.

(** In the form of the properties. *)
Lemma coder_roundtrip ins outs c s v c1 c2 :
  coder_history ins outs c -> encode c s = (v, c1) -> coder_later c1 c2 -> decode c2 v = Ok s.
Proof.
  intros Hh He Hl. destruct (coder_history_spec _ _ _ Hh) as [-> _].
  assert (Hn : NoDup (adds [] (concat ins))) by (apply adds_nodup; constructor).
  rewrite encode_spec in He by easy. injection He as <- <-.
  destruct (coder_later_spec _ _ _ Hl (adds_nodup s _ Hn) eq_refl) as (r & -> & Hn').
  rewrite <- (decode_encoded _ s Hn') at 1.
  - do 1 f_equal. apply map_ext_in. intros x Hx. rewrite pos_of_app; [easy|]. apply adds_in. now right.
  - intros x Hx. apply in_app_iff. left. apply adds_in. now right.
Qed.

Lemma coder_dense ins outs c z : coder_history ins outs c ->
  ((exists o, In o outs /\ In z o) <->
   (0 <= z < Z.of_nat (length (nodup Z.eq_dec (concat ins))))%Z).
Proof.
  intros Hh. destruct (coder_history_spec _ _ _ Hh) as [_ Ho]. rewrite <- adds_length.
  assert (Hn : NoDup (adds [] (concat ins))) by (apply adds_nodup; constructor).
  split.
  - intros (o & Ho1 & Ho2). assert (Hz : In z (concat outs)) by (apply in_concat; eauto).
    rewrite Ho in Hz. apply in_map_iff in Hz. destruct Hz as (x & <- & Hx).
    assert (In x (adds [] (concat ins))) by (apply adds_in; now right).
    pose proof (pos_of_lt _ _ H). lia.
  - intros Hz. destruct (nth_error (adds [] (concat ins)) (Z.to_nat z)) as [x|] eqn:Hx.
    + assert (Hi : In x (concat ins)).
      { apply nth_error_In in Hx. apply adds_in in Hx. now destruct Hx. }
      assert (Hc : In z (concat outs)).
      { rewrite Ho. apply in_map_iff. exists x. split; [|easy].
        rewrite (pos_of_unique _ _ _ Hn Hx). lia. }
      apply in_concat in Hc. destruct Hc as (o & ? & ?). eauto.
    + apply nth_error_None in Hx. lia.
Qed.

Lemma coder_first_occurrence ins outs c s v c' : coder_history ins outs c -> encode c s = (v, c') ->
  Forall2 (fun x z => exists n, z = Z.of_nat n /\ nth_new (concat ins ++ s) n x) s v.
Proof.
  intros Hh He. assert (Hh' := ch_encode _ _ _ _ _ _ Hh He).
  destruct (coder_history_spec _ _ _ Hh) as [-> _].
  rewrite encode_spec in He by (apply adds_nodup; constructor). injection He as <- _.
  rewrite <- adds_app.
  assert (Hall : forall x, In x s -> In x (adds [] (concat ins ++ s))).
  { intros x Hx. apply adds_in. right. apply in_app_iff. now right. }
  revert Hall. generalize (adds_nth_new (concat ins ++ s)). generalize (adds [] (concat ins ++ s)).
  intros l Hl. generalize s at 1 3 4 as t. clear - Hl.
  induction t as [|x t IH]; intros H; simpl; constructor.
  - exists (pos_of l x). split; [easy|]. apply Hl, pos_of_nth, H. now left.
  - apply IH. intros y Hy. apply H. now right.
Qed.

Lemma coder_stable ins outs c s v c1 c2 :
  coder_history ins outs c -> encode c s = (v, c1) -> coder_later c1 c2 -> encode c2 s = (v, c2).
Proof.
  intros Hh He Hl. destruct (coder_history_spec _ _ _ Hh) as [-> _].
  assert (Hn : NoDup (adds [] (concat ins))) by (apply adds_nodup; constructor).
  rewrite encode_spec in He by easy. injection He as <- <-.
  destruct (coder_later_spec _ _ _ Hl (adds_nodup s _ Hn) eq_refl) as (r & -> & Hn').
  rewrite encode_spec by easy.
  assert (Hk : adds (adds (adds [] (concat ins)) s ++ r) s = adds (adds [] (concat ins)) s ++ r).
  { apply adds_known. intros x Hx. apply in_app_iff. left. apply adds_in. now right. }
  rewrite Hk. f_equal. apply map_ext_in. intros x Hx. rewrite pos_of_app; [easy|]. apply adds_in. now right.
Qed.

Lemma coder_immutable ins outs c s : coder_history ins outs c ->
  exists known, (forall x, In x known -> In x (concat ins)) /\
    known = filter (fun x => if in_dec Z.eq_dec x (concat ins) then true else false) s /\
    encode c known = (encode_immutable c s, c).
Proof.
  intros Hh. destruct (coder_history_spec _ _ _ Hh) as [-> _].
  set (l := adds [] (concat ins)). assert (Hn : NoDup l) by (apply adds_nodup; constructor).
  eexists. split; [|split; [reflexivity|]].
  - intros x Hx. apply filter_In in Hx. destruct Hx as [_ Hx]. now destruct (in_dec _ _ _).
  - rewrite encode_spec, encode_immutable_spec by easy.
    assert (Hf : filter (fun x => if in_dec Z.eq_dec x (concat ins) then true else false) s =
                 filter (fun x => if in_dec Z.eq_dec x l then true else false) s).
    { apply filter_ext. intros x. unfold l. destruct (in_dec _ x (concat ins)) as [Hi|Hi],
        (in_dec _ x (adds [] (concat ins))) as [Hj|Hj]; try easy.
      - exfalso. apply Hj, adds_in. now right.
      - apply adds_in in Hj. now destruct Hj. }
    rewrite Hf. rewrite adds_known; [easy|].
    intros x Hx. apply filter_In in Hx. destruct Hx as [_ Hx]. now destruct (in_dec _ _ _).
Qed.

Lemma coder_immutable_all ins outs c s : coder_history ins outs c ->
  (forall x, In x s -> In x (concat ins)) -> encode c s = (encode_immutable c s, c).
Proof.
  intros Hh Hs. destruct (coder_immutable _ _ _ s Hh) as (k & _ & Hk & He).
  rewrite <- He. f_equal. rewrite Hk. symmetry. clear Hk He k. induction s as [|x s IH]; simpl; [easy|].
  destruct (in_dec _ _ _) as [_|Hn]; [|exfalso; apply Hn, Hs; now left].
  f_equal. apply IH. intros y Hy. apply Hs. now right.
Qed.

Lemma coder_decode_throws ins outs c v : coder_history ins outs c ->
  (decode c v = Throw OutOfRange <->
     exists z, In z v /\ forall o, In o outs -> ~ In z o) /\
  (decode c v = Throw OutOfRange \/ exists s, decode c v = Ok s /\ encode c s = (v, c)).
Proof.
  intros Hh. pose proof (coder_dense ins outs c) as Hd.
  destruct (coder_history_spec _ _ _ Hh) as [Hc _].
  set (l := adds [] (concat ins)) in *. assert (Hn : NoDup l) by (apply adds_nodup; constructor).
  assert (Hl : length l = length (nodup Z.eq_dec (concat ins))) by apply adds_length.
  assert (Hdec : (exists z, In z v /\ (z < 0 \/ Z.of_nat (length l) <= z)%Z) \/
                 (forall z, In z v -> (0 <= z < Z.of_nat (length l))%Z)).
  { clear. induction v as [|z v IH]; [now right|]. destruct IH as [(y & Hy & H)|IH].
    - left. exists y. split; [now right|easy].
    - destruct (Z_lt_dec z 0); [left; exists z; split; [now left|lia]|].
      destruct (Z_le_dec (Z.of_nat (length l)) z); [left; exists z; split; [now left|lia]|].
      right. intros y [<-|Hy]; [lia|auto]. }
  destruct Hdec as [(z & Hz & Hb)|Hall].
  - subst c. rewrite (decode_bad l v z Hz Hb). split; [|now left]. split; [|easy]. intros _.
    exists z. split; [easy|]. intros o Ho Hzo.
    assert (H : exists o, In o outs /\ In z o) by eauto. apply (Hd _ Hh) in H. lia.
  - subst c. destruct (decode_spec l v Hall) as (r & Hr & Hf). rewrite Hr. split.
    + split; [discriminate|]. intros (z & Hz & Hno). exfalso.
      assert (H : exists o, In o outs /\ In z o).
      { apply (Hd _ Hh). specialize (Hall z Hz). lia. }
      destruct H as (o & Ho & Hzo). exact (Hno o Ho Hzo).
    + right. exists r. split; [easy|]. rewrite encode_spec by easy.
      rewrite adds_known.
      * f_equal. clear Hr Hd Hh. induction Hf as [|z x v' r' Hx Hf IH]; [easy|].
        simpl. rewrite (pos_of_unique l x _ Hn Hx). rewrite IH.
        -- rewrite Z2Nat.id; [easy|]. apply Hall. now left.
        -- intros y Hy. apply Hall. now right.
      * intros x Hx. clear - Hf Hx. induction Hf; [easy|]. destruct Hx as [<-|Hx]; [|auto].
        eapply nth_error_In; eauto.
Qed.
