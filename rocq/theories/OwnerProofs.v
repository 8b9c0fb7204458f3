(** OwnerProofs: counters count the living hands, and what is gone is what nobody holds. *)
From Verif Require Import Base ModelOwner SpecOwner.
Set Implicit Arguments.

Definition b2n (b : bool) : nat := if b then 1 else 0.
Definition cnt {A} (f : A -> bool) (l : list A) : nat := length (filter f l).
Arguments cnt : simpl never.

Lemma cnt_app {A} (f : A -> bool) l m : cnt f (l ++ m) = cnt f l + cnt f m.
Proof. unfold cnt. now rewrite filter_app, app_length. Qed.

Lemma cnt_one {A} (f : A -> bool) x : cnt f [x] = b2n (f x).
Proof. unfold cnt. cbn. now destruct (f x). Qed.

Lemma cnt_cons {A} (f : A -> bool) x l : cnt f (x :: l) = b2n (f x) + cnt f l.
Proof. unfold cnt. cbn. now destruct (f x). Qed.

Lemma cnt_put {A} (f : A -> bool) : forall l i x y, nth_error l i = Some x ->
  cnt f (put l i y) + b2n (f x) = cnt f l + b2n (f y).
Proof.
  induction l as [|z l IH]; intros [|i] x y E; cbn in E |- *; try discriminate.
  - injection E as ->. rewrite !cnt_cons. lia.
  - rewrite !cnt_cons. specialize (IH i x y E). lia.
Qed.

Lemma put_length {A} : forall (l : list A) i x, length (put l i x) = length l.
Proof. induction l as [|z l IH]; intros [|i] x; cbn; auto. Qed.

Lemma put_same {A} : forall (l : list A) i x y, nth_error l i = Some x -> nth_error (put l i y) i = Some y.
Proof. induction l as [|z l IH]; intros [|i] x y E; cbn in *; try discriminate; eauto. Qed.

Lemma put_other {A} : forall (l : list A) i j y, i <> j -> nth_error (put l i y) j = nth_error l j.
Proof. induction l as [|z l IH]; intros [|i] [|j] y N; cbn; try congruence; auto. Qed.

Lemma cnt_pos {A} (f : A -> bool) : forall l i x, nth_error l i = Some x -> f x = true -> 0 < cnt f l.
Proof.
  induction l as [|z l IH]; intros [|i] x E F; cbn in E; try discriminate; rewrite cnt_cons.
  - injection E as ->. rewrite F. cbn. lia.
  - specialize (IH i x E F). lia.
Qed.

Lemma cnt_le {A} (f g : A -> bool) : forall l, (forall x, f x = true -> g x = true) -> cnt f l <= cnt g l.
Proof.
  induction l as [|z l IH]; intros H; [apply le_n|]. rewrite !cnt_cons. specialize (IH H). specialize (H z).
  destruct (f z), (g z); cbn; lia.
Qed.

Lemma nth_snoc {A} (l : list A) x i y : nth_error (l ++ [x]) i = Some y -> nth_error l i = Some y \/ (i = length l /\ y = x).
Proof.
  intros E. destruct (Nat.lt_ge_cases i (length l)) as [L|L].
  - left. now rewrite nth_error_app1 in E.
  - right. rewrite nth_error_app2 in E by exact L. destruct (i - length l) as [|k] eqn:D; cbn in E.
    + injection E as <-. split; [lia|reflexivity].
    + now destruct k.
Qed.

Lemma nth_last {A} (l : list A) x : nth_error (l ++ [x]) (length l) = Some x.
Proof. rewrite nth_error_app2, Nat.sub_diag by apply le_n. reflexivity. Qed.

Lemma nth_old {A} (l m : list A) i x : nth_error l i = Some x -> nth_error (l ++ m) i = Some x.
Proof. intros E. rewrite nth_error_app1; [exact E|]. apply nth_error_Some. congruence. Qed.

(** Ends of hands in the view. *)
Lemma end_put : forall l h a x, nth_error l h = Some (a, x) -> end_of l h = put l h (a, false).
Proof.
  unfold end_of. induction l as [|z l IH]; intros [|h] a x E; cbn in *; try discriminate.
  - injection E as ->. reflexivity.
  - f_equal. eapply IH. exact E.
Qed.

(** Calls of the history. *)
Definition dels (ps : list oop) (a : nat) : nat := cnt (fun p => match p with ODelete b => b =? a | _ => false end) ps.

Lemma seen_snoc ps p : seen (ps ++ [p]) = see (seen ps) p.
Proof. unfold seen. now rewrite fold_left_app. Qed.

Definition charge (n : nat) (p : oop) (a : nat) : nat :=
  match p with
  | OMake => b2n (n =? a)
  | OHand b | ODelete b => b2n (b =? a)
  | _ => 0
  end.

Lemma charges_app : forall ps n l q a,
  charges n (ps ++ q) a = charges n ps a + charges (fst (fold_left see ps (n, l))) q a.
Proof.
  induction ps as [|p ps IH]; intros n l q a; [reflexivity|].
  destruct p; cbn [app charges fold_left see]; try (erewrite IH; reflexivity);
    rewrite <- Nat.add_assoc; f_equal; apply IH.
Qed.

Lemma charges_snoc ps p a : charges 0 (ps ++ [p]) a = charges 0 ps a + charge (fst (seen ps)) p a.
Proof.
  rewrite (charges_app ps 0 []). fold (seen ps). f_equal. unfold charge, b2n.
  destruct p; cbn [charges]; try reflexivity; destruct (_ =? _); reflexivity.
Qed.

Lemma charges_le ps q a : charges 0 ps a <= charges 0 (ps ++ q) a.
Proof. rewrite (charges_app ps 0 []). lia. Qed.

Definition at_ (a : nat) (p : nat * nat) : bool := fst p =? a.
Definition dead_at (a : nat) (p : nat * nat) : bool := (fst p =? a) && (snd p =? 0).
Definition is_ (b : nat) (h : option nat) : bool := match h with Some c => c =? b | None => false end.
Definition times (l : list nat) (a : nat) : nat := cnt (fun b => b =? a) l.

Record owned (ps : list oop) (o : own) : Prop := {
  ow_made : length (cells o) = fst (seen ps);
  ow_len : length (hands o) = length (snd (seen ps));
  ow_hand : forall h a x, nth_error (snd (seen ps)) h = Some (a, x) ->
    if x then exists b n, nth_error (hands o) h = Some (Some b) /\ nth_error (blocks o) b = Some (a, n)
    else nth_error (hands o) h = Some None;
  ow_count : forall b a n, nth_error (blocks o) b = Some (a, n) -> n = cnt (is_ b) (hands o) /\ a < length (cells o);
  ow_cell : forall a, a < length (cells o) -> nth_error (cells o) a = Some (times (gone o) a =? 0);
  ow_once : forall a, times (gone o) a <= 1;
  ow_new : forall a, length (cells o) <= a -> times (gone o) a = 0;
  ow_gone : forall a, times (gone o) a = cnt (dead_at a) (blocks o) + dels ps a;
  ow_charge : forall a, charges 0 ps a = cnt (at_ a) (blocks o) + dels ps a;
  ow_range : forall h b, nth_error (hands o) h = Some (Some b) -> b < length (blocks o)
}.

Lemma owned_start : owned [] nothing.
Proof.
  split; cbn; try reflexivity; intros;
    try (match goal with H : nth_error [] ?h = Some _ |- _ => now destruct h end); unfold times, cnt; cbn; lia.
Qed.

Lemma hand_cnt o b : (forall h c, nth_error (hands o) h = Some (Some c) -> c < length (blocks o)) ->
  length (blocks o) <= b -> cnt (is_ b) (hands o) = 0.
Proof.
  intros R L. destruct (Nat.eq_0_gt_0_cases (cnt (is_ b) (hands o))) as [E|P]; [exact E|]. exfalso.
  unfold cnt in P. destruct (filter (is_ b) (hands o)) as [|x l] eqn:F; [cbn in P; lia|].
  assert (I : In x (filter (is_ b) (hands o))) by (rewrite F; now left).
  apply filter_In in I as [I E]. destruct (In_nth_error _ _ I) as [h Eh].
  destruct x as [c|]; cbn in E; [|discriminate]. apply Nat.eqb_eq in E. subst c. specialize (R h b Eh). lia.
Qed.

Lemma dels_snoc ps p a : dels (ps ++ [p]) a = dels ps a + match p with ODelete b => b2n (b =? a) | _ => 0 end.
Proof. unfold dels. rewrite cnt_app, cnt_one. destruct p; reflexivity. Qed.

Lemma block_some o h b a n : block_of o h = Some (b, (a, n)) ->
  nth_error (hands o) h = Some (Some b) /\ nth_error (blocks o) b = Some (a, n).
Proof.
  unfold block_of. destruct (nth_error (hands o) h) as [[c|]|]; try discriminate.
  destruct (nth_error (blocks o) c) as [q|] eqn:E; [|discriminate]. intros H. injection H as <- <-. auto.
Qed.

(** A live hand has a block with a positive counter, which points where the view says. *)
Lemma block_here ps o h a : owned ps o -> nth_error (snd (seen ps)) h = Some (a, true) ->
  exists b n, block_of o h = Some (b, (a, S n)).
Proof.
  intros W E. destruct (ow_hand W _ E) as (b & n & Eh & Eb). exists b. destruct (ow_count W _ Eb) as [-> _].
  pose proof (cnt_pos (is_ b) _ _ Eh) as P. cbn in P. specialize (P (Nat.eqb_refl b)).
  destruct (cnt (is_ b) (hands o)) as [|n] eqn:C; [lia|]. exists n. unfold block_of. now rewrite Eh, Eb.
Qed.

Lemma times_snoc l a b : times (l ++ [a]) b = times l b + b2n (a =? b).
Proof. unfold times. now rewrite cnt_app, cnt_one. Qed.

Lemma see_other ps p : match p with OUse _ | OCall _ | ODelete _ => True | _ => False end -> see (seen ps) p = seen ps.
Proof. destruct (seen ps) as [n l]. now destruct p. Qed.

Lemma owned_pass ps o p : match p with OUse _ | OCall _ => True | _ => False end -> owned ps o -> owned (ps ++ [p]) o.
Proof.
  intros P W. destruct W as [A1 A2 A3 A4 A5 A6 A6' A7 A8 A9].
  assert (E : seen (ps ++ [p]) = seen ps) by (rewrite seen_snoc; apply see_other; destruct p; auto).
  split; rewrite ?E; auto.
  - intros a. rewrite dels_snoc, A7. destruct p; try contradiction; lia.
  - intros a. rewrite dels_snoc, charges_snoc, A8. destruct p; try contradiction; cbn; lia.
Qed.

Lemma touch_fine o a o' : touch o a = Fine o' -> o' = o.
Proof. unfold touch. destruct (nth_error (cells o) a) as [[|]|]; intros H; congruence. Qed.

Lemma owned_new ps o : owned ps o -> owned (ps ++ [ONew]) (mkOwn (cells o ++ [true]) (blocks o) (hands o) (gone o)).
Proof.
  intros [A1 A2 A3 A4 A5 A6 A6' A7 A8 A9]. split; rewrite ?seen_snoc; destruct (seen ps) as [n l] eqn:S; cbn [see fst snd cells blocks hands gone] in *; auto.
  - rewrite app_length. cbn. lia.
  - intros b a m E. specialize (A4 b a m E). rewrite app_length. cbn. lia.
  - intros a L. rewrite app_length in L. cbn in L. destruct (Nat.eq_dec a (length (cells o))) as [->|N].
    + rewrite nth_last, A6' by lia. reflexivity.
    + rewrite nth_error_app1 by lia. apply A5. lia.
  - intros a L. rewrite app_length in L. apply A6'. lia.
  - intros a. rewrite dels_snoc, A7. lia.
  - intros a. rewrite dels_snoc, charges_snoc, A8. cbn. lia.
Qed.

Lemma owned_give ps o a p :
  (p = OHand a) -> a < length (cells o) -> owned ps o ->
  owned (ps ++ [p]) (mkOwn (cells o) (blocks o ++ [(a, 1)]) (hands o ++ [Some (length (blocks o))]) (gone o)).
Proof.
  intros -> L [A1 A2 A3 A4 A5 A6 A6' A7 A8 A9].
  split; rewrite ?seen_snoc; destruct (seen ps) as [n l] eqn:S; cbn [see fst snd cells blocks hands gone] in *; auto.
  - rewrite !app_length. cbn. lia.
  - intros h c x E. apply nth_snoc in E as [E|[-> E]].
    + specialize (A3 h c x E). destruct x.
      * destruct A3 as (b & m & Eh & Eb). exists b, m. split; now apply nth_old.
      * now apply nth_old.
    + injection E as -> ->. exists (length (blocks o)), 1. rewrite <- A2. split; apply nth_last.
  - intros b c m E. rewrite cnt_app, cnt_one. cbn [is_]. apply nth_snoc in E as [E|[-> E]].
    + destruct (A4 b c m E) as [-> Lc]. split; [|exact Lc].
      assert (b < length (blocks o)) by (apply nth_error_Some; congruence).
      replace (length (blocks o) =? b) with false by (symmetry; apply Nat.eqb_neq; lia). cbn. lia.
    + injection E as -> ->. rewrite Nat.eqb_refl, (hand_cnt o A9 (le_n _)). cbn. auto.
  - intros c. rewrite cnt_app, cnt_one, dels_snoc, A7. replace (dead_at c (a, 1)) with false by (unfold dead_at; cbn; now rewrite andb_false_r). cbn. lia.
  - intros c. rewrite cnt_app, cnt_one, dels_snoc, charges_snoc, A8. change (at_ c (a, 1)) with (a =? c). unfold charge. lia.
  - intros h b E. rewrite app_length. cbn. apply nth_snoc in E as [E|[-> E]].
    + specialize (A9 h b E). lia.
    + injection E as ->. lia.
Qed.

Lemma owned_make ps o : owned ps o ->
  owned (ps ++ [OMake]) (mkOwn (cells o ++ [true]) (blocks o ++ [(length (cells o), 1)]) (hands o ++ [Some (length (blocks o))]) (gone o)).
Proof.
  intros W. pose proof (owned_new W) as W1.
  assert (L : length (cells o) < length (cells o ++ [true])) by (rewrite app_length; cbn; lia).
  pose proof (owned_give eq_refl (L : length (cells o) < length (cells (mkOwn (cells o ++ [true]) (blocks o) (hands o) (gone o)))) W1) as W2.
  cbn [cells blocks hands gone] in W2.
  assert (S : seen ((ps ++ [ONew]) ++ [OHand (length (cells o))]) = seen (ps ++ [OMake])).
  { rewrite !seen_snoc. pose proof (ow_made W) as E. destruct (seen ps) as [n l]. cbn in E |- *. now rewrite E. }
  destruct W2 as [A1 A2 A3 A4 A5 A6 A6' A7 A8 A9]. cbn [cells blocks hands gone] in *. rewrite S in *.
  split; cbn [cells blocks hands gone]; auto.
  - intros a. rewrite A7, !dels_snoc. lia.
  - intros a. specialize (A8 a). rewrite !charges_snoc, !dels_snoc in A8. rewrite charges_snoc, dels_snoc.
    rewrite <- (ow_made W). unfold charge in *. lia.
Qed.

Lemma nth_see l h a : nth_error l h = Some (a, true) -> nth h l (0, false) = (a, true).
Proof. apply nth_error_nth. Qed.

(** A hand of the model is a live hand of the view. *)
Lemma hand_seen ps o h b a n : owned ps o -> nth_error (hands o) h = Some (Some b) -> nth_error (blocks o) b = Some (a, n) ->
  nth_error (snd (seen ps)) h = Some (a, true).
Proof.
  intros W Eh Eb. assert (L : h < length (snd (seen ps))).
  { rewrite <- (ow_len W). apply nth_error_Some. congruence. }
  destruct (nth_error (snd (seen ps)) h) as [[c x]|] eqn:E; [|apply nth_error_None in E; lia].
  pose proof (ow_hand W _ E) as H. destruct x; [|congruence].
  destruct H as (b' & n' & Eh' & Eb'). rewrite Eh in Eh'. injection Eh' as <-. congruence.
Qed.

Lemma owned_share ps o h b a n : nth_error (hands o) h = Some (Some b) -> nth_error (blocks o) b = Some (a, n) ->
  owned ps o ->
  owned (ps ++ [OShare h]) (mkOwn (cells o) (put (blocks o) b (a, S n)) (hands o ++ [Some b]) (gone o)).
Proof.
  intros Eh Eb W. pose proof (hand_seen _ W Eh Eb) as Ev.
  assert (P : n <> 0).
  { destruct (ow_count W _ Eb) as [-> _]. pose proof (cnt_pos (is_ b) _ _ Eh (Nat.eqb_refl b)). lia. }
  destruct W as [A1 A2 A3 A4 A5 A6 A6' A7 A8 A9].
  split; rewrite ?seen_snoc; destruct (seen ps) as [k l] eqn:Sn; cbn [see fst snd cells blocks hands gone] in *; auto.
  - rewrite !app_length. cbn. lia.
  - intros g c x E. apply nth_snoc in E as [E|[-> E]].
    + specialize (A3 g c x E). destruct x.
      * destruct A3 as (b' & m & Eh' & Eb'). exists b'. destruct (Nat.eq_dec b b') as [<-|N].
        -- rewrite Eb in Eb'. injection Eb' as <- <-. exists (S n). split; [now apply nth_old|]. eapply put_same, Eb.
        -- exists m. split; [now apply nth_old|]. now rewrite put_other.
      * now apply nth_old.
    + injection E as -> ->. rewrite (nth_see _ _ Ev). cbn. exists b, (S n). split; [rewrite <- A2; apply nth_last|].
      eapply put_same, Eb.
  - intros b' c m E. rewrite cnt_app, cnt_one. cbn [is_]. destruct (Nat.eq_dec b b') as [<-|N].
    + rewrite (put_same _ _ _ Eb) in E. injection E as <- <-. destruct (A4 b a n Eb) as [-> L]. rewrite Nat.eqb_refl. cbn. split; [lia|exact L].
    + rewrite put_other in E by exact N. destruct (A4 b' c m E) as [-> L]. split; [|exact L].
      replace (b =? b') with false by (symmetry; now apply Nat.eqb_neq). cbn. lia.
  - intros c. pose proof (cnt_put (dead_at c) _ _ (a, S n) Eb) as Q. unfold dead_at at 2 4 in Q. cbn in Q.
    replace (n =? 0) with false in Q by (symmetry; now apply Nat.eqb_neq). rewrite andb_false_r in Q. cbn in Q.
    rewrite dels_snoc, A7. lia.
  - intros c. pose proof (cnt_put (at_ c) _ _ (a, S n) Eb) as Q. unfold at_ in Q at 2 4. cbn in Q.
    rewrite dels_snoc, charges_snoc, A8. cbn. lia.
  - intros g b' E. rewrite put_length. apply nth_snoc in E as [E|[-> E]]; [now apply (A9 g)|]. injection E as ->. apply nth_error_Some. congruence.
Qed.

(** The end of a hand, before anything is deleted: the books are right but for what is due. *)
Definition due (a : nat) (x : bool) (ps : list oop) (o : own) : Prop :=
  length (cells o) = fst (seen ps) /\ length (hands o) = length (snd (seen ps)) /\
  (forall h c x, nth_error (snd (seen ps)) h = Some (c, x) ->
    if x then exists b n, nth_error (hands o) h = Some (Some b) /\ nth_error (blocks o) b = Some (c, n)
    else nth_error (hands o) h = Some None) /\
  (forall b c n, nth_error (blocks o) b = Some (c, n) -> n = cnt (is_ b) (hands o) /\ c < length (cells o)) /\
  (forall c, c < length (cells o) -> nth_error (cells o) c = Some (times (gone o) c =? 0)) /\
  (forall c, times (gone o) c <= 1) /\
  (forall c, length (cells o) <= c -> times (gone o) c = 0) /\
  (forall c, times (gone o) c + b2n (x && (a =? c)) = cnt (dead_at c) (blocks o) + dels ps c) /\
  (forall c, charges 0 ps c = cnt (at_ c) (blocks o) + dels ps c) /\
  (forall h b, nth_error (hands o) h = Some (Some b) -> b < length (blocks o)).

Lemma due_none a ps o : due a false ps o -> owned ps o.
Proof. intros (A1 & A2 & A3 & A4 & A5 & A6 & A6' & A7 & A8 & A9). split; auto. intros c. rewrite <- A7. cbn. lia. Qed.

Lemma due_pay a ps o o' : due a true ps o -> delete o a = Fine o' -> owned ps o'.
Proof.
  intros (A1 & A2 & A3 & A4 & A5 & A6 & A6' & A7 & A8 & A9) H. unfold delete in H.
  destruct (nth_error (cells o) a) as [[|]|] eqn:E; try discriminate. injection H as <-.
  assert (L : a < length (cells o)) by (apply nth_error_Some; congruence).
  pose proof (A5 a L) as Z. rewrite E in Z. injection Z as Z. symmetry in Z. apply Nat.eqb_eq in Z.
  split; cbn [cells blocks hands gone]; auto.
  - now rewrite put_length.
  - intros b c n Eb. rewrite put_length. auto.
  - intros c Lc. rewrite put_length in Lc. rewrite times_snoc. destruct (Nat.eq_dec a c) as [<-|N].
    + rewrite (put_same _ _ _ E), Nat.eqb_refl. cbn. f_equal. symmetry. apply Nat.eqb_neq. lia.
    + rewrite put_other by exact N. replace (a =? c) with false by (symmetry; now apply Nat.eqb_neq).
      cbn. rewrite Nat.add_0_r. auto.
  - intros c. rewrite times_snoc. destruct (Nat.eq_dec a c) as [<-|N].
    + rewrite Z. destruct (a =? a); cbn; lia.
    + replace (a =? c) with false by (symmetry; now apply Nat.eqb_neq). cbn. specialize (A6 c). lia.
  - intros c Lc. rewrite put_length in Lc. rewrite times_snoc, (A6' c Lc).
    replace (a =? c) with false by (symmetry; apply Nat.eqb_neq; lia). reflexivity.
  - intros c. rewrite times_snoc. specialize (A7 c). cbn in A7. lia.
Qed.

Lemma due_drop ps o h b a n : nth_error (hands o) h = Some (Some b) -> nth_error (blocks o) b = Some (a, n) ->
  owned ps o -> n <> 0 /\
  due a (n =? 1) (ps ++ [ODrop h]) (mkOwn (cells o) (put (blocks o) b (a, pred n)) (put (hands o) h None) (gone o)).
Proof.
  intros Eh Eb W. pose proof (hand_seen _ W Eh Eb) as Ev.
  assert (P : n <> 0).
  { destruct (ow_count W _ Eb) as [-> _]. pose proof (cnt_pos (is_ b) _ _ Eh (Nat.eqb_refl b)). lia. }
  split; [exact P|]. destruct W as [A1 A2 A3 A4 A5 A6 A6' A7 A8 A9].
  unfold due. rewrite seen_snoc. destruct (seen ps) as [k l] eqn:Sn. cbn [see fst snd cells blocks hands gone] in *.
  rewrite (end_put _ _ Ev). rewrite !put_length.
  repeat split; auto.
  - intros g c x E. destruct (Nat.eq_dec h g) as [<-|N].
    + rewrite (put_same _ _ _ Ev) in E. injection E as <- <-. eapply put_same, Eh.
    + rewrite put_other in E by exact N. rewrite put_other by exact N. specialize (A3 g c x E). destruct x; [|exact A3].
      destruct A3 as (b' & m & Eh' & Eb'). exists b'. destruct (Nat.eq_dec b b') as [<-|M].
      * rewrite Eb in Eb'. injection Eb' as <- <-. exists (pred n). split; [exact Eh'|]. eapply put_same, Eb.
      * exists m. split; [exact Eh'|]. now rewrite put_other.
  - pose proof (cnt_put (is_ b0) _ _ None Eh) as Q. cbn [is_ b2n] in Q. destruct (Nat.eq_dec b b0) as [<-|N].
    + rewrite (put_same _ _ _ Eb) in H. injection H as <- <-. destruct (A4 b a n Eb) as [-> L]. rewrite Nat.eqb_refl in Q. cbn in Q. lia.
    + rewrite put_other in H by exact N. destruct (A4 _ _ _ H) as [-> L].
      replace (b =? b0) with false in Q by (symmetry; now apply Nat.eqb_neq). cbn in Q. lia.
  - destruct (Nat.eq_dec b b0) as [<-|N].
    + rewrite (put_same _ _ _ Eb) in H. injection H as <- <-. now apply (A4 b a n).
    + rewrite put_other in H by exact N. now apply (A4 _ _ _ H).
  - intros c. pose proof (cnt_put (dead_at c) _ _ (a, pred n) Eb) as Q. unfold dead_at at 2 4 in Q. cbn [fst snd] in Q.
    rewrite dels_snoc, A7. destruct n as [|[|n]]; [congruence| |]; cbn in Q |- *; rewrite ?andb_false_r, ?andb_true_r in Q; cbn in Q; lia.
  - intros c. pose proof (cnt_put (at_ c) _ _ (a, pred n) Eb) as Q. unfold at_ at 2 4 in Q. cbn [fst snd] in Q.
    rewrite dels_snoc, charges_snoc, A8. cbn. lia.
  - intros g b' E. destruct (Nat.eq_dec h g) as [<-|N].
    + rewrite (put_same _ _ _ Eh) in E. discriminate.
    + rewrite put_other in E by exact N. eauto.
Qed.

Lemma due_delete ps o a : owned ps o -> due a true (ps ++ [ODelete a]) o.
Proof.
  intros [A1 A2 A3 A4 A5 A6 A6' A7 A8 A9]. unfold due.
  assert (E : seen (ps ++ [ODelete a]) = seen ps) by (rewrite seen_snoc; now apply see_other). rewrite E.
  repeat split; auto; try (eapply A4; eassumption).
  - intros c. rewrite dels_snoc, A7. cbn. lia.
  - intros c. rewrite dels_snoc, charges_snoc, A8. cbn. lia.
Qed.

Lemma owned_step ps o p o' : owned ps o -> ostep o p = Fine o' -> owned (ps ++ [p]) o'.
Proof.
  intros W H. destruct p; cbn [ostep] in H.
  - injection H as <-. now apply owned_new.
  - injection H as <-. now apply owned_make.
  - destruct (a <? length (cells o)) eqn:L; [|discriminate]. apply Nat.ltb_lt in L. injection H as <-. now apply owned_give.
  - destruct (block_of o h) as [[b [a n]]|] eqn:E; [|discriminate]. apply block_some in E as [Eh Eb]. injection H as <-.
    now apply owned_share.
  - destruct (block_of o h) as [[b [a n]]|] eqn:E; [|discriminate]. apply touch_fine in H as ->. now apply owned_pass.
  - apply touch_fine in H as ->. now apply owned_pass.
  - destruct (block_of o h) as [[b [a n]]|] eqn:E; [|discriminate]. apply block_some in E as [Eh Eb].
    destruct (due_drop _ Eh Eb W) as [P D]. destruct (n =? 1) eqn:N.
    + eapply due_pay; eassumption.
    + injection H as <-. eapply due_none, D.
  - eapply due_pay; [|exact H]. now apply due_delete.
Qed.

Lemma orun_snoc : forall ps o p, orun o (ps ++ [p]) = match orun o ps with Fine o' => ostep o' p | Bad m => Bad m end.
Proof.
  induction ps as [|q ps IH]; intros o p; cbn; [now destruct (ostep o p)|].
  destruct (ostep o q); [apply IH|reflexivity].
Qed.

Lemma owned_run ps o : orun nothing ps = Fine o -> owned ps o.
Proof.
  revert o. induction ps as [|p ps IH] using rev_ind; intros o H.
  - injection H as <-. apply owned_start.
  - rewrite orun_snoc in H. destruct (orun nothing ps) as [o1|] eqn:E; [|discriminate]. eapply owned_step; eauto.
Qed.

(** The blocks of a thing nobody holds have counter 0. *)
Lemma unheld_dead ps o a : owned ps o -> ~ held ps a -> cnt (dead_at a) (blocks o) = cnt (at_ a) (blocks o).
Proof.
  intros W N. unfold cnt. f_equal.
  assert (H : forall x, In x (blocks o) -> dead_at a x = at_ a x).
  { intros [c n] I. unfold dead_at, at_. cbn. destruct (c =? a) eqn:E; [|reflexivity]. cbn. apply Nat.eqb_eq in E. subst c.
    destruct (In_nth_error _ _ I) as [b Eb]. destruct (ow_count W _ Eb) as [-> _].
    apply Nat.eqb_eq. destruct (cnt (is_ b) (hands o)) as [|k] eqn:C; [reflexivity|]. exfalso. apply N.
    unfold cnt in C. destruct (filter (is_ b) (hands o)) as [|x l] eqn:F; [discriminate|].
    assert (J : In x (filter (is_ b) (hands o))) by (rewrite F; now left). apply filter_In in J as [J E].
    destruct x as [c|]; cbn in E; [|discriminate]. apply Nat.eqb_eq in E. subst c.
    destruct (In_nth_error _ _ J) as [h Eh]. pose proof (hand_seen _ W Eh Eb) as V.
    unfold held. eapply nth_error_In, V. }
  induction (blocks o) as [|x l IH]; [reflexivity|]. cbn. rewrite (H x) by now left.
  rewrite IH; [reflexivity|]. intros y I. apply H. now right.
Qed.

(** A thing somebody holds has a block that is not dead. *)
Lemma held_alive ps o a : owned ps o -> held ps a -> cnt (dead_at a) (blocks o) < cnt (at_ a) (blocks o).
Proof.
  intros W H. apply In_nth_error in H as [h E]. destruct (block_here _ W E) as (b & n & B).
  apply block_some in B as [_ Eb]. clear - Eb. revert b Eb. induction (blocks o) as [|x l IH]; intros [|b] Eb; cbn in Eb; try discriminate.
  - injection Eb as ->. rewrite !cnt_cons. unfold dead_at at 1, at_ at 1. cbn. rewrite Nat.eqb_refl. cbn.
    assert (cnt (dead_at a) l <= cnt (at_ a) l); [|lia].
    apply cnt_le. intros y. unfold dead_at, at_. destruct (fst y =? a); auto.
  - rewrite !cnt_cons. specialize (IH b Eb).
    assert (b2n (dead_at a x) <= b2n (at_ a x)); [|lia]. unfold dead_at, at_. destruct (fst x =? a), (snd x =? 0); cbn; lia.
Qed.

Lemma written_left ps q : written (ps ++ q) -> written ps.
Proof. intros H u p w E. apply (H u p (w ++ q)). rewrite E, <- app_assoc. reflexivity. Qed.
Lemma written_last ps p : written (ps ++ [p]) -> can (seen ps) p.
Proof. intros H. now apply (H ps p []). Qed.

Lemma alive_cell ps o a : owned ps o -> a < length (cells o) -> times (gone o) a = 0 -> nth_error (cells o) a = Some true.
Proof. intros W L Z. rewrite (ow_cell W L), Z. reflexivity. Qed.

(** With one responsible for everything at most, nothing goes wrong. *)
Lemma safe ps : written ps -> one_charge ps -> calls_held ps -> exists o, orun nothing ps = Fine o.
Proof.
  induction ps as [|p ps IH] using rev_ind; intros Wr On Ca; [now eexists|].
  destruct IH as [o E].
  { eapply written_left, Wr. }
  { intros a. specialize (On a). pose proof (charges_le ps [p] a). lia. }
  { intros u a w H. apply (Ca u a (w ++ [p])). rewrite H, <- app_assoc. reflexivity. }
  pose proof (owned_run _ E) as W. pose proof (written_last _ _ Wr) as C. rewrite orun_snoc, E.
  assert (Al : forall a, held ps a -> a < length (cells o) /\ times (gone o) a = 0).
  { intros a H. split.
    - apply In_nth_error in H as [h Eh]. destruct (block_here _ W Eh) as (b & n & B). apply block_some in B as [_ Eb].
      now destruct (ow_count W _ Eb).
    - pose proof (held_alive _ W H) as L. pose proof (ow_gone W a) as G. pose proof (ow_charge W a) as Q.
      specialize (On a). pose proof (charges_le ps [p] a). lia. }
  destruct p; cbn [ostep can] in *.
  - now eexists.
  - now eexists.
  - rewrite <- (ow_made W) in C. apply Nat.ltb_lt in C. rewrite C. now eexists.
  - destruct C as [a C]. destruct (block_here _ W C) as (b & n & B). rewrite B. now eexists.
  - destruct C as [a C]. destruct (block_here _ W C) as (b & n & B). rewrite B. unfold touch.
    destruct (Al a) as [L Z]; [eapply nth_error_In, C|]. rewrite (alive_cell W L Z). now eexists.
  - unfold touch. assert (Z : times (gone o) a = 0).
    { destruct (Ca ps a [] eq_refl) as [Z|H]; [|now apply Al].
      pose proof (ow_gone W a) as G. pose proof (ow_charge W a) as Q.
      assert (cnt (dead_at a) (blocks o) <= cnt (at_ a) (blocks o)); [|lia].
      apply cnt_le. intros y. unfold dead_at, at_. destruct (fst y =? a); auto. }
    rewrite <- (ow_made W) in C. rewrite (alive_cell W C Z). now eexists.
  - destruct C as [a C]. destruct (block_here _ W C) as (b & n & B). rewrite B.
    destruct (Al a) as [L Z]; [eapply nth_error_In, C|]. destruct (S n =? 1); [|now eexists].
    unfold delete. cbn [cells blocks hands gone]. rewrite (alive_cell W L Z). now eexists.
  - rewrite <- (ow_made W) in C. assert (Z : times (gone o) a = 0).
    { specialize (On a). rewrite charges_snoc in On. cbn in On. rewrite Nat.eqb_refl in On. cbn in On.
      pose proof (ow_gone W a) as G. pose proof (ow_charge W a) as Q.
      assert (cnt (dead_at a) (blocks o) <= cnt (at_ a) (blocks o)); [|lia].
      apply cnt_le. intros y. unfold dead_at, at_. destruct (fst y =? a); auto. }
    unfold delete. rewrite (alive_cell W C Z). now eexists.
Qed.

Lemma times_occ l a : times l a = count_occ Nat.eq_dec l a.
Proof.
  unfold times. induction l as [|b l IH]; [reflexivity|]. rewrite cnt_cons, IH. cbn.
  destruct (Nat.eq_dec b a) as [->|N]; [now rewrite Nat.eqb_refl|].
  replace (b =? a) with false by (symmetry; now apply Nat.eqb_neq). reflexivity.
Qed.

(** Deleted at most once, and nothing that was not somebody's to delete. *)
Lemma once ps o a : orun nothing ps = Fine o -> count_occ Nat.eq_dec (gone o) a <= Nat.min 1 (charges 0 ps a).
Proof.
  intros E. pose proof (owned_run _ E) as W. rewrite <- times_occ. pose proof (ow_once W a).
  pose proof (ow_gone W a) as G. pose proof (ow_charge W a) as Q.
  assert (cnt (dead_at a) (blocks o) <= cnt (at_ a) (blocks o)); [|lia].
  apply cnt_le. intros y. unfold dead_at, at_. destruct (fst y =? a); auto.
Qed.

(** What nobody holds any more is gone, if somebody was in charge. *)
Lemma unheld_gone ps o a : orun nothing ps = Fine o -> ~ held ps a -> count_occ Nat.eq_dec (gone o) a = charges 0 ps a.
Proof.
  intros E N. pose proof (owned_run _ E) as W. rewrite <- times_occ, (ow_gone W), (ow_charge W), (unheld_dead _ W N). reflexivity.
Qed.

(** What has one responsible and a hand is there. *)
Lemma held_there ps o a : orun nothing ps = Fine o -> charges 0 ps a <= 1 -> held ps a -> ~ In a (gone o).
Proof.
  intros E On H. pose proof (owned_run _ E) as W. rewrite (count_occ_not_In Nat.eq_dec), <- times_occ.
  pose proof (held_alive _ W H). rewrite (ow_gone W). rewrite (ow_charge W) in On. lia.
Qed.

(** Two responsibles: wrong at the latest when the last hand ends. *)
Lemma twice ps a : 2 <= charges 0 ps a -> ~ held ps a -> exists m, orun nothing ps = Bad m.
Proof.
  intros L N. destruct (orun nothing ps) as [o|m] eqn:E; [|now exists m]. exfalso.
  pose proof (unheld_gone _ _ E N). pose proof (once _ a E). lia.
Qed.

(** A program that can be written goes wrong with undefined behaviour only. *)
Lemma no_such ps m : written ps -> orun nothing ps = Bad m -> m <> NoSuch.
Proof.
  induction ps as [|p ps IH] using rev_ind; intros Wr H; [discriminate|].
  rewrite orun_snoc in H. destruct (orun nothing ps) as [o|m1] eqn:E.
  2:{ injection H as <-. apply IH; [eapply written_left, Wr|reflexivity]. }
  pose proof (owned_run _ E) as W. pose proof (written_last _ _ Wr) as C.
  assert (T : forall a, a < length (cells o) -> touch o a = Bad m -> m <> NoSuch).
  { intros a L. unfold touch. rewrite (ow_cell W L). destruct (_ =? 0); congruence. }
  assert (D : forall o1 a, cells o1 = cells o -> a < length (cells o) -> delete o1 a = Bad m -> m <> NoSuch).
  { intros o1 a Eq L. unfold delete. rewrite Eq, (ow_cell W L). destruct (_ =? 0); congruence. }
  destruct p; cbn [ostep can] in *; try discriminate.
  - rewrite <- (ow_made W) in C. apply Nat.ltb_lt in C. rewrite C in H. discriminate.
  - destruct C as [a C]. destruct (block_here _ W C) as (b & n & B). rewrite B in H. discriminate.
  - destruct C as [a C]. destruct (block_here _ W C) as (b & n & B). rewrite B in H.
    apply block_some in B as [_ Eb]. eapply T, H. now destruct (ow_count W _ Eb).
  - eapply T, H. now rewrite (ow_made W).
  - destruct C as [a C]. destruct (block_here _ W C) as (b & n & B). rewrite B in H.
    apply block_some in B as [_ Eb]. destruct (S n =? 1); [|discriminate].
    eapply D, H; [reflexivity|]. now destruct (ow_count W _ Eb).
  - eapply D, H; [reflexivity|]. now rewrite (ow_made W).
Qed.

(** What is gone cannot be used through any hand. *)
Lemma gone_use ps o h a : orun nothing ps = Fine o -> nth_error (snd (seen ps)) h = Some (a, true) -> In a (gone o) ->
  orun nothing (ps ++ [OUse h]) = Bad (UsedDeleted a).
Proof.
  intros E Eh G. pose proof (owned_run _ E) as W. rewrite orun_snoc, E. cbn [ostep].
  destruct (block_here _ W Eh) as (b & n & B). rewrite B. apply block_some in B as [_ Eb]. destruct (ow_count W _ Eb) as [_ L].
  unfold touch. rewrite (ow_cell W L). apply (count_occ_In Nat.eq_dec) in G. rewrite <- times_occ in G.
  replace (times (gone o) a =? 0) with false by (symmetry; apply Nat.eqb_neq; lia). reflexivity.
Qed.
