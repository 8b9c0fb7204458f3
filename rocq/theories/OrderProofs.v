(** Lexicographic order, prefixes, and sorting. *)
From Verif Require Import Base Spec.

Lemma seq_eqb_spec a b : seq_eqb a b = true <-> a = b.
Proof.
  revert b; induction a as [|x a IH]; intros [|y b]; simpl; split; intro H; try easy.
  - apply andb_true_iff in H as [H1 H2]. apply Z.eqb_eq in H1. apply IH in H2. congruence.
  - injection H as -> ->. rewrite Z.eqb_refl. simpl. now apply IH.
Qed.

Lemma seq_eqb_refl a : seq_eqb a a = true.
Proof. now apply seq_eqb_spec. Qed.

Lemma lex_lt_cons x a b : lex_lt a b -> lex_lt (x :: a) (x :: b).
Proof.
  intros [(y & r & ->)|(c & u & v & r1 & r2 & -> & -> & Hlt)].
  - left. now exists y, r.
  - right. now exists (x :: c), u, v, r1, r2.
Qed.

Lemma lex_lt_cons_inv x a b : lex_lt (x :: a) (x :: b) -> lex_lt a b.
Proof.
  intros [(y & r & H)|(c & u & v & r1 & r2 & H1 & H2 & Hlt)].
  - simpl in H. injection H as ->. left. now exists y, r.
  - destruct c as [|z c]; simpl in *.
    + injection H1 as -> ->. injection H2 as -> ->. lia.
    + injection H1 as -> ->. injection H2 as ->. right. now exists c, u, v, r1, r2.
Qed.

Lemma lex_ltb_spec a b : lex_ltb a b = true <-> lex_lt a b.
Proof.
  revert b; induction a as [|x a IH]; intros [|y b]; simpl.
  - split; [easy|]. intros [(y & r & H)|(c & u & v & r1 & r2 & H1 & _)];
      [easy|now destruct c].
  - split; [intros _|easy]. left. now exists y, b.
  - split; [easy|]. intros [(z & r & H)|(c & u & v & r1 & r2 & _ & H2 & _)];
      [easy|now destruct c].
  - destruct (Z.ltb_spec x y) as [Hlt|Hge].
    + split; [intros _|easy]. right. now exists [], x, y, a, b.
    + destruct (Z.ltb_spec y x) as [Hlt|Hge'].
      * split; [easy|]. intros [(z & r & H)|(c & u & v & r1 & r2 & H1 & H2 & Hl)].
        -- simpl in H. injection H as -> _. lia.
        -- destruct c as [|w c]; simpl in *; injection H1; injection H2; intros; subst; lia.
      * assert (x = y) by lia. subst y. rewrite IH. split.
        -- apply lex_lt_cons.
        -- apply lex_lt_cons_inv.
Qed.

Lemma lex_ltb_irrefl a : lex_ltb a a = false.
Proof. induction a as [|x a IH]; simpl; [easy|]. now rewrite Z.ltb_irrefl. Qed.

Lemma lex_ltb_total a b : lex_ltb a b = false -> lex_ltb b a = false -> a = b.
Proof.
  revert b; induction a as [|x a IH]; intros [|y b]; simpl; try easy.
  destruct (Z.ltb_spec x y), (Z.ltb_spec y x); try easy; intros H1 H2.
  assert (x = y) by lia. subst. f_equal. now apply IH.
Qed.

Lemma lex_ltb_trans a b c : lex_ltb a b = true -> lex_ltb b c = true -> lex_ltb a c = true.
Proof.
  revert b c; induction a as [|x a IH]; intros [|y b] [|z c]; simpl; try easy.
  destruct (Z.ltb_spec x y), (Z.ltb_spec y x), (Z.ltb_spec y z), (Z.ltb_spec z y),
    (Z.ltb_spec x z), (Z.ltb_spec z x); try easy; try lia.
  intros. now apply (IH b).
Qed.

Lemma lex_lt_irrefl a : ~ lex_lt a a.
Proof. rewrite <- lex_ltb_spec, lex_ltb_irrefl. easy. Qed.
Lemma lex_lt_trans a b c : lex_lt a b -> lex_lt b c -> lex_lt a c.
Proof. rewrite <- !lex_ltb_spec. apply lex_ltb_trans. Qed.
Lemma lex_lt_total a b : lex_lt a b \/ a = b \/ lex_lt b a.
Proof.
  destruct (lex_ltb a b) eqn:H1. { left. now apply lex_ltb_spec. }
  destruct (lex_ltb b a) eqn:H2. { right; right. now apply lex_ltb_spec. }
  right; left. now apply lex_ltb_total.
Qed.
Lemma lex_ltb_false a b : lex_ltb a b = false <-> lex_le b a.
Proof.
  split; intro H.
  - destruct (lex_lt_total a b) as [H1|[H1|H1]].
    + apply lex_ltb_spec in H1. congruence.
    + left. now symmetry.
    + now right.
  - destruct (lex_ltb a b) eqn:E; [|easy]. apply lex_ltb_spec in E.
    destruct H as [->|H]; [now apply lex_lt_irrefl in E|]. exfalso.
    now apply (lex_lt_irrefl a), (lex_lt_trans a b a).
Qed.
Lemma lex_le_refl a : lex_le a a.
Proof. now left. Qed.
Lemma lex_le_trans a b c : lex_le a b -> lex_le b c -> lex_le a c.
Proof.
  intros [->|H1] [->|H2]; try (now left); try (now right).
  right. now apply (lex_lt_trans a b c).
Qed.
Lemma lex_le_lt_trans a b c : lex_le a b -> lex_lt b c -> lex_lt a c.
Proof. intros [->|H1] H2; [easy|]. now apply (lex_lt_trans a b c). Qed.
Lemma lex_lt_le_trans a b c : lex_lt a b -> lex_le b c -> lex_lt a c.
Proof. intros H1 [<-|H2]; [easy|]. now apply (lex_lt_trans a b c). Qed.
Lemma lex_le_antisym a b : lex_le a b -> lex_le b a -> a = b.
Proof.
  intros [->|H1] [H2|H2]; try easy. exfalso.
  now apply (lex_lt_irrefl a), (lex_lt_trans a b a).
Qed.

(** Prefixes *)
Lemma prefix_nil s : prefix [] s.
Proof. now exists s. Qed.
Lemma prefix_refl s : prefix s s.
Proof. exists []. now rewrite app_nil_r. Qed.
Lemma prefix_trans a b c : prefix a b -> prefix b c -> prefix a c.
Proof. intros [r ->] [r' ->]. exists (r ++ r'). now rewrite app_assoc. Qed.
Lemma prefix_cons x a y b : prefix (x :: a) (y :: b) <-> x = y /\ prefix a b.
Proof.
  split.
  - intros [r H]. simpl in H. injection H as -> ->. split; [easy|now exists r].
  - intros [-> [r ->]]. now exists r.
Qed.
Lemma prefix_nil_inv a : prefix a [] -> a = [].
Proof. intros [r H]. symmetry in H. now apply app_eq_nil in H as [? _]. Qed.
Lemma prefix_length a b : prefix a b -> length a <= length b.
Proof. intros [r ->]. rewrite app_length. lia. Qed.
Lemma prefix_length_eq a b : prefix a b -> length b <= length a -> a = b.
Proof.
  intros [r ->]. rewrite app_length. intro H.
  destruct r as [|x r]; [now rewrite app_nil_r|simpl in H; lia].
Qed.
Lemma prefix_le a b : prefix a b -> lex_le a b.
Proof.
  intros [[|y r] ->]; [left; now rewrite app_nil_r|right; left; now exists y, r].
Qed.
(** Two prefixes of one word are comparable. *)
Lemma prefix_comparable a b s : prefix a s -> prefix b s -> length a <= length b -> prefix a b.
Proof.
  revert a b; induction s as [|x s IH]; intros [|y a] [|z b] Ha Hb Hl; simpl in *;
    try (apply prefix_nil); try (now apply prefix_nil_inv in Ha); try (now apply prefix_nil_inv in Hb);
    try lia.
  apply prefix_cons in Ha as [-> Ha]. apply prefix_cons in Hb as [-> Hb].
  apply prefix_cons. split; [easy|]. apply IH; try easy. lia.
Qed.
Lemma prefix_comparable_le a b s : prefix a s -> prefix b s -> lex_le a b -> prefix a b.
Proof.
  intros Ha Hb Hle. destruct (le_lt_dec (length a) (length b)) as [Hl|Hl].
  - now apply (prefix_comparable a b s).
  - assert (Hba : prefix b a) by (apply (prefix_comparable b a s); try easy; lia).
    assert (a = b) as -> by (apply lex_le_antisym; [easy|now apply prefix_le]).
    apply prefix_refl.
Qed.
(** A word between a prefix and the whole extends the prefix. *)
Lemma prefix_between p x q : prefix p q -> lex_le p x -> lex_le x q -> prefix p x.
Proof.
  rewrite <- !lex_ltb_false.
  revert p q; induction x as [|a x IH]; intros [|b p] [|c q] Hp H1 H2; simpl in *;
    try (apply prefix_nil); try easy.
  - apply prefix_cons in Hp as [-> Hp].
    apply prefix_cons.
    destruct (Z.ltb_spec a c), (Z.ltb_spec c a); try easy.
    split; [lia|]. now apply (IH p q).
Qed.

(** Boolean prefix test. *)
Fixpoint prefixb (p q : seq) : bool :=
  match p, q with
  | [], _ => true
  | _ :: _, [] => false
  | a :: p', b :: q' => Z.eqb a b && prefixb p' q'
  end.
Lemma prefixb_spec p q : prefixb p q = true <-> prefix p q.
Proof.
  revert q; induction p as [|a p IH]; intros [|b q]; simpl.
  - split; [intros _; apply prefix_nil|easy].
  - split; [intros _; apply prefix_nil|easy].
  - split; [easy|]. intros H. now apply prefix_nil_inv in H.
  - rewrite andb_true_iff, Z.eqb_eq, IH, prefix_cons. easy.
Qed.

(** Sorting *)
Lemma ins_perm x l : Permutation (ins x l) (x :: l).
Proof.
  induction l as [|y l IH]; simpl; [easy|].
  destruct (lex_ltb y x); [|easy].
  rewrite IH. apply perm_swap.
Qed.
Lemma isort_perm l : Permutation (isort l) l.
Proof. induction l as [|x l IH]; simpl; [easy|]. rewrite ins_perm. now constructor. Qed.
Lemma ins_in x y l : In y (ins x l) <-> y = x \/ In y l.
Proof.
  split; intro H.
  - apply (Permutation_in _ (ins_perm x l)) in H. destruct H; auto.
  - apply (Permutation_in _ (Permutation_sym (ins_perm x l))). simpl. destruct H; auto.
Qed.
Lemma ins_sorted x l : sorted l -> sorted (ins x l).
Proof.
  induction 1 as [|y l Hs IH Hf]; simpl.
  - repeat constructor.
  - destruct (lex_ltb y x) eqn:E.
    + constructor; [easy|]. apply Forall_forall. intros z Hz. apply ins_in in Hz as [->|Hz].
      * right. now apply lex_ltb_spec.
      * rewrite Forall_forall in Hf. now apply Hf.
    + apply lex_ltb_false in E. constructor; [now constructor|].
      constructor; [easy|]. eapply Forall_impl; [|exact Hf]. intros z Hz. simpl in *.
      now apply (lex_le_trans x y z).
Qed.
Lemma isort_sorted l : sorted (isort l).
Proof. induction l as [|x l IH]; simpl; [constructor|]. now apply ins_sorted. Qed.
Lemma isort_length l : length (isort l) = length l.
Proof. apply Permutation_length, isort_perm. Qed.

Lemma sorted_strict l : sorted l -> NoDup l -> strictly_sorted l.
Proof.
  induction 1 as [|y l Hs IH Hf]; intros Hn; constructor.
  - apply IH. now inversion Hn.
  - inversion Hn as [|? ? Hnot ?]; subst. rewrite Forall_forall in *. intros x Hx.
    destruct (Hf x Hx) as [<-|Hlt]; [easy|easy].
Qed.
Lemma strict_sorted l : strictly_sorted l -> sorted l.
Proof.
  induction 1 as [|y l Hs IH Hf]; constructor; [easy|].
  eapply Forall_impl; [|exact Hf]. now right.
Qed.
Lemma strict_nodup l : strictly_sorted l -> NoDup l.
Proof.
  induction 1 as [|y l Hs IH Hf]; constructor; [|easy].
  intro Hin. rewrite Forall_forall in Hf. now apply (lex_lt_irrefl y), Hf.
Qed.
Lemma isort_strict l : NoDup l -> strictly_sorted (isort l).
Proof.
  intro H. apply sorted_strict; [apply isort_sorted|].
  apply (Permutation_NoDup (l := l)); [|easy]. symmetry. apply isort_perm.
Qed.
Lemma sorted_nth l i j a b :
  sorted l -> nth_error l i = Some a -> nth_error l j = Some b -> i <= j -> lex_le a b.
Proof.
  intro Hs. revert i j; induction Hs as [|y l Hs IH Hf]; intros i j Ha Hb Hij.
  - now destruct i.
  - destruct i as [|i], j as [|j]; simpl in *; try lia.
    + injection Ha as <-. injection Hb as <-. apply lex_le_refl.
    + injection Ha as <-. rewrite Forall_forall in Hf. apply Hf. now apply nth_error_In in Hb.
    + apply (IH i j); try easy. lia.
Qed.
Lemma strict_nth l i j a b :
  strictly_sorted l -> nth_error l i = Some a -> nth_error l j = Some b -> i < j -> lex_lt a b.
Proof.
  intro Hs. revert i j; induction Hs as [|y l Hs IH Hf]; intros i j Ha Hb Hij.
  - now destruct i.
  - destruct i as [|i], j as [|j]; simpl in *; try lia.
    + injection Ha as <-. rewrite Forall_forall in Hf. apply Hf. now apply nth_error_In in Hb.
    + apply (IH i j); try easy. lia.
Qed.
(** In a strictly sorted list the order of words is the order of indices. *)
Lemma strict_nth_inv l i j a b :
  strictly_sorted l -> nth_error l i = Some a -> nth_error l j = Some b -> lex_lt a b -> i < j.
Proof.
  intros Hs Ha Hb Hlt. destruct (lt_eq_lt_dec i j) as [[H|H]|H]; [easy| |].
  - subst. rewrite Ha in Hb. injection Hb as <-. now apply lex_lt_irrefl in Hlt.
  - pose proof (strict_nth l j i b a Hs Hb Ha H). exfalso.
    now apply (lex_lt_irrefl a), (lex_lt_trans a b a).
Qed.
Lemma strict_nth_inj l i j a :
  strictly_sorted l -> nth_error l i = Some a -> nth_error l j = Some a -> i = j.
Proof.
  intros Hs Ha Hb. destruct (lt_eq_lt_dec i j) as [[H|H]|H]; [|easy|].
  - exfalso. now apply (lex_lt_irrefl a), (strict_nth l i j a a).
  - exfalso. now apply (lex_lt_irrefl a), (strict_nth l j i a a).
Qed.
(** Sorted arrangements are unique. *)
Lemma sorted_perm_unique l l' : sorted l -> sorted l' -> Permutation l l' -> l = l'.
Proof.
  revert l'; induction l as [|a l IH]; intros l' Hs Hs' Hp.
  - now apply Permutation_nil in Hp.
  - destruct l' as [|b l']. { symmetry in Hp. now apply Permutation_nil in Hp. }
    inversion Hs as [|? ? Hs1 Hf1]; subst. inversion Hs' as [|? ? Hs2 Hf2]; subst.
    rewrite Forall_forall in Hf1, Hf2.
    assert (a = b) as ->.
    { apply lex_le_antisym.
      - assert (Hin : In b (a :: l)) by (apply (Permutation_in b (Permutation_sym Hp)); now left).
        destruct Hin as [->|Hin]; [apply lex_le_refl|auto].
      - assert (Hin : In a (b :: l')) by (apply (Permutation_in a Hp); now left).
        destruct Hin as [->|Hin]; [apply lex_le_refl|auto]. }
    f_equal. apply IH; try easy. now apply Permutation_cons_inv in Hp.
Qed.
Lemma isort_id l : sorted l -> isort l = l.
Proof. intro H. apply sorted_perm_unique; [apply isort_sorted|easy|apply isort_perm]. Qed.
Lemma strict_app_last l c :
  strictly_sorted l -> (forall w, In w l -> lex_lt w c) -> strictly_sorted (l ++ [c]).
Proof.
  induction 1 as [|y l Hs IH Hf]; intro Hc; simpl.
  - repeat constructor.
  - constructor.
    + apply IH. intros w Hw. apply Hc. now right.
    + rewrite Forall_forall in *. intros x Hx. apply in_app_or in Hx as [Hx|[<-|[]]].
      * now apply Hf.
      * apply Hc. now left.
Qed.
Lemma strict_app_inv l l' : strictly_sorted (l ++ l') -> strictly_sorted l.
Proof.
  induction l as [|y l IH]; simpl; intro H; [constructor|].
  inversion H as [|? ? Hs Hf]; subst. constructor; [now apply IH|].
  rewrite Forall_forall in *. intros x Hx. apply Hf. apply in_or_app. now left.
Qed.
