(** PropsMiscLemmas: lemmas behind C55-C57. *)
From Coq Require Import String.
From Verif Require Import Base ModelDict Maps ModelTok TokProofs ModelVGram ModelMisc VGramProofs SpecVGram SpecMisc.
Local Open Scope list_scope.
Local Open Scope Z_scope.

(** ** C55 *)
Lemma int_signed x : signed_numeral (int_to_string x) x.
Proof.
  unfold int_to_string. destruct (Z.ltb_spec x 0) as [H|H]; [right|left].
  - split; [exact H|]. exists (dec (- x)). split; [reflexivity|]. apply dec_numeral. lia.
  - split; [exact H|]. now apply dec_numeral.
Qed.
Definition item (x : Z) : text := int_to_string x ++ [32].
Lemma vget_mid (p : seq) x l : vget (p ++ x :: l) (length p) = Ok x.
Proof. unfold vget. rewrite nth_error_app2, Nat.sub_diag by lia. reflexivity. Qed.
Lemma print_items_spec : forall l p x res f, Z.of_nat (length (p ++ l ++ [x])) < 2 ^ 64 -> (length l < f)%nat ->
  print_items f (p ++ l ++ [x]) (length p) res = Ok (res ++ flat_map item l).
Proof.
  induction l as [|y l IH]; intros p x res f Hl Hf; (destruct f as [|f]; [lia|]); cbn [print_items]; unfold wrap64; rewrite !app_length in *; cbn [length] in *.
  - rewrite !Z.mod_small by lia. destruct (Z.ltb_spec (Z.of_nat (length p)) (Z.of_nat (length p + (0 + 1)) - 1)); [lia|]. cbn. now rewrite app_nil_r.
  - rewrite !Z.mod_small by lia. destruct (Z.ltb_spec (Z.of_nat (length p)) (Z.of_nat (length p + (S (length l) + 1)) - 1)); [|lia].
    cbn [app]. rewrite vget_mid. cbn [bind]. specialize (IH (p ++ [y]) x (res ++ int_to_string y ++ [32]) f).
    replace (length (p ++ [y])) with (S (length p)) in IH by (rewrite app_length; cbn; lia). rewrite <- app_assoc in IH. cbn [app] in IH.
    rewrite IH; [|rewrite !app_length; cbn [length]; rewrite app_length; cbn [length]; lia|lia]. cbn [flat_map]. unfold item at 2. now rewrite <- !app_assoc.
Qed.
Lemma listing_of : forall l x, listing (l ++ [x]) (flat_map item l ++ int_to_string x ++ [41]).
Proof.
  induction l as [|y l IH]; intro x; cbn [app flat_map].
  - apply ls_one, int_signed.
  - unfold item at 1. rewrite <- !app_assoc. cbn [app]. specialize (IH x). destruct l; cbn [app] in *; now apply ls_cons; [apply int_signed|].
Qed.
Lemma seq_printed s : s <> [] -> Z.of_nat (length s) < 2 ^ 31 -> exists str, seq_to_string s = Ok str /\ listed_as s str.
Proof.
  intros Hs Hl. destruct (exists_last Hs) as (l & x & ->). pose proof (print_items_spec l [] x [40] (S (length (l ++ [x])))) as H.
  cbn [app length] in H. unfold seq_to_string. rewrite H; [|lia|rewrite app_length; cbn; lia]. cbn [bind].
  assert (Hg : vget (l ++ [x]) (length (l ++ [x]) - 1) = Ok x).
  { rewrite app_length. cbn [length]. replace (length l + 1 - 1)%nat with (length l) by lia. apply vget_mid. }
  rewrite Hg. destruct (l ++ [x]) as [|a b] eqn:E; [now destruct l|]. cbn [bind]. eexists. split; [reflexivity|].
  rewrite <- E. eexists. split; [cbn [app]; reflexivity|]. rewrite <- app_assoc. apply listing_of.
Qed.
Lemma empty_printed : seq_to_string [] = UB OobRead.
Proof. reflexivity. Qed.

(** Characters of numerals. *)
Lemma signed_chars t n : signed_numeral t n -> t <> [] /\ Forall (fun c => c <> 32 /\ c <> 41) t.
Proof.
  intros [(_ & H1 & H2 & _)|(_ & u & -> & H1 & H2 & _)].
  - split; [exact H1|]. revert H2. apply Forall_impl. unfold digit. lia.
  - split; [easy|]. constructor; [lia|]. revert H2. apply Forall_impl. unfold digit. lia.
Qed.
Lemma signed_unique t n m : signed_numeral t n -> signed_numeral t m -> n = m.
Proof.
  intros [(_ & H)|(_ & u & -> & H)] [(_ & H')|(_ & u' & E & H')].
  - now apply (numeral_unique t t).
  - subst t. destruct H as (_ & H & _). apply Forall_inv in H. unfold digit in H. lia.
  - destruct H' as (_ & H' & _). apply Forall_inv in H'. unfold digit in H'. lia.
  - injection E as <-. pose proof (numeral_unique _ _ _ _ H eq_refl H'). lia.
Qed.
Lemma cut_same : forall (t u r r' : list Z) a b, Forall (fun c => c <> 32 /\ c <> 41) t -> Forall (fun c => c <> 32 /\ c <> 41) u ->
  (a = 32 \/ a = 41) -> (b = 32 \/ b = 41) -> t ++ a :: r = u ++ b :: r' -> t = u /\ a = b /\ r = r'.
Proof.
  induction t as [|c t IH]; intros [|d u] r r' a b Ht Hu Ha Hb E; cbn in E; injection E as E1 E2.
  - easy.
  - apply Forall_inv in Hu. lia.
  - apply Forall_inv in Ht. lia.
  - subst d. apply Forall_inv_tail in Ht, Hu. destruct (IH u r r' a b Ht Hu Ha Hb E2) as (-> & -> & ->). easy.
Qed.
Lemma listing_unique s r : listing s r -> forall s', listing s' r -> s = s'.
Proof.
  induction 1 as [x t Ht|x t y s r Ht H IH]; intros s' H'; inversion H' as [x' t' Ht' E1 E2|x' t' y' s1 r1 Ht' Hr E1 E2]; subst.
  - destruct (cut_same t' t [] [] 41 41 (proj2 (signed_chars _ _ Ht')) (proj2 (signed_chars _ _ Ht)) (or_intror eq_refl) (or_intror eq_refl) E2) as (-> & _). f_equal. exact (signed_unique _ _ _ Ht Ht').
  - destruct (cut_same t' t r1 [] 32 41 (proj2 (signed_chars _ _ Ht')) (proj2 (signed_chars _ _ Ht)) (or_introl eq_refl) (or_intror eq_refl) E2) as (_ & E & _). discriminate E.
  - destruct (cut_same t' t [] r 41 32 (proj2 (signed_chars _ _ Ht')) (proj2 (signed_chars _ _ Ht)) (or_intror eq_refl) (or_introl eq_refl) E2) as (_ & E & _). discriminate E.
  - destruct (cut_same t' t r1 r 32 32 (proj2 (signed_chars _ _ Ht')) (proj2 (signed_chars _ _ Ht)) (or_introl eq_refl) (or_introl eq_refl) E2) as (-> & _ & ->). f_equal; [exact (signed_unique _ _ _ Ht Ht')|now apply IH].
Qed.
Lemma printed_unique s s' str : listed_as s str -> listed_as s' str -> s = s'.
Proof. intros (r & -> & H) (r' & E & H'). injection E as <-. exact (listing_unique _ _ H _ H'). Qed.

(** ** C56 *)
Lemma wrap_range x : 0 <= wrap64 x < 2 ^ 64.
Proof. apply Z.mod_pos_bound. lia. Qed.
Lemma lxor_range a b : 0 <= a < 2 ^ 64 -> 0 <= b < 2 ^ 64 -> 0 <= Z.lxor a b < 2 ^ 64.
Proof.
  intros Ha Hb. assert (0 <= Z.lxor a b) by (apply Z.lxor_nonneg; lia). split; [easy|].
  destruct (Z.eq_dec (Z.lxor a b) 0) as [->|Hn]; [lia|]. apply Z.log2_lt_pow2; [lia|].
  eapply Z.le_lt_trans; [apply Z.log2_lxor; lia|]. apply Z.max_lub_lt.
  - destruct (Z.eq_dec a 0) as [->|]; [reflexivity|]. apply Z.log2_lt_pow2; lia.
  - destruct (Z.eq_dec b 0) as [->|]; [reflexivity|]. apply Z.log2_lt_pow2; lia.
Qed.
Definition mixed (h : Z -> Z) (seed x : Z) : Z := (h x + 2654435769 + 64 * seed + seed / 4) mod 2 ^ 64.
Lemma step_spec h seed x : hash_step h seed x = Z.lxor seed (mixed h seed x).
Proof.
  unfold hash_step, mixed, wrap64. f_equal. rewrite Z.shiftl_mul_pow2, Z.shiftr_div_pow2 by lia. change (2 ^ 6) with 64. change (2 ^ 2) with 4.
  rewrite (Z.mul_comm seed 64). rewrite Zplus_mod_idemp_l. rewrite <- (Z.add_assoc (_ mod _)), Zplus_mod_idemp_l.
  replace (h x + 2654435769 + (64 * seed mod 2 ^ 64 + seed / 4)) with (64 * seed mod 2 ^ 64 + (h x + 2654435769 + seed / 4)) by ring.
  rewrite Zplus_mod_idemp_l. f_equal. ring.
Qed.
Lemma hash_range h v : 0 <= vector_hash h v < 2 ^ 64.
Proof.
  unfold vector_hash. assert (G : forall s, 0 <= s < 2 ^ 64 -> 0 <= fold_left (hash_step h) v s < 2 ^ 64); [|apply G; lia].
  induction v as [|x v IH]; intros s Hs; [exact Hs|].
  cbn [fold_left]. apply IH. rewrite step_spec. apply lxor_range; [exact Hs|]. unfold mixed. apply Z.mod_pos_bound. lia.
Qed.
Lemma hash_recurrence h : vector_hash h [] = 0 /\
  forall v x, vector_hash h (v ++ [x]) = Z.lxor (vector_hash h v) ((h x + 2654435769 + 64 * vector_hash h v + vector_hash h v / 4) mod 2 ^ 64).
Proof. split; [reflexivity|]. intros v x. unfold vector_hash. rewrite fold_left_app. cbn [fold_left]. apply step_spec. Qed.
Lemma hash_last h v x y : (h x mod 2 ^ 64 = h y mod 2 ^ 64 -> x = y) -> vector_hash h (v ++ [x]) = vector_hash h (v ++ [y]) -> x = y.
Proof.
  intros Hh E. rewrite !(proj2 (hash_recurrence h)) in E. set (s := vector_hash h v) in *.
  apply (f_equal (Z.lxor s)) in E. rewrite <- !Z.lxor_assoc, Z.lxor_nilpotent, !Z.lxor_0_l in E. apply Hh.
  replace (h x + 2654435769 + 64 * s + s / 4) with (h x + (2654435769 + 64 * s + s / 4)) in E by ring.
  replace (h y + 2654435769 + 64 * s + s / 4) with (h y + (2654435769 + 64 * s + s / 4)) in E by ring.
  set (c := 2654435769 + 64 * s + s / 4) in *.
  apply (f_equal (fun z => (z - c) mod 2 ^ 64)) in E. rewrite !Zminus_mod_idemp_l in E. now replace (h x + c - c) with (h x) in E by ring; replace (h y + c - c) with (h y) in E by ring.
Qed.
(** std::hash<int> as it is in libstdc++ and libc++: conversion to size_t. *)
Definition cast_hash (x : Z) : Z := x mod 2 ^ 64.
Lemma hash_last_cast v x y : - 2 ^ 31 <= x < 2 ^ 31 -> - 2 ^ 31 <= y < 2 ^ 31 -> vector_hash cast_hash (v ++ [x]) = vector_hash cast_hash (v ++ [y]) -> x = y.
Proof.
  intros Hx Hy. apply hash_last. unfold cast_hash. rewrite !Z.mod_mod by lia. intro E. pose proof (Z.div_mod x (2 ^ 64)). pose proof (Z.div_mod y (2 ^ 64)).
  change (2 ^ 64) with 18446744073709551616 in *. change (2 ^ 31) with 2147483648 in *.
  assert (x / 18446744073709551616 = y / 18446744073709551616 \/ x / 18446744073709551616 <> y / 18446744073709551616) by lia. lia.
Qed.

(** ** C57 *)
Section E.
  Context {T : Type} (eqb : T -> T -> bool).
  Lemma encode_new e x r out : mfind eqb (emap e) x = None -> encode_items eqb e (x :: r) out = UB EndDeref.
  Proof. intro H. cbn [encode_items]. unfold encode_item. now rewrite H. Qed.
  Lemma encode_none : forall input e out e' out', emap e = [] -> encode_items eqb e input out = Ok (e', out') -> input = [] /\ e' = e /\ out' = out.
  Proof.
    intros [|x r] e out e' out' He H; [now injection H as <- <-|]. rewrite encode_new in H; [discriminate H|]. now rewrite He.
  Qed.
  Lemma reached_empty e : encoder_reached eqb e -> e = new_encoder.
  Proof. induction 1 as [|e input out e' out' H IH E]; [easy|]. subst e. now apply encode_none in E as (_ & -> & _). Qed.
  Lemma encoder_fails e : encoder_reached eqb e -> (forall out, encode_items eqb e [] out = Ok (e, out)) /\
    forall x r out, encode_items eqb e (x :: r) out = UB EndDeref.
  Proof. intro H. apply reached_empty in H as ->. split; [easy|]. intros x r out. now apply encode_new. Qed.
End E.
