(** IdealProofs: code length and Dirichlet samples in exact arithmetic. *)
From Coq Require Import Reals Lra.
From Verif Require Import Base Spec FloatOps FloatIdeal SpecEntropy ModelDict Maps ModelStat SpecStat StatProofs.
Local Open Scope R_scope.

Lemma code_fold (fs : list Z) : forall a,
  fold_left (fun (a : R) f => if Z.ltb 0 f then a - IZR f * ln (IZR f) else a) fs a =
  a - rsum (map (fun f => if Z.ltb 0 f then IZR f * ln (IZR f) else 0) fs).
Proof.
  induction fs as [|f fs IH]; intro a; cbn [fold_left map rsum fold_right]; [lra|].
  rewrite IH. fold (rsum (map (fun f => if Z.ltb 0 f then IZR f * ln (IZR f) else 0) fs)).
  destruct (Z.ltb 0 f); lra.
Qed.
Lemma fold_map {A B C} (g : A -> B) (f : C -> B -> C) l : forall a,
  fold_left (fun a x => f a (g x)) l a = fold_left f (map g l) a.
Proof. induction l as [|x l IH]; intro a; cbn; [easy|apply IH]. Qed.
Lemma entropy_sum (fs : list Z) lp : Forall (fun f => 0 <= f)%Z fs ->
  rsum (map (fun f => if Z.ltb 0 f then IZR f * (lp - ln (IZR f)) else 0) fs) =
  IZR (zsum fs) * lp - rsum (map (fun f => if Z.ltb 0 f then IZR f * ln (IZR f) else 0) fs).
Proof.
  induction 1 as [|f fs Hf _ IH]; cbn [map rsum fold_right zsum]; [lra|].
  fold (rsum (map (fun f => if Z.ltb 0 f then IZR f * (lp - ln (IZR f)) else 0) fs)).
  fold (rsum (map (fun f => if Z.ltb 0 f then IZR f * ln (IZR f) else 0) fs)). fold (zsum fs).
  rewrite IH, plus_IZR. destruct (Z.ltb_spec 0 f) as [H|H]; [lra|].
  assert (f = 0%Z) as -> by lia. lra.
Qed.

(** The formula of code_length_per_char in exact arithmetic, for the counters [fs]. *)
Lemma code_length_exact d (st : sstat ideal) P C :
  power st = IZR P -> chars st = IZR C -> total_freq ideal d st = P ->
  (forall i, 0 <= freq ideal st i)%Z ->
  code_length_per_char ideal d st = entropy_per_char (map (freq ideal st) (List.seq 0 (dsize d))) P C.
Proof.
  intros Hp Hc Ht Hf. unfold code_length_per_char, entropy_per_char, xlogx. cbn [fsub fmul fdiv fadd flog fofZ ideal].
  rewrite (fold_map (freq ideal st) (fun a f => if Z.ltb 0 f then a - IZR f * ln (IZR f) else a)).
  rewrite code_fold, entropy_sum.
  - rewrite Hp, Hc. unfold total_freq in Ht. rewrite Ht. f_equal. lra.
  - apply Forall_forall. intros f H. apply in_map_iff in H as (i & <- & _). apply Hf.
Qed.

Lemma zsum_in l x : Forall (fun f => 0 <= f)%Z l -> In x l -> (x <= zsum l)%Z.
Proof.
  induction 1 as [|a l Ha Hl IH]; [easy|]. cbn [zsum fold_right]. fold (zsum l).
  assert (0 <= zsum l)%Z by (clear - Hl; induction Hl; cbn; [lia|]; fold (zsum l); lia).
  intros [->|Hx]; [lia|]. specialize (IH Hx). lia.
Qed.
Lemma rsum_nonneg l : Forall (fun x => 0 <= x) l -> 0 <= rsum l.
Proof. induction 1; cbn; [lra|]. fold (rsum l). lra. Qed.

Lemma entropy_nonneg fs C : Forall (fun f => 0 <= f)%Z fs -> (1 <= C)%Z -> 0 <= entropy_per_char fs (zsum fs) C.
Proof.
  intros Hf HC. unfold entropy_per_char. apply Rmult_le_pos.
  - apply rsum_nonneg. apply Forall_forall. intros x Hx. apply in_map_iff in Hx as (f & <- & Hi).
    destruct (Z.ltb_spec 0 f) as [H|H]; [|lra]. pose proof (zsum_in _ _ Hf Hi) as Hle.
    apply Rmult_le_pos; [apply IZR_le; lia|].
    assert (0 < IZR f) by (apply IZR_lt; lia).
    destruct (Z.eq_dec f (zsum fs)) as [->|Hne]; [lra|].
    assert (ln (IZR f) < ln (IZR (zsum fs))); [|lra]. apply ln_increasing; [easy|]. apply IZR_lt. lia.
  - apply Rlt_le, Rinv_0_lt_compat, IZR_lt. lia.
Qed.

(** Dirichlet samples. *)
Lemma fold_plus l : forall a, fold_left Rplus l a = a + rsum l.
Proof. induction l as [|x l IH]; intro a; cbn; [lra|]. rewrite IH. fold (rsum l). lra. Qed.
Lemma rsum_scale l k : rsum (map (fun x => x * k) l) = rsum l * k.
Proof. induction l as [|x l IH]; cbn; [lra|]. fold (rsum l). fold (rsum (map (fun x => x * k) l)). rewrite IH. lra. Qed.
Lemma rsum_pos l : l <> [] -> Forall (fun x => 0 < x) l -> 0 < rsum l.
Proof.
  intros Hne H. destruct H as [|x l Hx Hl]; [easy|]. cbn. fold (rsum l).
  assert (0 <= rsum l); [|lra]. apply rsum_nonneg. eapply Forall_impl; [|exact Hl]. cbn beta. intros; lra.
Qed.
Lemma dirichlet_exact (e : env ideal) ps : ps <> [] -> length (e_gamma e ps) = length ps ->
  Forall (fun g => 0 < g) (e_gamma e ps) ->
  length (next_dirichlet ideal e ps) = length ps /\
  Forall (fun x => 0 < x) (next_dirichlet ideal e ps) /\ rsum (next_dirichlet ideal e ps) = 1.
Proof.
  intros Hne Hl Hp. unfold next_dirichlet. cbn [fadd fdiv fmul fofZ ideal]. rewrite fold_plus, Rplus_0_l.
  assert (Hg : e_gamma e ps <> []) by (destruct ps, (e_gamma e _); easy).
  pose proof (rsum_pos _ Hg Hp) as Hs.
  split; [now rewrite map_length|]. split.
  - apply Forall_forall. intros x Hx. apply in_map_iff in Hx as (g & <- & Hi).
    apply Rmult_lt_0_compat; [now apply (proj1 (Forall_forall _ _) Hp)|].
    apply Rmult_lt_0_compat; [lra|now apply Rinv_0_lt_compat].
  - etransitivity; [apply (rsum_scale (e_gamma e ps) (1 / rsum (e_gamma e ps)))|]. field. lra.
Qed.
