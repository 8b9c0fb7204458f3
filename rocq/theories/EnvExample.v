(** EnvExample: one environment that satisfies what is assumed of iteration orders, sorting and
    random draws; used in examples and refutations. *)
From Coq Require Import Reals Lra.
From Flocq Require Import Core BinarySingleNaN.
From Verif Require Import Base FloatOps FloatLaws FloatIEEE FloatExample FloatScore Maps ModelDict ModelStat Spec SpecStat.

(** Insertion sort by decreasing score. *)
Fixpoint ins_item {fl} (x : item fl) (l : list (item fl)) : list (item fl) :=
  match l with
  | [] => [x]
  | y :: t => if fltb fl (fneg fl (score y)) (fneg fl (score x)) then y :: ins_item x t else x :: l
  end.
Definition sort_item {fl} (l : list (item fl)) : list (item fl) := fold_right ins_item [] l.

(** The parameter itself as the draw, if it is within [1, 2^60]; otherwise 1. *)
Definition draw (x : f64) : f64 :=
  if Bleb (f64_ofZ 1) x && Bleb x (f64_ofZ (2 ^ 60)) then x else f64_ofZ 1.
Definition exenv : env exf := mkEnv (fl := exf) (fun l => l) sort_item (map draw).

Section Sort.
  Context (fl : fops) (L : flaws fl).
  Definition before (a b : item fl) : Prop := fltb fl (fneg fl (score b)) (fneg fl (score a)) = false.
  Lemma ins_item_perm x l : Permutation (x :: l) (ins_item (fl := fl) x l).
  Proof.
    induction l as [|y l IH]; [easy|]. cbn. destruct (fltb _ _ _); [|easy].
    apply perm_trans with (y :: x :: l); [apply perm_swap|now apply perm_skip].
  Qed.
  Lemma sort_item_perm l : Permutation l (sort_item (fl := fl) l).
  Proof.
    induction l as [|x l IH]; [easy|]. cbn. eapply perm_trans; [apply perm_skip, IH|apply ins_item_perm].
  Qed.
  Lemma before_trans a b c : fnan fl (score b) = false -> before a b -> before b c -> before a c.
  Proof.
    unfold before. rewrite !(neg_lt fl L). intros Hb H1 H2. now apply (le_trans fl L _ (score b)).
  Qed.
  Lemma ins_item_sorted x l : fnan fl (score x) = false -> Forall (fun it => fnan fl (score it) = false) l ->
    StronglySorted before l -> StronglySorted before (ins_item x l).
  Proof.
    intros Hx Hl H. induction H as [|y l Hs IH Hy]; cbn; [repeat constructor|].
    pose proof (Forall_inv Hl) as Hyn. apply Forall_inv_tail in Hl. specialize (IH Hl).
    destruct (fltb fl (fneg fl (score y)) (fneg fl (score x))) eqn:E.
    - constructor; [easy|]. apply (Permutation_Forall (ins_item_perm x l)). constructor; [|easy].
      apply (lt_asym fl L) in E. exact E.
    - constructor; [now constructor|]. constructor; [exact E|].
      eapply Forall_impl; [|exact Hy]. intros z Hz. now apply (before_trans x y z).
  Qed.
  Lemma sort_item_sorted l : Forall (fun it => fnan fl (score it) = false) l ->
    StronglySorted before (sort_item l).
  Proof.
    induction l as [|x l IH]; intro H; [constructor|]. cbn. pose proof (Forall_inv H). apply Forall_inv_tail in H.
    apply ins_item_sorted; [easy| |now apply IH]. now apply (Permutation_Forall (sort_item_perm l)).
  Qed.
End Sort.

Lemma exenv_ok : env_ok exf exenv.
Proof.
  split.
  - easy.
  - apply sort_item_perm.
  - intros l Hl. exact (sort_item_sorted exf exl l Hl).
  - intro ps. apply map_length.
Qed.

Local Open Scope R_scope.
Lemma draw_range x : inr (-160) 100 (draw x).
Proof.
  assert (H1 : inr (-160) 100 (f64_ofZ 1)).
  { destruct (ofZ_correct 1) as (F1 & E1 & _); [easy|]. split; [easy|]. rewrite E1. split.
    - change 1 with (bpow radix2 0). apply bpow_le. lia.
    - change 1 with (bpow radix2 0). apply bpow_le. lia. }
  unfold draw. destruct (Bleb (f64_ofZ 1) x) eqn:E1; [|easy]. destruct (Bleb x (f64_ofZ (2 ^ 60))) eqn:E2; [|easy].
  cbn [andb].
  assert (Fx : is_finite x = true).
  { destruct x as [sx|sx| |sx m e He]; try reflexivity.
    - destruct sx; [vm_compute in E1|vm_compute in E2]; discriminate.
    - vm_compute in E1. discriminate. }
  split; [easy|].
  assert (E60 : B2SF (f64_ofZ (2 ^ 60)) = SpecFloat.S754_finite false (2 ^ 52) 8) by (vm_compute; reflexivity).
  rewrite Bleb_correct in E1; [|reflexivity|easy].
  destruct (Rle_bool_spec (B2R (f64_ofZ 1)) (B2R x)) as [H3|]; [|discriminate].
  rewrite Bleb_correct in E2; [|easy|reflexivity].
  destruct (Rle_bool_spec (B2R x) (B2R (f64_ofZ (2 ^ 60)))) as [H2|]; [|discriminate].
  destruct H1 as (_ & H1 & _). split; [lra|].
  apply Rle_trans with (1 := H2). rewrite <- (SF2R_B2SF 53 1024 (f64_ofZ (2 ^ 60))), E60.
  cbn [SF2R cond_Zopp]. unfold F2R. cbn [Fnum Fexp].
  apply Rle_trans with (bpow radix2 52 * bpow radix2 8).
  - apply Rmult_le_compat_r; [apply bpow_ge_0|]. change (bpow radix2 52) with (IZR (2 ^ 52)). apply IZR_le. lia.
  - rewrite <- bpow_plus. apply bpow_le. lia.
Qed.
Lemma exenv_gamma : gamma_ok (e_gamma exenv).
Proof.
  intro ps. split; [apply map_length|]. apply Forall_forall. intros x Hx.
  apply in_map_iff in Hx as (y & <- & _). apply draw_range.
Qed.
Lemma exenv_draws : draws_ok exf exenv.
Proof. apply (ieee_draws lg_example lg_example_ok). exact exenv_gamma. Qed.
