(** FloatTrueLog: the correctly rounded logarithm meets what is assumed of std::log. *)
From Coq Require Import Reals Lra.
From Flocq Require Import Core BinarySingleNaN.
From Verif Require Import Base FloatOps FloatLaws FloatIEEE SpecBest BestFloat.
Local Open Scope R_scope.

(** The double nearest to the logarithm of [x]. *)
Definition lg_true (x : f64) : f64 :=
  let r := rnd64 (ln (B2R x)) in
  binary_normalize 53 1024 _ _ mode_NE (Ztrunc (scaled_mantissa radix2 fexp64 r)) (cexp radix2 fexp64 r) false.

Lemma lg_true_value x : Rabs (ln (B2R x)) <= 1000 -> is_finite (lg_true x) = true /\ B2R (lg_true x) = rnd64 (ln (B2R x)).
Proof.
  intro H. pose proof (rnd_abs _ 1000 ltac:(lia) H) as Hr. set (r := rnd64 (ln (B2R x))) in *.
  assert (Hg : generic_format radix2 fexp64 r).
  { unfold r. apply generic_format_round; auto with typeclass_instances. change fexp64 with (FLT_exp (-1074) 53). now apply FLT_exp_valid. }
  pose proof (binary_normalize_correct 53 1024 _ _ mode_NE (Ztrunc (scaled_mantissa radix2 fexp64 r)) (cexp radix2 fexp64 r) false) as C.
  cbn zeta in C. cbn [round_mode] in C. unfold lg_true. fold r.
  assert (E : F2R (Float radix2 (Ztrunc (scaled_mantissa radix2 fexp64 r)) (cexp radix2 fexp64 r)) = r) by (symmetry; exact Hg).
  rewrite E in C. rewrite (round_generic radix2 fexp64 ZnearestE r Hg) in C.
  rewrite Rlt_bool_true in C; [|apply Rle_lt_trans with (IZR 1000); [exact Hr|apply small_lt_emax; lia]].
  destruct C as (C1 & C2 & _). now split.
Qed.
Lemma ln_bpow e : ln (bpow radix2 e) = IZR e * ln 2.
Proof. now rewrite bpow_exp, ln_exp. Qed.
Lemma ln2_pos : 0 < ln 2.
Proof. rewrite <- ln_1. apply ln_increasing; lra. Qed.
Lemma ln_mono x y : 0 < x -> x <= y -> ln x <= ln y.
Proof. intros Hx [H|H]; [left; now apply ln_increasing|right; now rewrite H]. Qed.
Lemma lg_true_ok : log_ok lg_true.
Proof.
  intros x _ [H1 H2]. pose proof (bpow_gt_0 radix2 (-900)) as H0.
  assert (H : Rabs (ln (B2R x)) <= 1000).
  { assert (Hx : 0 < B2R x) by lra. apply ln_mono in H1; [|exact H0]. apply ln_mono in H2; [|exact Hx]. rewrite ln_bpow in H1, H2. pose proof ln2_le. pose proof ln2_pos. apply Rabs_le. lra. }
  destruct (lg_true_value x H) as [E1 E2]. split; [exact E1|]. rewrite E2. apply (rnd_abs _ 1000); [lia|exact H].
Qed.
Lemma lg_true_close : log_close lg_true.
Proof.
  intros z Hz. destruct (ofZ_correct z) as (_ & Ez & _); [lia|]. pose proof (ln_count z Hz) as Hl.
  assert (H : Rabs (ln (B2R (f64_ofZ z))) <= 1000) by (rewrite Ez; apply Rabs_le; lra).
  destruct (lg_true_value _ H) as [E1 E2]. split; [exact E1|]. rewrite E2, Ez. pose proof (rnd_close (ln (IZR z))) as Hr.
  pose proof u0 as Hu. rewrite u46. assert (Rabs (ln (IZR z)) <= 53) by (apply Rabs_le; lra).
  assert ((Rabs (ln (IZR z)) + 1) * u53 <= 54 * u53) by (apply Rmult_le_compat_r; lra). lra.
Qed.
