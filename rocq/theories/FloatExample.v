(** FloatExample: a concrete logarithm for executable examples: piecewise linear between powers of
    two, on 20 fractional bits, clamped to [-512, 512]; log(0) = -inf, as in C++. It satisfies the assumption made on std::log. *)
From Coq Require Import Reals Lra.
From Flocq Require Import Core BinarySingleNaN.
From Verif Require Import Base FloatOps FloatLaws FloatIEEE.
Local Open Scope Z_scope.

Definition lg_fix (m e : Z) : Z :=
  let n := Z.log2 m in
  Z.shiftr (((n + e) * 1048576 + (Z.shiftr m (n - 20) - 1048576)) * 726817) 20.
Definition clamp (z : Z) : Z := Z.max (- 2 ^ 29) (Z.min z (2 ^ 29)).
Definition lg_example (x : f64) : f64 :=
  match x with
  | B754_finite false m e _ => binary_normalize 53 1024 eq_refl eq_refl mode_NE (clamp (lg_fix (Zpos m) e)) (-20) false
  | B754_zero _ => B754_infinity true
  | B754_infinity false => x
  | _ => B754_nan
  end.

Lemma clamp_bound z : Z.abs (clamp z) <= 2 ^ 29.
Proof. unfold clamp. lia. Qed.

Local Open Scope R_scope.
Lemma lg_example_pos m e Hx : let z := clamp (lg_fix (Zpos m) e) in
  is_finite (lg_example (B754_finite false m e Hx)) = true /\
  B2R (lg_example (B754_finite false m e Hx)) = rnd64 (IZR z / IZR (2 ^ 20)) /\ Rabs (IZR z / IZR (2 ^ 20)) <= IZR 512.
Proof.
  intro z. unfold lg_example. fold z.
  pose proof (clamp_bound (lg_fix (Zpos m) e)) as Hz. fold z in Hz.
  pose proof (binary_normalize_correct 53 1024 eq_refl eq_refl mode_NE z (-20) false) as H.
  cbn zeta in H. cbn [round_mode] in H.
  assert (E : F2R (Float radix2 z (-20)) = IZR z / IZR (2 ^ 20)) by reflexivity.
  rewrite E in H.
  assert (Hq : Rabs (IZR z / IZR (2 ^ 20)) <= IZR 512).
  { unfold Rdiv. rewrite Rabs_mult, <- abs_IZR.
    assert (Hp : 0 < IZR (2 ^ 20)) by (apply IZR_lt; lia).
    rewrite (Rabs_right (/ IZR (2 ^ 20))) by (apply Rle_ge, Rlt_le, Rinv_0_lt_compat; easy).
    apply (Rmult_le_reg_r (IZR (2 ^ 20))); [easy|].
    rewrite Rmult_assoc, Rinv_l, Rmult_1_r, <- mult_IZR by lra. apply IZR_le. exact Hz. }
  assert (Hr : Rabs (rnd64 (IZR z / IZR (2 ^ 20))) <= IZR 512) by (apply rnd_abs; [lia|exact Hq]).
  rewrite Rlt_bool_true in H; [|apply Rle_lt_trans with (IZR 512); [exact Hr|apply small_lt_emax; lia]].
  destruct H as (H1 & H2 & _). split; [exact H2|]. split; [exact H1|exact Hq].
Qed.
Lemma lg_example_ok : log_ok lg_example.
Proof.
  intros x Hf Hb. pose proof (bpow_gt_0 radix2 (-900)) as Hp.
  destruct x as [sx|sx| |sx m e Hx]; try easy.
  { cbn [B2R] in Hb. lra. }
  destruct sx.
  { exfalso. cbn [B2R cond_Zopp] in Hb. pose proof (F2R_lt_0 radix2 (Float radix2 (Zneg m) e) ltac:(cbn; lia)) as Hn.
    unfold cond_Zopp in Hb. cbn [Z.opp] in Hb. lra. }
  destruct (lg_example_pos m e Hx) as (H1 & H2 & H3). split; [easy|]. rewrite H2.
  apply Rle_trans with (IZR 512); [apply rnd_abs; [lia|exact H3]|]. apply IZR_le. lia.
Qed.

(** The arithmetic used by the executable examples and refutations. *)
Definition exf : fops := ieee lg_example.
Definition exl : flaws exf := ieee_laws lg_example lg_example_ok.
