(** FloatScore: in IEEE binary64, gamma variates within [2^-160, 2^100] give pair scores that are
    numbers below the largest double. *)
From Coq Require Import Reals Lra.
From Flocq Require Import Core BinarySingleNaN.
From Verif Require Import Base FloatOps FloatLaws FloatIEEE Maps ModelDict ModelStat Spec SpecStat.
Local Open Scope R_scope.

#[local] Instance valid64' : Valid_exp fexp64.
Proof. change fexp64 with (FLT_exp (-1074) 53). apply FLT_exp_valid. easy. Qed.

(** Finite and between two powers of two. *)
Definition inr (a b : Z) (x : f64) : Prop :=
  is_finite x = true /\ bpow radix2 a <= B2R x <= bpow radix2 b.
Definition okexp (a b : Z) : Prop := (-1074 <= a)%Z /\ (-1074 <= b < 1024)%Z.

Lemma rnd_in a b r : okexp a b -> bpow radix2 a <= r <= bpow radix2 b ->
  bpow radix2 a <= rnd64 r <= bpow radix2 b.
Proof.
  intros [Ha Hb] [H1 H2]. split.
  - apply round_ge_generic; auto with typeclass_instances. now apply fmt_pow.
  - apply round_le_generic; auto with typeclass_instances. now apply fmt_pow.
Qed.
Lemma pos_abs a b r : bpow radix2 a <= r <= bpow radix2 b -> Rabs r <= bpow radix2 b.
Proof.
  intros [H1 H2]. rewrite Rabs_right; [easy|]. apply Rle_ge. apply Rle_trans with (bpow radix2 a); [apply bpow_ge_0|easy].
Qed.
Lemma inr_pos a b x : inr a b x -> 0 < B2R x.
Proof. intros (_ & H & _). apply Rlt_le_trans with (bpow radix2 a); [apply bpow_gt_0|easy]. Qed.

Lemma inr_plus a b c x y : okexp a (b + 1) -> inr a b x -> inr c b y -> inr a (b + 1) (Bplus mode_NE x y).
Proof.
  intros Hok Hx Hy. pose proof (inr_pos _ _ _ Hy) as Hp. destruct Hx as (Fx & X1 & X2), Hy as (Fy & Y1 & Y2).
  assert (H : bpow radix2 a <= B2R x + B2R y <= bpow radix2 (b + 1)).
  { split; [lra|]. rewrite bpow_plus. change (bpow radix2 1) with 2. lra. }
  destruct (plus_bnd (bpow radix2 (b + 1))) with (x := x) (y := y) as (F1 & E1 & _); try easy.
  - apply fmt_pow. apply Hok.
  - apply bpow_lt. apply Hok.
  - now apply (pos_abs a).
  - split; [easy|]. rewrite E1. now apply rnd_in.
Qed.
Lemma inr_zero_plus a b y : okexp a b -> inr a b y -> inr a b (Bplus mode_NE (f64_ofZ 0) y).
Proof.
  intros Hok (Fy & Hy). destruct (ofZ_correct 0) as (F0 & E0 & _); [easy|].
  destruct (plus_bnd (bpow radix2 b)) with (x := f64_ofZ 0) (y := y) as (F1 & E1 & _); try easy.
  - apply fmt_pow. apply Hok.
  - apply bpow_lt. apply Hok.
  - rewrite E0, Rplus_0_l. now apply (pos_abs a).
  - split; [easy|]. rewrite E1, E0, Rplus_0_l. now apply rnd_in.
Qed.
Lemma inr_mult a b c d x y : okexp (a + c) (b + d) -> inr a b x -> inr c d y -> inr (a + c) (b + d) (Bmult mode_NE x y).
Proof.
  intros Hok Hx Hy. pose proof (inr_pos _ _ _ Hx) as Px. pose proof (inr_pos _ _ _ Hy) as Py.
  destruct Hx as (Fx & X1 & X2), Hy as (Fy & Y1 & Y2).
  assert (H : bpow radix2 (a + c) <= B2R x * B2R y <= bpow radix2 (b + d)).
  { rewrite !bpow_plus. split; apply Rmult_le_compat; try lra; apply bpow_ge_0. }
  destruct (mult_bnd (bpow radix2 (b + d))) with (x := x) (y := y) as (F1 & E1 & _); try easy.
  - apply fmt_pow. apply Hok.
  - apply bpow_lt. apply Hok.
  - now apply (pos_abs (a + c)).
  - split; [easy|]. rewrite E1. now apply rnd_in.
Qed.
Lemma inr_div a b c d x y : okexp (a - d) (b - c) -> inr a b x -> inr c d y -> inr (a - d) (b - c) (Bdiv mode_NE x y).
Proof.
  intros Hok Hx Hy. pose proof (inr_pos _ _ _ Hx) as Px. pose proof (inr_pos _ _ _ Hy) as Py.
  destruct Hx as (Fx & X1 & X2), Hy as (Fy & Y1 & Y2).
  assert (H : bpow radix2 (a - d) <= B2R x / B2R y <= bpow radix2 (b - c)).
  { unfold Z.sub. rewrite !bpow_plus, !bpow_opp. unfold Rdiv.
    split; apply Rmult_le_compat; try lra; try apply bpow_ge_0.
    - apply Rlt_le, Rinv_0_lt_compat, bpow_gt_0.
    - now apply Rinv_le.
    - now apply Rlt_le, Rinv_0_lt_compat.
    - apply Rinv_le; [apply bpow_gt_0|easy]. }
  destruct (div_bnd (bpow radix2 (b - c))) with (x := x) (y := y) as (F1 & E1 & _); try easy.
  - apply fmt_pow. apply Hok.
  - apply bpow_lt. apply Hok.
  - lra.
  - now apply (pos_abs (a - d)).
  - split; [easy|]. rewrite E1. now apply rnd_in.
Qed.
Lemma inr_weak a b a' b' x : (a' <= a)%Z -> (b <= b')%Z -> inr a b x -> inr a' b' x.
Proof.
  intros H1 H2 (F & X1 & X2). split; [easy|]. split.
  - apply Rle_trans with (bpow radix2 a); [apply bpow_le; lia|easy].
  - apply Rle_trans with (bpow radix2 b); [easy|apply bpow_le; lia].
Qed.
Lemma inr_count c : (1 <= c <= 2 ^ 53)%Z -> inr 0 53 (f64_ofZ c).
Proof.
  intro H. destruct (ofZ_range c) as (F1 & E1 & H1); [lia|]. split; [easy|]. rewrite E1. split.
  - change (bpow radix2 0) with 1. apply IZR_le. lia.
  - apply Rle_trans with (IZR (2 ^ 53)); [easy|]. now apply two53_le.
Qed.

Lemma big_max : bpow radix2 700 < B2R f64_max.
Proof.
  assert (C : B2SF f64_max = SpecFloat.S754_finite false (2 ^ 53 - 1) 971) by (vm_compute; reflexivity).
  rewrite <- (SF2R_B2SF 53 1024 f64_max), C. cbn [SF2R cond_Zopp]. unfold F2R. cbn [Fnum Fexp].
  apply Rlt_le_trans with (1 * bpow radix2 971).
  - rewrite Rmult_1_l. apply bpow_lt; lia.
  - apply Rmult_le_compat_r; [apply bpow_ge_0|]. apply IZR_le. lia.
Qed.

(** What is assumed of the gamma variates: there is one per parameter, in [2^-160, 2^100]. *)
Definition gamma_ok (e : list f64 -> list f64) : Prop := forall ps,
  length (e ps) = length ps /\ Forall (inr (-160) 100) (e ps).

Section Score.
  Context (lg : f64 -> f64) (Hlg : log_ok lg).

  Lemma ten_small (v : f64) : is_finite v = true -> Rabs (B2R v) <= bpow radix2 600 ->
    score_fine (ieee lg) (ten_times (ieee lg) v).
  Proof.
    intros Fv Hv.
    assert (H : forall k : nat, (k <= 10)%nat ->
      is_finite (Nat.iter k (fun a => Bplus mode_NE a v) (f64_ofZ 0)) = true /\
      Rabs (B2R (Nat.iter k (fun a => Bplus mode_NE a v) (f64_ofZ 0))) <= IZR (Z.of_nat k) * bpow radix2 600).
    { induction k as [|k IH]; intro Hk.
      - destruct (ofZ_correct 0) as (F0 & E0 & _); [easy|]. cbn [Nat.iter nat_rect]. split; [easy|].
        rewrite E0, Rabs_R0. change (IZR (Z.of_nat 0)) with 0. lra.
      - destruct IH as [F1 H1]; [lia|]. cbn [Nat.iter nat_rect].
        set (x := Nat.iter k _ _) in *.
        assert (HS : IZR (Z.of_nat (S k)) = IZR (Z.of_nat k) + 1) by (rewrite Nat2Z.inj_succ, succ_IZR; easy).
        destruct (plus_bnd (IZR (Z.of_nat (S k)) * bpow radix2 600)) with (x := x) (y := v) as (F2 & _ & H2); try easy.
        + apply fmt_mpow; lia.
        + apply Rle_lt_trans with (bpow radix2 4 * bpow radix2 600).
          * apply Rmult_le_compat_r; [apply bpow_ge_0|]. change (bpow radix2 4) with 16. apply IZR_le. lia.
          * rewrite <- bpow_plus. apply bpow_lt; lia.
        + rewrite HS. eapply Rle_trans; [apply Rabs_triang|]. lra. }
    destruct (H 10%nat) as [F1 H1]; [lia|]. unfold ten_times, ieee. cbn [fadd fofZ F].
    unfold score_fine. cbn [fnan fltb fmax]. split; [now apply fin_num|].
    apply bltb_true; [easy|reflexivity|].
    apply Rle_lt_trans with (Rabs (B2R (Nat.iter 10 (fun a => Bplus mode_NE a v) (f64_ofZ 0)))); [apply Rle_abs|].
    apply Rle_lt_trans with (1 := H1). apply Rle_lt_trans with (2 := big_max).
    apply Rle_trans with (bpow radix2 4 * bpow radix2 600).
    - apply Rmult_le_compat_r; [apply bpow_ge_0|]. change (bpow radix2 4) with 16. apply IZR_le. lia.
    - rewrite <- bpow_plus. apply bpow_le; lia.
  Qed.

  Lemma ieee_draws (e : env (ieee lg)) : gamma_ok (e_gamma e) -> draws_ok (ieee lg) e.
  Proof.
    intros He c s n t Hc Hn Ht. unfold round_value.
    match goal with |- context [e_gamma e ?ps] => destruct (He ps) as [Hlen Hall]; destruct (e_gamma e ps) as
      [|g1 [|g2 [|g3 [|g4 [|g5 rest]]]]] end; try discriminate Hlen.
    clear Hlen. inversion_clear Hall as [|? ? G1 H1]. inversion_clear H1 as [|? ? G2 H2].
    inversion_clear H2 as [|? ? G3 H3]. inversion_clear H3 as [|? ? G4 _].
    eexists. split; [reflexivity|]. cbn [fold_left]. unfold ieee. cbn [fadd fsub fmul fdiv fofZ flog F].
    fold (ieee lg).
    set (tot := Bplus mode_NE (Bplus mode_NE (Bplus mode_NE (Bplus mode_NE (f64_ofZ 0) g1) g2) g3) g4).
    assert (T : inr (-160) 103 tot).
    { unfold tot.
      assert (T1 : inr (-160) 100 (Bplus mode_NE (f64_ofZ 0) g1)) by (apply inr_zero_plus; [unfold okexp; lia|easy]).
      assert (T2 : inr (-160) 101 (Bplus mode_NE (Bplus mode_NE (f64_ofZ 0) g1) g2))
        by (apply (inr_plus (-160) 100 (-160)); [unfold okexp; lia|easy|easy]).
      assert (T3 : inr (-160) 102 (Bplus mode_NE (Bplus mode_NE (Bplus mode_NE (f64_ofZ 0) g1) g2) g3))
        by (apply (inr_plus (-160) 101 (-160)); [unfold okexp; lia|easy|now apply (inr_weak (-160) 100)]).
      apply (inr_plus (-160) 102 (-160)); [unfold okexp; lia|easy|now apply (inr_weak (-160) 100)]. }
    assert (One : inr 0 0 (f64_ofZ 1)).
    { destruct (ofZ_correct 1) as (F1 & E1 & _); [easy|]. split; [easy|]. rewrite E1. change (bpow radix2 0) with 1. lra. }
    set (inv := Bdiv mode_NE (f64_ofZ 1) tot).
    assert (I : inr (-103) 160 inv) by (apply (inr_div 0 0 (-160) 103); [unfold okexp; lia|easy|easy]).
    set (pAB := Bmult mode_NE g1 inv). set (pAY := Bmult mode_NE g2 inv). set (pXB := Bmult mode_NE g3 inv).
    assert (A : inr (-263) 260 pAB) by (apply (inr_mult (-160) 100 (-103) 160); [unfold okexp; lia|easy|easy]).
    assert (B : inr (-263) 260 pAY) by (apply (inr_mult (-160) 100 (-103) 160); [unfold okexp; lia|easy|easy]).
    assert (D : inr (-263) 260 pXB) by (apply (inr_mult (-160) 100 (-103) 160); [unfold okexp; lia|easy|easy]).
    assert (S1 : inr (-263) 261 (Bplus mode_NE pAY pAB)) by (apply (inr_plus (-263) 260 (-263)); [unfold okexp; lia|easy|easy]).
    assert (S2 : inr (-263) 261 (Bplus mode_NE pXB pAB)) by (apply (inr_plus (-263) 260 (-263)); [unfold okexp; lia|easy|easy]).
    assert (C0 : inr 0 53 (f64_ofZ c)) by (apply inr_count; lia).
    assert (M1 : inr (-263) 313 (Bmult mode_NE (f64_ofZ c) pAB))
      by (apply (inr_mult 0 53 (-263) 260); [unfold okexp; lia|easy|easy]).
    assert (Q1 : inr (-524) 576 (Bdiv mode_NE (Bmult mode_NE (f64_ofZ c) pAB) (Bplus mode_NE pAY pAB)))
      by (apply (inr_div (-263) 313 (-263) 261); [unfold okexp; lia|easy|easy]).
    assert (Q2 : inr (-524) 523 (Bdiv mode_NE pAB (Bplus mode_NE pAY pAB)))
      by (apply (inr_div (-263) 260 (-263) 261); [unfold okexp; lia|easy|easy]).
    assert (Q3 : inr (-785) 786 (Bdiv mode_NE (Bdiv mode_NE pAB (Bplus mode_NE pAY pAB)) (Bplus mode_NE pXB pAB)))
      by (apply (inr_div (-524) 523 (-263) 261); [unfold okexp; lia|easy|easy]).
    apply (inr_weak _ _ (-900) 900) in Q3; [|lia|lia]. destruct Q3 as [F3 R3].
    destruct (Hlg _ F3 R3) as [Fl Rl].
    set (ll := lg _) in *.
    set (q1 := Bdiv mode_NE (Bmult mode_NE (f64_ofZ c) pAB) (Bplus mode_NE pAY pAB)) in *.
    assert (Hm : Rabs (B2R q1 * B2R ll) <= bpow radix2 586).
    { rewrite Rabs_mult. change 586%Z with (576 + 10)%Z. rewrite bpow_plus.
      apply Rmult_le_compat; try apply Rabs_pos.
      - destruct Q1 as [_ Q1]. now apply (pos_abs (-524)).
      - change (bpow radix2 10) with 1024. lra. }
    destruct (mult_bnd (bpow radix2 586)) with (x := q1) (y := ll) as (F4 & _ & R4); try easy.
    { apply fmt_pow. lia. }
    { apply bpow_lt; lia. }
    { apply Q1. }
    destruct (ofZ_correct 10) as (F10 & E10 & _); [easy|].
    destruct (div_bnd (bpow radix2 586)) with (x := Bmult mode_NE q1 ll) (y := f64_ofZ 10) as (F5 & _ & R5); try easy.
    { apply fmt_pow. lia. }
    { apply bpow_lt; lia. }
    { rewrite E10. lra. }
    { rewrite E10. unfold Rdiv. rewrite Rabs_mult. rewrite (Rabs_right (/ 10)) by lra.
      apply Rle_trans with (Rabs (B2R (Bmult mode_NE q1 ll)) * 1); [|lra].
      apply Rmult_le_compat_l; [apply Rabs_pos|lra]. }
    apply ten_small; [easy|]. apply Rle_trans with (bpow radix2 586); [easy|]. apply bpow_le; lia.
  Qed.
End Score.
