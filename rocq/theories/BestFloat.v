(** Doubles: the sum of logarithms of a division is close to the logarithm of its probability. *)
From Coq Require Import Reals Lra Psatz.
From Flocq Require Import Core Relative BinarySingleNaN.
From Verif Require Import Base Spec FloatOps FloatLaws FloatIEEE SpecStat SpecWeight SpecBest.
Local Open Scope R_scope.

Notation u53 := (bpow radix2 (-53)).
Lemma u46 : bpow radix2 (-46) = 128 * u53.
Proof. replace (-46)%Z with (7 + -53)%Z by easy. rewrite bpow_plus. f_equal. Qed.
Lemma u47 : bpow radix2 (-47) = 64 * u53.
Proof. replace (-47)%Z with (6 + -53)%Z by easy. rewrite bpow_plus. f_equal. Qed.
Lemma u44 : bpow radix2 (-44) = 512 * u53.
Proof. replace (-44)%Z with (9 + -53)%Z by easy. rewrite bpow_plus. f_equal. Qed.
Lemma u0 : 0 < u53.
Proof. apply bpow_gt_0. Qed.
Lemma u1 : u53 * IZR (2 ^ 53) = 1.
Proof. change (IZR (2 ^ 53)) with (bpow radix2 53). rewrite <- bpow_plus. reflexivity. Qed.

Lemma rnd_close x : Rabs (rnd64 x - x) <= (Rabs x + 1) * u53.
Proof.
  change fexp64 with (FLT_exp (-1074) 53). destruct (error_N_FLT radix2 (-1074) 53 ltac:(easy) (fun z => negb (Z.even z)) x) as (eps & eta & H1 & H2 & _ & ->).
  replace (x * (1 + eps) + eta - x) with (x * eps + eta) by ring.
  assert (E1 : / 2 * bpow radix2 (- (53) + 1) = u53).
  { change (-(53) + 1)%Z with (1 + -53)%Z. rewrite bpow_plus. change (bpow radix2 1) with 2. lra. }
  assert (E2 : / 2 * bpow radix2 (-1074) <= u53).
  { pose proof (bpow_gt_0 radix2 (-1074)). pose proof (bpow_le radix2 (-1074) (-53) ltac:(lia)). lra. }
  rewrite E1 in H1. apply Rle_trans with (Rabs (x * eps) + Rabs eta); [apply Rabs_triang|]. rewrite Rabs_mult.
  pose proof (Rabs_pos x). assert (Rabs x * Rabs eps <= Rabs x * u53) by (now apply Rmult_le_compat_l). lra.
Qed.

Lemma ln2_le : ln 2 <= 1.
Proof. rewrite <- (ln_exp 1). left. apply ln_increasing; [lra|]. pose proof (exp_ineq1 1). lra. Qed.
Lemma ln_count z : (1 <= z <= 2 ^ 53)%Z -> 0 <= ln (IZR z) <= 53.
Proof.
  intro H. assert (H1 : 1 <= IZR z) by (apply IZR_le; lia). split.
  - rewrite <- ln_1. destruct (Req_dec 1 (IZR z)) as [<-|Hne]; [lra|]. left. apply ln_increasing; lra.
  - apply Rle_trans with (ln (IZR (2 ^ 53))).
    + destruct (Z.eq_dec z (2 ^ 53)) as [->|Hne]; [apply Rle_refl|]. left. apply ln_increasing; [lra|]. apply IZR_lt. lia.
    + change (IZR (2 ^ 53)) with (bpow radix2 53). rewrite bpow_exp, ln_exp. change (IZR radix2) with 2. pose proof ln2_le. lra.
Qed.

Section N.
  Context (lg : f64 -> f64) (Hc : log_close lg).
  Context (freqs : list Z) (n : nat) (Hf : Forall (fun f => 0 <= f < 2 ^ 53)%Z freqs) (Hn : (1 <= zsum freqs + Z.of_nat n <= 2 ^ 53)%Z).
  Notation W := (word_weight (ieee lg) freqs (zsum freqs) n).
  Notation P := (word_prob freqs n).

  Lemma prob_pos i : 0 < P i.
  Proof.
    unfold word_prob. apply Rdiv_lt_0_compat; apply IZR_lt; [|lia]. destruct (nth_error freqs i) as [f|] eqn:E; [|lia].
    apply nth_error_In in E. pose proof (proj1 (Forall_forall _ _) Hf f E). cbn beta in *. lia.
  Qed.
  Lemma weight_close i : is_finite (W i) = true /\ Rabs (B2R (W i) - ln (P i)) <= 311 * u53 /\ Rabs (ln (P i)) <= 53.
  Proof.
    pose proof u0 as Hu. pose proof u1 as Hu1. destruct (Hc _ Hn) as [Ft Ct]. pose proof (ln_count _ Hn) as Lt. rewrite u46 in Ct.
    assert (A : exists (x : f64) (y : R), W i = Bminus mode_NE x (lg (f64_ofZ (zsum freqs + Z.of_nat n))) /\ is_finite x = true /\
      Rabs (B2R x - y) <= 128 * u53 /\ 0 <= y <= 53 /\ ln (P i) = y - ln (IZR (zsum freqs + Z.of_nat n))).
    { unfold word_weight, word_prob. cbn [fsub flog fofZ ieee]. assert (Ht0 : 0 < IZR (zsum freqs + Z.of_nat n)) by (apply IZR_lt; lia).
      destruct (nth_error freqs i) as [f|] eqn:E.
      - apply nth_error_In in E. pose proof (proj1 (Forall_forall _ _) Hf f E) as Hb. cbn beta in Hb.
        assert (Hr : (1 <= f + 1 <= 2 ^ 53)%Z) by lia. destruct (Hc _ Hr) as [F1 C1]. rewrite u46 in C1.
        exists (lg (f64_ofZ (f + 1))), (ln (IZR (f + 1))). split; [easy|]. split; [exact F1|]. split; [exact C1|]. split; [now apply ln_count|].
        assert (0 < IZR (f + 1)) by (apply IZR_lt; lia). unfold Rdiv. rewrite ln_mult, ln_Rinv by (try apply Rinv_0_lt_compat; easy). ring.
      - destruct (ofZ_correct 0) as (F1 & E1 & _); [easy|]. exists (f64_ofZ 0), 0. split; [easy|]. split; [exact F1|]. split; [|split; [lra|]].
        + rewrite E1, Rminus_0_r, Rabs_R0. lra.
        + unfold Rdiv. rewrite Rmult_1_l, ln_Rinv by easy. ring. }
    destruct A as (x & y & -> & Fx & Cx & Hy & ->). set (b := lg (f64_ofZ (zsum freqs + Z.of_nat n))) in *. set (t := ln (IZR (zsum freqs + Z.of_nat n))) in *.
    apply Rabs_le_inv in Cx, Ct.
    assert (Hu2 : 256 * u53 <= 1) by (assert (256 <= IZR (2 ^ 53)) by (apply IZR_le; lia); nra).
    assert (Hb : Rabs (B2R x - B2R b) <= 54) by (apply Rabs_le; lra).
    destruct (minus_bnd (IZR 54) (int_format 54 ltac:(easy)) (small_lt_emax 54 ltac:(easy)) x b Fx Ft Hb) as (F1 & E1 & _).
    split; [exact F1|]. split; [|apply Rabs_le; lra]. rewrite E1. pose proof (rnd_close (B2R x - B2R b)) as Hr.
    assert ((Rabs (B2R x - B2R b) + 1) * u53 <= 55 * u53) by (apply Rmult_le_compat_r; lra).
    assert (Hr2 : Rabs (rnd64 (B2R x - B2R b) - (B2R x - B2R b)) <= 55 * u53) by lra. apply Rabs_le_inv in Hr2. apply Rabs_le. lra.
  Qed.

  Lemma split_pos ids : 0 < split_prob freqs n ids.
  Proof. induction ids as [|i ids IH]; cbn [split_prob fold_right]; [lra|]. apply Rmult_lt_0_compat; [apply prob_pos|exact IH]. Qed.

  (** The running sum stays close. *)
  Context (m : nat) (Hm : (Z.of_nat m <= 2 ^ 40)%Z).
  Let eta := 512 * u53 + INR m * (64 * u53).
  Lemma eta_small : 0 < eta <= 1.
  Proof.
    pose proof u0. pose proof u1 as Hu1. unfold eta. pose proof (pos_INR m) as Hp.
    assert (Hm' : INR m <= IZR (2 ^ 40)) by (rewrite INR_IZR_INZ; now apply IZR_le).
    assert (E : IZR (2 ^ 53) = 8192 * IZR (2 ^ 40)) by (rewrite <- mult_IZR; f_equal). split; [nra|].
    assert (INR m * u53 <= IZR (2 ^ 40) * u53) by (apply Rmult_le_compat_r; lra).
    assert (1 <= IZR (2 ^ 40)) by (apply IZR_le; lia). nra.
  Qed.
  Lemma sum_close : forall ids k a e, (k + length ids <= m)%nat -> is_finite a = true -> Rabs (B2R a - e) <= INR k * eta -> Rabs e <= 53 * INR k ->
    let r := fold_left (fun x i => fadd (ieee lg) x (W i)) ids a in
    is_finite r = true /\ Rabs (B2R r - (e + ln (split_prob freqs n ids))) <= INR m * eta.
  Proof.
    pose proof u0 as Hu. pose proof eta_small as He. induction ids as [|i ids IH]; intros k a e Hk Fa Ha Hb r.
    - unfold r. cbn [fold_left split_prob fold_right]. split; [exact Fa|]. rewrite ln_1, Rplus_0_r. apply Rle_trans with (1 := Ha). cbn [length] in Hk.
      apply Rmult_le_compat_r; [lra|]. apply le_INR. lia.
    - cbn [length] in Hk. destruct (weight_close i) as (Fw & Cw & Lw). apply Rabs_le_inv in Cw, Lw, Ha, Hb.
      assert (Hk1 : INR (S k) = INR k + 1) by apply S_INR.
      assert (Hkm : INR (S k) <= INR m) by (apply le_INR; lia).
      pose proof (pos_INR k) as Hk0.
      assert (Hx : Rabs (B2R a + B2R (W i)) <= 54 * INR (S k)).
      { assert (INR k * eta <= INR k) by nra. assert (311 * u53 <= 1) by (pose proof u1; assert (311 <= IZR (2 ^ 53)) by (apply IZR_le; lia); nra).
        apply Rabs_le. lra. }
      assert (Hx' : Rabs (B2R a + B2R (W i)) <= IZR (54 * Z.of_nat (S k))) by (rewrite mult_IZR, <- INR_IZR_INZ; exact Hx).
      destruct (plus_small a (W i) (54 * Z.of_nat (S k)) ltac:(lia) Fa Fw Hx') as (F1 & E1 & _).
      assert (Hp : 0 < split_prob freqs n ids) by apply split_pos.
      assert (Els : ln (split_prob freqs n (i :: ids)) = ln (P i) + ln (split_prob freqs n ids)).
      { cbn [split_prob fold_right]. fold (split_prob freqs n ids). apply ln_mult; [apply prob_pos|exact Hp]. }
      rewrite Els. rewrite <- Rplus_assoc. unfold r. cbn [fold_left]. apply (IH (S k)); [lia|exact F1| |].
      + cbn [fadd ieee]. rewrite E1. pose proof (rnd_close (B2R a + B2R (W i))) as Hr.
        assert ((Rabs (B2R a + B2R (W i)) + 1) * u53 <= (55 * INR m) * u53).
        { apply Rmult_le_compat_r; [lra|]. lra. }
        assert (Hr2 : Rabs (rnd64 (B2R a + B2R (W i)) - (B2R a + B2R (W i))) <= 55 * INR m * u53) by lra. apply Rabs_le_inv in Hr2.
        assert (Em : 0 <= INR m * u53) by (apply Rmult_le_pos; [apply pos_INR|lra]).
        rewrite Hk1. apply Rabs_le. unfold eta in *. rewrite Rmult_plus_distr_r, Rmult_1_l. lra.
      + rewrite Hk1. apply Rabs_le. lra.
  Qed.
  Lemma split_close ids : (length ids <= m)%nat ->
    is_finite (split_weight (ieee lg) freqs (zsum freqs) n ids) = true /\
    Rabs (B2R (split_weight (ieee lg) freqs (zsum freqs) n ids) - ln (split_prob freqs n ids)) <= INR m * eta.
  Proof.
    intro H. destruct (ofZ_correct 0) as (F0 & E0 & _); [easy|]. rewrite <- (Rplus_0_l (ln (split_prob freqs n ids))).
    apply (sum_close ids 0 (f64_ofZ 0) 0); [easy|exact F0| |].
    - rewrite E0. cbn [INR]. rewrite Rminus_0_r, Rabs_R0. lra.
    - cbn [INR]. rewrite Rabs_R0. lra.
  Qed.
  Lemma near_best ids ids' : (length ids <= m)%nat -> (length ids' <= m)%nat ->
    fltb (ieee lg) (split_weight (ieee lg) freqs (zsum freqs) n ids) (split_weight (ieee lg) freqs (zsum freqs) n ids') = false ->
    split_prob freqs n ids' <= split_prob freqs n ids * exp (slack m).
  Proof.
    intros H H' Hlt. destruct (split_close ids H) as [F1 C1]. destruct (split_close ids' H') as [F2 C2]. cbn [fltb ieee] in Hlt.
    apply bltb_false in Hlt; [|exact F1|exact F2]. apply Rabs_le_inv in C1, C2. pose proof (split_pos ids) as P1. pose proof (split_pos ids') as P2.
    rewrite <- (exp_ln (split_prob freqs n ids')), <- (exp_ln (split_prob freqs n ids)), <- exp_plus by easy.
    assert (E : slack m = 2 * (INR m * eta)) by (unfold slack, eta; rewrite u44, u47; ring). rewrite E.
    assert (Hl : ln (split_prob freqs n ids') <= ln (split_prob freqs n ids) + 2 * (INR m * eta)) by lra.
    destruct Hl as [Hl|Hl]; [left; now apply exp_increasing|right; now rewrite Hl].
  Qed.
End N.
