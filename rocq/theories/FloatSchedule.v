(** FloatSchedule: the waiting time `-log(prob_found) / min_probability` of stat_dict_p.cc:86-88 grows when the probability of missing
    a word or the minimum probability becomes smaller. Proved for IEEE binary64, for a logarithm that is monotonic below 1/10. *)
From Coq Require Import Reals Lra.
From Flocq Require Import Core BinarySingleNaN.
From Verif Require Import Base FloatOps FloatLaws FloatIEEE FloatExample FloatRebuild.
Local Open Scope Z_scope.

Record wlaws (fl : fops) (L : flaws fl) (thr : Z) (Rl : rlaws fl L thr) := {
  rm_num : forall m, rm fl L thr Rl m -> fnan fl m = false;
  wait_num : forall p m, rp fl L thr Rl p -> rm fl L thr Rl m -> fnan fl (fdiv fl (fneg fl (flog fl p)) m) = false;
  wait_prob : forall p m, rp fl L thr Rl p -> rm fl L thr Rl m ->
    fltb fl (fdiv fl (fneg fl (flog fl (fmul fl p (flit fl 8 10)))) m) (fdiv fl (fneg fl (flog fl p)) m) = false;
  wait_minp : forall p m m', rp fl L thr Rl p -> rm fl L thr Rl m -> rm fl L thr Rl m' -> fltb fl m m' = false ->
    fltb fl (fdiv fl (fneg fl (flog fl p)) m') (fdiv fl (fneg fl (flog fl p)) m) = false
}.

Local Open Scope R_scope.
(** What is assumed of std::log between 0 and 1/10: it does not decrease. *)
Definition log_mono (lg : f64 -> f64) : Prop := forall x y : f64,
  is_finite x = true -> is_finite y = true -> 0 <= B2R x <= B2R y -> B2R y <= 1 / 10 + bpow radix2 (-50) ->
  lg x = B754_infinity true \/ (is_finite (lg x) = true /\ is_finite (lg y) = true /\ B2R (lg x) <= B2R (lg y)).

(** The example logarithm. *)
Lemma shiftr_floor (m k : Z) : Z.shiftr m k = Zfloor (IZR m * bpow radix2 (- k)).
Proof.
  destruct (Z.le_gt_cases 0 k) as [Hk|Hk].
  - rewrite Z.shiftr_div_pow2 by easy. rewrite bpow_opp, <- (IZR_Zpower radix2 k Hk).
    change (Zpower radix2 k) with (2 ^ k)%Z. symmetry. apply Zfloor_div. assert (0 < 2 ^ k)%Z by (apply Z.pow_pos_nonneg; lia). lia.
  - rewrite <- (Z.opp_involutive k) at 1. rewrite Z.shiftr_opp_r, Z.shiftl_mul_pow2 by lia.
    rewrite <- (IZR_Zpower radix2 (- k)) by lia. rewrite <- mult_IZR. now rewrite Zfloor_IZR.
Qed.
Definition lg_real (k : Z) (v : R) : Z := Z.shiftr ((k * 1048576 + (Zfloor (v * bpow radix2 (20 - k)) - 1048576)) * 726817) 20.
Lemma lg_fix_real m e : let k := (Z.log2 (Zpos m) + e)%Z in let v := IZR (Zpos m) * bpow radix2 e in
  lg_fix (Zpos m) e = lg_real k v /\ bpow radix2 k <= v < bpow radix2 (k + 1).
Proof.
  intros k v. set (n := Z.log2 (Zpos m)) in *. assert (Hn : (0 <= n)%Z) by apply Z.log2_nonneg.
  destruct (Z.log2_spec (Zpos m) eq_refl) as [L1 L2]. fold n in L1, L2. split.
  - unfold lg_fix, lg_real. fold n. fold k. do 4 f_equal. rewrite shiftr_floor. f_equal. unfold v, k. rewrite Rmult_assoc, <- bpow_plus.
    f_equal. f_equal. lia.
  - unfold v, k. split.
    + rewrite bpow_plus. apply Rmult_le_compat_r; [apply bpow_ge_0|]. rewrite <- (IZR_Zpower radix2 n Hn). now apply IZR_le.
    + replace (n + e + 1)%Z with (Z.succ n + e)%Z by lia. rewrite bpow_plus. apply Rmult_lt_compat_r; [apply bpow_gt_0|].
      rewrite <- (IZR_Zpower radix2 (Z.succ n)) by lia. now apply IZR_lt.
Qed.
Lemma lg_real_mono k v k' v' : bpow radix2 k <= v < bpow radix2 (k + 1) -> bpow radix2 k' <= v' < bpow radix2 (k' + 1) -> v <= v' ->
  (lg_real k v <= lg_real k' v')%Z.
Proof.
  intros H H' Hv.
  assert (Hk : (k <= k')%Z).
  { destruct (Z.le_gt_cases k k') as [|Hg]; [easy|]. exfalso. assert (bpow radix2 (k' + 1) <= bpow radix2 k) by (apply bpow_le; lia). lra. }
  assert (B : forall k v, bpow radix2 k <= v < bpow radix2 (k + 1) -> (1048576 <= Zfloor (v * bpow radix2 (20 - k)) < 2097152)%Z).
  { clear. intros k v [H1 H2]. pose proof (bpow_gt_0 radix2 (20 - k)) as Hp. split.
    - apply Zfloor_lub. change (IZR 1048576) with (bpow radix2 20). replace 20%Z with (k + (20 - k))%Z at 1 by lia. rewrite bpow_plus.
      apply Rmult_le_compat_r; lra.
    - apply lt_IZR. apply Rle_lt_trans with (v * bpow radix2 (20 - k)); [apply Zfloor_lb|].
      change (IZR 2097152) with (bpow radix2 21). replace 21%Z with (k + 1 + (20 - k))%Z at 1 by lia. rewrite bpow_plus.
      apply Rmult_lt_compat_r; lra. }
  pose proof (B k v H) as B1. pose proof (B k' v' H') as B2. unfold lg_real.
  rewrite !Z.shiftr_div_pow2 by lia. apply Z.div_le_mono; [lia|]. apply Z.mul_le_mono_nonneg_r; [lia|].
  destruct (Z.eq_dec k k') as [<-|Hn]; [|lia].
  apply Z.add_le_mono_l, Z.sub_le_mono_r, Zfloor_le. apply Rmult_le_compat_r; [apply bpow_ge_0|easy].
Qed.
Lemma lg_example_mono : log_mono lg_example.
Proof.
  assert (N : forall m e Hx, ~ 0 <= B2R (B754_finite true m e Hx : f64)).
  { intros m e Hx Hb. cbn [B2R cond_Zopp] in Hb. pose proof (F2R_lt_0 radix2 (Float radix2 (Zneg m) e) ltac:(cbn; lia)) as Hn.
    unfold cond_Zopp in Hb. cbn [Z.opp] in Hb. lra. }
  intros x y Fx Fy Hxy Hy. destruct x as [sx|sx| |sx m e Hx]; try easy; [now left|].
  destruct sx; [exfalso; apply (N _ _ _ (proj1 Hxy))|].
  assert (Px : 0 < B2R (B754_finite false m e Hx : f64)) by (apply F2R_gt_0; cbn; lia).
  destruct y as [sy|sy| |sy m' e' Hy']; try easy; [exfalso; change (B2R (B754_zero sy : f64)) with 0 in Hxy; lra|].
  destruct sy; [exfalso; refine (N _ _ _ (Rle_trans _ _ _ (proj1 Hxy) (proj2 Hxy)))|].
  right. destruct (lg_example_pos m e Hx) as (H1 & H2 & _). destruct (lg_example_pos m' e' Hy') as (H1' & H2' & _).
  split; [easy|]. split; [easy|]. rewrite H2, H2'. apply rnd_mono. unfold Rdiv. apply Rmult_le_compat_r.
  { apply Rlt_le, Rinv_0_lt_compat, IZR_lt. lia. }
  apply IZR_le. destruct (lg_fix_real m e) as [E1 B1]. destruct (lg_fix_real m' e') as [E2 B2].
  assert (Hz : (lg_fix (Zpos m) e <= lg_fix (Zpos m') e')%Z).
  { rewrite E1, E2. apply lg_real_mono; [exact B1|exact B2|]. destruct Hxy as [_ Hxy]. exact Hxy. }
  unfold clamp. lia.
Qed.

(** The quotient. *)
Lemma wait_value (l m : f64) : is_finite l = true -> is_finite m = true -> 23025 / 10000 <= B2R l <= 1000 -> bpow radix2 (-300) <= B2R m <= 2000001 / 1000000000 ->
  is_finite (Bdiv mode_NE l m) = true /\ B2R (Bdiv mode_NE l m) = rnd64 (B2R l / B2R m).
Proof.
  intros Fl Fm Hl Hm. pose proof (bpow_gt_0 radix2 (-300)) as H300.
  assert (Hq : 0 <= B2R l / B2R m <= bpow radix2 400).
  { split.
    - apply Rmult_le_pos; [lra|]. apply Rlt_le, Rinv_0_lt_compat. lra.
    - apply Rle_trans with (bpow radix2 10 * bpow radix2 300); [|rewrite <- bpow_plus; apply bpow_le; lia].
      unfold Rdiv. apply Rmult_le_compat; try lra.
      + apply Rlt_le, Rinv_0_lt_compat. lra.
      + change (bpow radix2 10) with 1024. lra.
      + replace (bpow radix2 300) with (/ bpow radix2 (-300)); [apply Rinv_le; lra|]. now rewrite <- bpow_opp. }
  destruct (div_bnd (bpow radix2 400)) with (x := l) (y := m) as (Fd & Ed & _); try easy.
  - now apply fmt_pow.
  - now apply bpow_lt.
  - lra.
  - rewrite Rabs_right by lra. lra.
Qed.
Lemma inf_over (m : f64) : is_finite m = true -> 0 < B2R m -> Bdiv mode_NE (B754_infinity false) m = B754_infinity false.
Proof.
  intros Fm Hm. destruct m as [sm|sm| |sm mm em Hmm]; try easy; [cbn [B2R] in Hm; lra|].
  destruct sm; [|easy]. exfalso. cbn [B2R] in Hm. pose proof (F2R_lt_0 radix2 (Float radix2 (Zneg mm) em) ltac:(cbn; lia)) as Hneg.
  unfold cond_Zopp in Hm. cbn [Z.opp] in Hm. lra.
Qed.
Lemma inf_not_lt (x : f64) : Bltb (B754_infinity false) x = false.
Proof. now destruct x as [[]|[]| |[]]. Qed.
Lemma finite_num (x : f64) : is_finite x = true -> is_nan x = false.
Proof. now destruct x. Qed.

Definition ieee_wlaws (lg : f64 -> f64) (Hlg : log_ok lg) (Ht : log_tenth lg) (Hm : log_mono lg) :
  wlaws (ieee lg) (ieee_laws lg Hlg) 1152 (ieee_rlaws lg Hlg Ht).
Proof.
  pose proof (bpow_gt_0 radix2 (-300)) as H300.
  refine (Build_wlaws (ieee lg) (ieee_laws lg Hlg) 1152 (ieee_rlaws lg Hlg Ht) _ _ _ _);
    cbn [rp rm ieee_rlaws]; unfold flit; cbn [fmul fdiv fneg flog fltb fofZ fnan ieee].
  - intros m [Fm _]. now apply finite_num.
  - intros p m [Fp Hp] [Fm Hm']. destruct (Ht p Fp Hp) as [->|[Fl Hl]].
    + cbn [Bopp negb]. rewrite inf_over by (easy || lra). easy.
    + apply finite_num. apply wait_value; rewrite ?is_finite_Bopp, ?B2R_Bopp; try easy. lra.
  - intros p m Pp [Fm Hm']. pose proof (rp_step _ _ _ (ieee_rlaws lg Hlg Ht) p Pp) as Pq. unfold flit in Pq. cbn [rp ieee_rlaws fmul fdiv fofZ ieee] in Pq.
    destruct Pp as [Fp Hp]. set (q := Bmult mode_NE p (Bdiv mode_NE (f64_ofZ 8) (f64_ofZ 10))) in *. destruct Pq as [Fq Hq].
    assert (Hqp : B2R q <= B2R p).
    { set (l := Bdiv mode_NE (f64_ofZ 8) (f64_ofZ 10)) in *.
      assert (Fl : is_finite l = true) by (vm_compute; reflexivity).
      assert (Hl : 0 <= B2R l <= 1).
      { destruct (ofZ_correct 0) as (F0 & E0 & _); [easy|]. destruct (ofZ_correct 1) as (F1 & E1 & _); [easy|].
        rewrite <- E0, <- E1. split; apply bltb_false; vm_compute; reflexivity. }
      assert (Hpr : 0 <= B2R p * B2R l <= B2R p) by (split; nra).
      assert (Hlt : B2R p < bpow radix2 1024).
      { apply Rle_lt_trans with (bpow radix2 0); [|now apply bpow_lt]. change (bpow radix2 0) with 1.
        assert (bpow radix2 (-50) <= bpow radix2 (-1)) by (apply bpow_le; lia). change (bpow radix2 (-1)) with (/ 2) in *. lra. }
      assert (Hab : Rabs (B2R p * B2R l) <= B2R p) by (rewrite Rabs_right by lra; lra).
      destruct (mult_bnd (B2R p) (generic_format_B2R _ _ p) Hlt p l Fp Fl Hab) as (_ & _ & Hmm).
      apply Rabs_le_inv in Hmm. unfold q. lra. }
    destruct (Hm q p Fq Fp ltac:(lra) ltac:(lra)) as [E|(Flq & Flp & Hle)].
    + rewrite E. cbn [Bopp negb]. rewrite inf_over by (easy || lra). apply inf_not_lt.
    + destruct (Ht q Fq Hq) as [E|[_ Hlq]]; [rewrite E in Flq; discriminate|].
      destruct (Ht p Fp Hp) as [E|[_ Hlp]]; [rewrite E in Flp; discriminate|].
      destruct (wait_value (Bopp (lg q)) m) as [Fa Ea]; rewrite ?is_finite_Bopp, ?B2R_Bopp; try easy; [lra|].
      destruct (wait_value (Bopp (lg p)) m) as [Fb Eb]; rewrite ?is_finite_Bopp, ?B2R_Bopp; try easy; [lra|].
      apply bltb_false; [easy|easy|]. rewrite Ea, Eb, !B2R_Bopp. apply rnd_mono. unfold Rdiv. apply Rmult_le_compat_r; [|lra].
      apply Rlt_le, Rinv_0_lt_compat. lra.
  - intros p m m' [Fp Hp] [Fm Hm1] [Fm' Hm2] Hlt. apply bltb_false in Hlt; [|easy|easy]. destruct (Ht p Fp Hp) as [->|[Fl Hl]].
    + cbn [Bopp negb]. rewrite (inf_over m') by (easy || lra). apply inf_not_lt.
    + destruct (wait_value (Bopp (lg p)) m) as [Fa Ea]; rewrite ?is_finite_Bopp, ?B2R_Bopp; try easy; [lra|].
      destruct (wait_value (Bopp (lg p)) m') as [Fb Eb]; rewrite ?is_finite_Bopp, ?B2R_Bopp; try easy; [lra|].
      apply bltb_false; [easy|easy|]. rewrite Ea, Eb, !B2R_Bopp. apply rnd_mono. unfold Rdiv. apply Rmult_le_compat_l; [lra|].
      apply Rinv_le; lra.
Qed.

Definition exw : wlaws exf exl 1152 exr := ieee_wlaws lg_example lg_example_ok lg_example_tenth lg_example_mono.
