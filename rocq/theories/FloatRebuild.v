(** FloatRebuild: what the proofs about the rebuilding threshold need from `double` arithmetic, on
    top of FloatLaws.v: the test `-log(prob_found) / min_probability < power` of
    stat_dict_p.cc:86-88, and the steps by which prob_found_ and min_probability_ change.
    Proved for IEEE binary64 below. *)
From Coq Require Import Reals Lra.
From Flocq Require Import Core BinarySingleNaN.
From Verif Require Import Base FloatOps FloatLaws FloatIEEE FloatExample.
Local Open Scope Z_scope.

(** A set of doubles that the minimum probability never leaves: the three minima of
    stat_dict_p.cc:170, :184 and :190. *)
Record mclosed (fl : fops) (L : flaws fl) (Q : F fl -> Prop) : Prop := {
  mc_inv : forall n m, 0 <= n <= maxcount -> Q m -> Q (fmin fl (fdiv fl (fofZ fl 1) (fofZ fl n)) m);
  mc_pair : forall c t m, 1 <= c <= t -> t <= maxcount -> Q m -> Q (fmin fl m (fdiv fl (fofZ fl c) (fofZ fl t)));
  mc_word : forall c t n m, 0 <= c < maxcount -> fcnt fl L t -> 1 <= n <= maxcount -> Q m ->
    Q (fmin fl (fdiv fl (fadd fl (fofZ fl c) (fofZ fl 1)) (fadd fl t (fofZ fl n))) m)
}.

(** [rp]: values of prob_found_; [rm]: values of min_probability_ in objects that were not loaded
    from a file; [thr]: a number of words below which no rebuilding happens. *)
Record rlaws (fl : fops) (L : flaws fl) (thr : Z) := {
  rp : F fl -> Prop;
  rm : F fl -> Prop;
  rp_start : rp (flit fl 1 10);
  rp_step : forall p, rp p -> rp (fmul fl p (flit fl 8 10));
  rm_start : rm (flit fl 2 1000);
  rm_closed : mclosed fl L rm;
  neg_closed : mclosed fl L (eq (fofZ fl (-1)));
  waits : forall p m n, rp p -> rm m -> 0 <= n < thr -> fltb fl (fdiv fl (fneg fl (flog fl p)) m) (fofZ fl n) = false;
  ever : forall p n, rp p -> 0 <= n <= maxcount ->
    fltb fl (fdiv fl (fneg fl (flog fl p)) (fofZ fl (-1))) (fofZ fl n) = true;
  thr_pos : 1 <= thr <= 20000000
}.

Local Open Scope R_scope.
(** What is assumed of std::log below 1/10: the result is -inf, or between -1000 and -2.3025
    (log(0) = -inf, log(0.1) = -2.302585..., and the least positive double has -744.4...). *)
Definition log_tenth (lg : f64 -> f64) : Prop := forall x : f64,
  is_finite x = true -> 0 <= B2R x <= 1 / 10 + bpow radix2 (-50) ->
  lg x = B754_infinity true \/ (is_finite (lg x) = true /\ -1000 <= B2R (lg x) <= - (23025 / 10000)).

Lemma rnd_ge x y : generic_format radix2 fexp64 x -> x <= y -> x <= rnd64 y.
Proof. apply round_ge_generic; typeclasses eauto. Qed.
Lemma rnd_le x y : generic_format radix2 fexp64 y -> x <= y -> rnd64 x <= y.
Proof. apply round_le_generic; typeclasses eauto. Qed.
Lemma rnd_mono x y : x <= y -> rnd64 x <= rnd64 y.
Proof. apply round_le; typeclasses eauto. Qed.
Lemma rnd_id x : generic_format radix2 fexp64 x -> rnd64 x = x.
Proof. apply round_generic. typeclasses eauto. Qed.

Lemma lg_example_tenth : log_tenth lg_example.
Proof.
  intros x Hf Hb. destruct x as [sx|sx| |sx m e Hx]; try easy; [now left|].
  destruct sx.
  { exfalso. cbn [B2R cond_Zopp] in Hb. pose proof (F2R_lt_0 radix2 (Float radix2 (Zneg m) e) ltac:(cbn; lia)) as Hn.
    unfold cond_Zopp in Hb. cbn [Z.opp] in Hb. lra. }
  right. destruct (lg_example_pos m e Hx) as (H1 & H2 & H3). split; [easy|].
  assert (Hz : (clamp (lg_fix (Zpos m) e) <= - (5 * 2 ^ 20) / 2)%Z \/ (clamp (lg_fix (Zpos m) e) <= - 2420000)%Z).
  { right. unfold clamp.
    cut (lg_fix (Zpos m) e <= -2420000)%Z; [lia|]. unfold lg_fix.
    set (n := Z.log2 (Zpos m)). destruct (Z.log2_spec (Zpos m) eq_refl) as [L1 L2]. fold n in L1, L2.
    assert (Hn : (0 <= n)%Z) by apply Z.log2_nonneg.
    cbn [B2R cond_Zopp] in Hb. unfold F2R in Hb. cbn [Fnum Fexp] in Hb.
    assert (Hlow : bpow radix2 (n + e) <= IZR (Zpos m) * bpow radix2 e).
    { rewrite bpow_plus. apply Rmult_le_compat_r; [apply bpow_ge_0|]. rewrite <- (IZR_Zpower radix2 n Hn). now apply IZR_le. }
    assert (Hsmall : bpow radix2 (-50) <= bpow radix2 (-20)) by (apply bpow_le; lia).
    assert (E20 : bpow radix2 (-20) = / 1048576) by reflexivity.
    assert (Hne : (n + e <= -4)%Z).
    { destruct (Z.le_gt_cases (n + e) (-4)) as [|Hgt]; [easy|]. exfalso.
      assert (bpow radix2 (-3) <= bpow radix2 (n + e)) by (apply bpow_le; lia).
      assert (bpow radix2 (-3) = / 8) by reflexivity. lra. }
    assert (Hm : (Z.shiftr (Zpos m) (n - 20) < 2097152)%Z).
    { destruct (Z.le_gt_cases 20 n) as [H20|H20].
      - rewrite Z.shiftr_div_pow2 by lia. apply Z.div_lt_upper_bound; [apply Z.pow_pos_nonneg; lia|].
        replace (2 ^ (n - 20) * 2097152)%Z with (2 ^ (Z.succ n))%Z; [easy|].
        change 2097152%Z with (2 ^ 21)%Z. rewrite <- Z.pow_add_r by lia. f_equal. lia.
      - rewrite <- (Z.opp_involutive (n - 20)). rewrite Z.shiftr_opp_r, Z.shiftl_mul_pow2 by lia.
        apply Z.lt_le_trans with (2 ^ (Z.succ n) * 2 ^ (- (n - 20)))%Z.
        + apply Z.mul_lt_mono_pos_r; [apply Z.pow_pos_nonneg; lia|easy].
        + rewrite <- Z.pow_add_r by lia. replace (Z.succ n + - (n - 20))%Z with 21%Z by lia. lia. }
    assert (Hs : (((n + e) * 1048576 + (Z.shiftr (Zpos m) (n - 20) - 1048576)) <= -3500000)%Z).
    { destruct (Z.eq_dec (n + e) (-4)) as [E|E]; [|lia].
      cut (Z.shiftr (Zpos m) (n - 20) <= 1700000)%Z; [lia|].
      assert (Hmm : IZR (Zpos m) <= (1 / 10 + / 1048576) * bpow radix2 (n + 4)).
      { apply (Rmult_le_reg_r (bpow radix2 e)); [apply bpow_gt_0|]. rewrite Rmult_assoc, <- bpow_plus.
        replace (n + 4 + e)%Z with 0%Z by lia. change (bpow radix2 0) with 1. lra. }
      assert (E24 : bpow radix2 (n + 4) = 16777216 * bpow radix2 (n - 20)).
      { replace (n + 4)%Z with (24 + (n - 20))%Z by lia. now rewrite bpow_plus. }
      rewrite E24 in Hmm.
      destruct (Z.le_gt_cases 20 n) as [H20|H20].
      - rewrite Z.shiftr_div_pow2 by lia. apply Z.div_le_upper_bound; [apply Z.pow_pos_nonneg; lia|].
        apply le_IZR. rewrite mult_IZR. change (2 ^ (n - 20))%Z with (Zpower radix2 (n - 20)). rewrite (IZR_Zpower radix2) by lia.
        pose proof (bpow_ge_0 radix2 (n - 20)) as Hg. nra.
      - rewrite <- (Z.opp_involutive (n - 20)). rewrite Z.shiftr_opp_r, Z.shiftl_mul_pow2 by lia.
        apply le_IZR. rewrite mult_IZR. change (2 ^ (- (n - 20)))%Z with (Zpower radix2 (- (n - 20))). rewrite (IZR_Zpower radix2) by lia.
        apply Rle_trans with ((1 / 10 + / 1048576) * (16777216 * bpow radix2 (n - 20)) * bpow radix2 (- (n - 20))).
        + apply Rmult_le_compat_r; [apply bpow_ge_0|easy].
        + rewrite !Rmult_assoc, <- bpow_plus. replace (n - 20 + - (n - 20))%Z with 0%Z by lia. change (bpow radix2 0) with 1. lra. }
    rewrite Z.shiftr_div_pow2 by lia. apply Z.div_le_upper_bound; [lia|]. lia. }
  assert (Hz' : (clamp (lg_fix (Zpos m) e) <= -2420000)%Z) by (destruct Hz as [Hz|Hz]; [|easy]; change (- (5 * 2 ^ 20) / 2)%Z with (-2621440)%Z in Hz; lia).
  rewrite H2. apply IZR_le in Hz'. set (z := clamp (lg_fix (Zpos m) e)) in *.
  assert (E20 : IZR (2 ^ 20) = 1048576) by reflexivity.
  split.
  - apply Rabs_le_inv in H3. apply Rle_trans with (IZR (-512)); [lra|].
    apply rnd_ge; [apply int_format; simpl; lia|]. lra.
  - apply Rle_trans with (- (2307 / 1000)); [|lra]. rewrite E20.
    apply Rle_trans with (rnd64 (IZR (-2363) * bpow radix2 (-10))).
    + apply rnd_mono. change (bpow radix2 (-10)) with (/ 1024). unfold Rdiv. lra.
    + rewrite rnd_id; [change (bpow radix2 (-10)) with (/ 1024); lra|].
      apply fmt_mpow; [simpl; lia|lia].
Qed.

Lemma quot64 (a : Z) (t : f64) : (1 <= a <= maxcount)%Z -> is_finite t = true -> 1 <= B2R t <= bpow radix2 202 ->
  is_finite (Bdiv mode_NE (f64_ofZ a) t) = true /\ bpow radix2 (-300) <= B2R (Bdiv mode_NE (f64_ofZ a) t).
Proof.
  intros Ha Ft Ht. unfold maxcount in Ha. destruct (ofZ_range a) as (Fa & Ea & Ha'); [lia|].
  assert (Ha1 : 1 <= IZR a) by (apply IZR_le; lia).
  assert (Hq : bpow radix2 (-300) <= IZR a / B2R t <= bpow radix2 53).
  { split.
    - apply Rle_trans with (/ bpow radix2 202).
      + rewrite <- bpow_opp. apply bpow_le. lia.
      + unfold Rdiv. rewrite <- (Rmult_1_l (/ bpow radix2 202)). apply Rmult_le_compat; try lra.
        * apply Rlt_le, Rinv_0_lt_compat, bpow_gt_0.
        * apply Rinv_le; lra.
    - unfold Rdiv. rewrite <- (Rmult_1_r (bpow radix2 53)). apply Rmult_le_compat; try lra.
      + apply Rlt_le, Rinv_0_lt_compat. lra.
      + change (bpow radix2 53) with (IZR (2 ^ 53)). lra.
      + rewrite <- Rinv_1. apply Rinv_le; lra. }
  pose proof (bpow_gt_0 radix2 (-300)) as Hpos.
  destruct (div_bnd (bpow radix2 53)) with (x := f64_ofZ a) (y := t) as (Fd & Ed & _); try easy.
  - now apply fmt_pow.
  - now apply bpow_lt.
  - lra.
  - rewrite Ea, Rabs_right by lra. lra.
  - split; [easy|]. rewrite Ed, Ea. apply rnd_ge; [|lra]. now apply fmt_pow.
Qed.

Definition ieee_rp (p : f64) : Prop := is_finite p = true /\ 0 <= B2R p <= 1 / 10 + bpow radix2 (-50).
Definition ieee_rm (m : f64) : Prop := is_finite m = true /\ bpow radix2 (-300) <= B2R m <= 2000001 / 1000000000.

(** Sets closed under minima: the set contains every smaller quotient of counts. *)
Lemma closed_rm lg Hlg : mclosed (ieee lg) (ieee_laws lg Hlg) ieee_rm.
Proof.
  assert (K : forall q m, is_finite q = true -> bpow radix2 (-300) <= B2R q -> ieee_rm m ->
    ieee_rm (fmin (ieee lg) q m) /\ ieee_rm (fmin (ieee lg) m q)).
  { intros q m Fq Hq [Fm Hm]. unfold fmin. cbn [fltb ieee]. split.
    - destruct (Bltb m q) eqn:E; [now split|]. apply bltb_false in E; [|easy|easy]. split; [easy|lra].
    - destruct (Bltb q m) eqn:E; [|now split]. apply bltb_true in E; [|easy|easy]. split; [easy|lra]. }
  split; cbn [fdiv fadd fofZ ieee].
  - intros n m Hn Hm. destruct (Z.eq_dec n 0) as [->|Hn0].
    + unfold fmin. cbn [fltb ieee]. destruct Hm as [Fm Hm].
      assert (E : Bdiv mode_NE (f64_ofZ 1) (f64_ofZ 0) = B754_infinity false) by (vm_compute; reflexivity).
      rewrite E. assert (El : Bltb m (B754_infinity false) = true) by now destruct m. rewrite El. now split.
    + unfold maxcount in Hn. destruct (ofZ_range n) as (Fn & En & Hn'); [lia|].
      assert (H1n : 1 <= IZR n) by (apply IZR_le; lia).
      destruct (quot64 1 (f64_ofZ n)) as [Fq Hq]; [unfold maxcount; lia|easy| |].
      { rewrite En. split; [easy|]. apply Rle_trans with (IZR (2 ^ 53)); [easy|]. now apply two53_le. }
      exact (proj1 (K _ m Fq Hq Hm)).
  - intros c t m Hc Ht Hm. unfold maxcount in Ht. destruct (ofZ_range t) as (Fn & En & Hn'); [lia|].
    assert (H1n : 1 <= IZR t) by (apply IZR_le; lia).
    destruct (quot64 c (f64_ofZ t)) as [Fq Hq]; [unfold maxcount; lia|easy| |].
    { rewrite En. split; [easy|]. apply Rle_trans with (IZR (2 ^ 53)); [easy|]. now apply two53_le. }
    exact (proj2 (K _ m Fq Hq Hm)).
  - intros c t n m Hc Ht Hn Hm. change (ieee_cnt t) in Ht. unfold maxcount in Hc.
    pose proof (ofZ_add (ieee lg) (ieee_laws lg Hlg) c 1) as Hadd. cbn [fadd fofZ ieee] in Hadd.
    rewrite Hadd by (unfold maxcount; lia).
    destruct Ht as [Ft Ht].
    assert (Ht2 : ieee_tot t).
    { split; [easy|]. split; [easy|]. apply Rle_trans with (bpow radix2 200); [easy|]. now apply bpow_le. }
    destruct (tot_plus64 t n Ht2 Hn) as [Fp Hp].
    destruct (quot64 (c + 1) (Bplus mode_NE t (f64_ofZ n))) as [Fq Hq]; [unfold maxcount; lia|easy|easy|].
    exact (proj1 (K _ m Fq Hq Hm)).
Qed.
Lemma minus_one : is_finite (f64_ofZ (-1)) = true /\ B2R (f64_ofZ (-1)) = -1.
Proof. destruct (ofZ_correct (-1)) as (H1 & H2 & _); [easy|]. now split. Qed.
Lemma closed_neg lg Hlg : mclosed (ieee lg) (ieee_laws lg Hlg) (eq (f64_ofZ (-1))).
Proof.
  destruct minus_one as [F1 E1].
  assert (K : forall q, is_finite q = true -> bpow radix2 (-300) <= B2R q ->
    f64_ofZ (-1) = fmin (ieee lg) q (f64_ofZ (-1)) /\ f64_ofZ (-1) = fmin (ieee lg) (f64_ofZ (-1)) q).
  { intros q Fq Hq. unfold fmin. cbn [fltb ieee]. pose proof (bpow_gt_0 radix2 (-300)) as Hp.
    assert (A : Bltb (f64_ofZ (-1)) q = true) by (apply bltb_true; [easy|easy|lra]).
    rewrite A. rewrite (lt_asym64 _ _ A). easy. }
  split; cbn [fdiv fadd fofZ ieee].
  - intros n m Hn <-. destruct (Z.eq_dec n 0) as [->|Hn0].
    + unfold fmin. cbn [fltb ieee].
      assert (E : Bltb (f64_ofZ (-1)) (Bdiv mode_NE (f64_ofZ 1) (f64_ofZ 0)) = true) by (vm_compute; reflexivity).
      now rewrite E.
    + unfold maxcount in Hn. destruct (ofZ_range n) as (Fn & En & Hn'); [lia|].
      assert (H1n : 1 <= IZR n) by (apply IZR_le; lia).
      destruct (quot64 1 (f64_ofZ n)) as [Fq Hq]; [unfold maxcount; lia|easy| |].
      { rewrite En. split; [easy|]. apply Rle_trans with (IZR (2 ^ 53)); [easy|]. now apply two53_le. }
      exact (proj1 (K _ Fq Hq)).
  - intros c t m Hc Ht <-. unfold maxcount in Ht. destruct (ofZ_range t) as (Fn & En & Hn'); [lia|].
    assert (H1n : 1 <= IZR t) by (apply IZR_le; lia).
    destruct (quot64 c (f64_ofZ t)) as [Fq Hq]; [unfold maxcount; lia|easy| |].
    { rewrite En. split; [easy|]. apply Rle_trans with (IZR (2 ^ 53)); [easy|]. now apply two53_le. }
    exact (proj2 (K _ Fq Hq)).
  - intros c t n m Hc Ht Hn <-. change (ieee_cnt t) in Ht. unfold maxcount in Hc.
    pose proof (ofZ_add (ieee lg) (ieee_laws lg Hlg) c 1) as Hadd. cbn [fadd fofZ ieee] in Hadd.
    rewrite Hadd by (unfold maxcount; lia).
    destruct Ht as [Ft Ht].
    assert (Ht2 : ieee_tot t).
    { split; [easy|]. split; [easy|]. apply Rle_trans with (bpow radix2 200); [easy|]. now apply bpow_le. }
    destruct (tot_plus64 t n Ht2 Hn) as [Fp Hp].
    destruct (quot64 (c + 1) (Bplus mode_NE t (f64_ofZ n))) as [Fq Hq]; [unfold maxcount; lia|easy|easy|].
    exact (proj1 (K _ Fq Hq)).
Qed.

(** Bounds on literals, by comparison with exact quotients. *)
Lemma lit_bound (l : f64) (m e : Z) (Hm : (0 < m < 2 ^ 53)%Z) (He : (-200 <= e <= 0)%Z) :
  is_finite l = true -> Bltb (binary_normalize 53 1024 eq_refl eq_refl mode_NE m e false) l = false ->
  B2R l <= IZR m * bpow radix2 e.
Proof.
  intros Fl H. pose proof (binary_normalize_correct 53 1024 eq_refl eq_refl mode_NE m e false) as C.
  cbn zeta in C. cbn [round_mode] in C.
  assert (Hf : generic_format radix2 fexp64 (IZR m * bpow radix2 e)) by (apply fmt_mpow; lia).
  change (F2R (Float radix2 m e)) with (IZR m * bpow radix2 e) in C.
  rewrite rnd_id in C by easy.
  assert (Hb : Rabs (IZR m * bpow radix2 e) < bpow radix2 1024).
  { assert (0 < IZR m) by (apply IZR_lt; lia). pose proof (bpow_gt_0 radix2 e).
    rewrite Rabs_right by nra. apply Rle_lt_trans with (IZR m * bpow radix2 0).
    - apply Rmult_le_compat_l; [lra|]. apply bpow_le. lia.
    - change (bpow radix2 0) with 1. rewrite Rmult_1_r. apply small_lt_emax. lia. }
  rewrite Rlt_bool_true in C by easy. destruct C as (C1 & C2 & _).
  apply bltb_false in H; [|easy|easy]. now rewrite <- C1.
Qed.

Definition ieee_rlaws (lg : f64 -> f64) (Hlg : log_ok lg) (Ht : log_tenth lg) :
  rlaws (ieee lg) (ieee_laws lg Hlg) 1152.
Proof.
  refine (Build_rlaws (ieee lg) (ieee_laws lg Hlg) 1152 ieee_rp ieee_rm _ _ _ (closed_rm lg Hlg) (closed_neg lg Hlg) _ _ _);
    unfold flit; cbn [fmul fdiv fneg flog fltb fofZ ieee].
  - split; [vm_compute; reflexivity|]. split.
    + destruct (ofZ_correct 0) as (F0 & E0 & _); [easy|]. rewrite <- E0. apply bltb_false; vm_compute; reflexivity.
    + apply Rle_trans with (IZR 3602879701896397 * bpow radix2 (-55)).
      * apply lit_bound; [lia|lia|vm_compute; reflexivity|vm_compute; reflexivity].
      * change (bpow radix2 (-55)) with (/ 36028797018963968). change (bpow radix2 (-50)) with (/ 1125899906842624). lra.
  - intros p [Fp Hp]. set (l := Bdiv mode_NE (f64_ofZ 8) (f64_ofZ 10)).
    assert (Fl : is_finite l = true) by (vm_compute; reflexivity).
    assert (Hl : 0 <= B2R l <= 1).
    { destruct (ofZ_correct 0) as (F0 & E0 & _); [easy|]. destruct (ofZ_correct 1) as (F1 & E1 & _); [easy|].
      rewrite <- E0, <- E1. split; apply bltb_false; vm_compute; reflexivity. }
    assert (Hpr : 0 <= B2R p * B2R l <= B2R p) by (split; nra).
    assert (Hlt : B2R p < bpow radix2 1024).
    { apply Rle_lt_trans with (bpow radix2 0); [|now apply bpow_lt]. change (bpow radix2 0) with 1.
      assert (bpow radix2 (-50) <= bpow radix2 (-1)) by (apply bpow_le; lia). change (bpow radix2 (-1)) with (/ 2) in *. lra. }
    assert (Hab : Rabs (B2R p * B2R l) <= B2R p) by (rewrite Rabs_right by lra; lra).
    destruct (mult_bnd (B2R p) (generic_format_B2R _ _ p) Hlt p l Fp Fl Hab) as (Fm & Em & Hm).
    split; [exact Fm|]. apply Rabs_le_inv in Hm. split; [|lra]. rewrite Em.
    apply rnd_ge; [apply generic_format_0|lra].
  - split; [vm_compute; reflexivity|]. split.
    + destruct (quot64 2 (f64_ofZ 1000)) as [_ H]; [unfold maxcount; lia|vm_compute; reflexivity| |exact H].
      destruct (ofZ_range 1000) as (_ & -> & H2); [lia|]. split; [lra|]. apply Rle_trans with (IZR (2 ^ 53)); [easy|]. now apply two53_le.
    + apply Rle_trans with (IZR 4611686018427388 * bpow radix2 (-61)).
      * apply lit_bound; [lia|lia|vm_compute; reflexivity|vm_compute; reflexivity].
      * change (bpow radix2 (-61)) with (/ 2305843009213693952). lra.
  - intros p m n [Fp Hp] [Fm Hm] Hn. pose proof (bpow_gt_0 radix2 (-300)) as H300.
    destruct (ofZ_range n) as (Fn & En & _); [lia|].
    assert (Hn' : IZR n <= 1151) by (apply IZR_le; lia).
    destruct (Ht p Fp Hp) as [->|[Fl Hl]].
    + cbn [Bopp negb]. destruct m as [sm|sm| |sm mm em Hmm]; try easy.
      * cbn [B2R] in Hm. lra.
      * destruct sm.
        { exfalso. cbn [B2R] in Hm. pose proof (F2R_lt_0 radix2 (Float radix2 (Zneg mm) em) ltac:(cbn; lia)) as Hneg.
          unfold cond_Zopp in Hm. cbn [Z.opp] in Hm. lra. }
        cbn. destruct (f64_ofZ n); easy.
    + set (l := Bopp (lg p)). assert (Fo : is_finite l = true) by (unfold l; now rewrite is_finite_Bopp).
      assert (Eo : B2R l = - B2R (lg p)) by (unfold l; apply B2R_Bopp).
      assert (Hq : 1151 <= B2R l / B2R m <= bpow radix2 400).
      { split.
        - apply (Rmult_le_reg_r (B2R m)); [lra|]. unfold Rdiv. rewrite Rmult_assoc, Rinv_l by lra. lra.
        - apply Rle_trans with (bpow radix2 10 * bpow radix2 300); [|rewrite <- bpow_plus; apply bpow_le; lia].
          unfold Rdiv. apply Rmult_le_compat; try lra.
          + apply Rlt_le, Rinv_0_lt_compat. lra.
          + change (bpow radix2 10) with 1024. lra.
          + replace (bpow radix2 300) with (/ bpow radix2 (-300)); [apply Rinv_le; lra|]. now rewrite <- bpow_opp. }
      destruct (div_bnd (bpow radix2 400)) with (x := l) (y := m) as (Fd & Ed & _); try easy.
      * now apply fmt_pow.
      * now apply bpow_lt.
      * lra.
      * rewrite Rabs_right by lra. lra.
      * apply bltb_false; [easy|easy|]. rewrite Ed, En. apply rnd_ge; [apply int_format; lia|]. lra.
  - intros p n [Fp Hp] Hn. unfold maxcount in Hn. destruct (ofZ_range n) as (Fn & En & Hn'); [lia|].
    destruct minus_one as [F1 E1].
    destruct (Ht p Fp Hp) as [->|[Fl Hl]].
    + cbn [Bopp negb].
      assert (E : Bdiv mode_NE (B754_infinity false) (f64_ofZ (-1)) = B754_infinity true) by (vm_compute; reflexivity).
      rewrite E. destruct (f64_ofZ n); easy.
    + set (l := Bopp (lg p)). assert (Fo : is_finite l = true) by (unfold l; now rewrite is_finite_Bopp).
      assert (Eo : B2R l = - B2R (lg p)) by (unfold l; apply B2R_Bopp).
      assert (Hq : -1000 <= B2R l / B2R (f64_ofZ (-1)) <= -2).
      { rewrite E1. replace (B2R l / -1) with (- B2R l) by lra. lra. }
      destruct (div_bnd (bpow radix2 400)) with (x := l) (y := f64_ofZ (-1)) as (Fd & Ed & _); try easy.
      * now apply fmt_pow.
      * now apply bpow_lt.
      * rewrite E1. lra.
      * rewrite Rabs_left by lra. assert (bpow radix2 10 <= bpow radix2 400) by (apply bpow_le; lia).
        change (bpow radix2 10) with 1024 in *. lra.
      * apply bltb_true; [easy|easy|]. rewrite Ed, En. apply Rle_lt_trans with (IZR (-2)); [|lra].
        apply rnd_le; [apply int_format; simpl; lia|]. lra.
  - lia.
Defined.

Definition exr : rlaws exf exl 1152 := ieee_rlaws lg_example lg_example_ok lg_example_tenth.
