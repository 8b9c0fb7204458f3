(** FloatIEEE: `double` as IEEE-754 binary64, round to nearest even (Flocq).
    std::log is a parameter: any function that is finite and bounded on [2^-900, 2^900]. *)
From Coq Require Import Reals Lra.
From Flocq Require Import Core BinarySingleNaN.
From Verif Require Import Base FloatOps FloatLaws.

#[global] Instance prec53 : Prec_gt_0 53%Z := eq_refl.
#[global] Instance emax1024 : Prec_lt_emax 53%Z 1024%Z := eq_refl.

Definition f64 := binary_float 53%Z 1024%Z.
Definition f64_ofZ (z : Z) : f64 := binary_normalize 53%Z 1024%Z _ _ mode_NE z 0%Z false.
Definition f64_max : f64 := Bmax_float.

Definition ieee (lg : f64 -> f64) : fops := {|
  F := f64;
  fadd := Bplus mode_NE;
  fsub := Bminus mode_NE;
  fmul := Bmult mode_NE;
  fdiv := Bdiv mode_NE;
  fneg := Bopp;
  flog := lg;
  fltb := Bltb;
  fofZ := f64_ofZ;
  ftrunc := Btrunc;
  flowest := Bopp f64_max;
  fmax := f64_max;
  fnan := is_nan
|}.

Local Open Scope R_scope.
(** What is assumed of std::log: finite and below 1000 in absolute value on [2^-900, 2^900]
    (the true values lie between -624 and 624). *)
Definition log_ok (lg : f64 -> f64) : Prop := forall x : f64,
  is_finite x = true -> bpow radix2 (-900) <= B2R x <= bpow radix2 900 ->
  is_finite (lg x) = true /\ Rabs (B2R (lg x)) <= 1000.

Notation fexp64 := (SpecFloat.fexp 53 1024).
Notation rnd64 := (round radix2 fexp64 ZnearestE).

Lemma int_format (z : Z) : (Z.abs z <= 2 ^ 53)%Z -> generic_format radix2 fexp64 (IZR z).
Proof.
  intro H. change fexp64 with (FLT_exp (-1074) 53).
  destruct (Z.eq_dec (Z.abs z) (2 ^ 53)) as [E|Hne].
  - assert (Hf : generic_format radix2 (FLT_exp (-1074) 53) (bpow radix2 53)).
    { apply generic_format_bpow. unfold FLT_exp. lia. }
    assert (Hb : bpow radix2 53 = IZR (2 ^ 53)) by reflexivity.
    rewrite Hb in Hf. destruct (Z.abs_eq_or_opp z) as [E2|E2].
    + replace z with (2 ^ 53)%Z by lia. exact Hf.
    + replace z with (- (2 ^ 53))%Z by lia. rewrite opp_IZR. now apply generic_format_opp.
  - apply generic_format_FLT. apply FLT_spec with (Float radix2 z 0).
    + unfold F2R. simpl. lra.
    + change (Z.abs z < 2 ^ 53)%Z. lia.
    + simpl. lia.
Qed.

Lemma small_lt_emax (m : Z) : (m <= 2 ^ 53)%Z -> IZR m < bpow radix2 1024.
Proof.
  intro H. apply Rle_lt_trans with (bpow radix2 53).
  - change (bpow radix2 53) with (IZR (2 ^ 53)). now apply IZR_le.
  - now apply bpow_lt.
Qed.

Lemma rnd_abs (x : R) (m : Z) : (0 <= m <= 2 ^ 53)%Z -> Rabs x <= IZR m -> Rabs (rnd64 x) <= IZR m.
Proof.
  intros Hm Hx. apply abs_round_le_generic; auto with typeclass_instances.
  - change fexp64 with (FLT_exp (-1074) 53). apply FLT_exp_valid. easy.
  - apply int_format. lia.
Qed.

#[local] Instance valid64 : Valid_exp fexp64.
Proof. change fexp64 with (FLT_exp (-1074) 53). apply FLT_exp_valid. easy. Qed.

Lemma plus_small (x y : f64) (m : Z) : (0 <= m <= 2 ^ 53)%Z ->
  is_finite x = true -> is_finite y = true -> Rabs (B2R x + B2R y) <= IZR m ->
  is_finite (Bplus mode_NE x y) = true /\ B2R (Bplus mode_NE x y) = rnd64 (B2R x + B2R y) /\
  Rabs (B2R (Bplus mode_NE x y)) <= IZR m.
Proof.
  intros Hm Fx Fy Hb. pose proof (Bplus_correct 53 1024 _ _ mode_NE x y Fx Fy) as H.
  cbn [round_mode] in H.
  pose proof (rnd_abs _ m Hm Hb) as Hr.
  rewrite Rlt_bool_true in H; [|apply Rle_lt_trans with (IZR m); [easy|apply small_lt_emax; lia]].
  destruct H as (H1 & H2 & _). rewrite H1. easy.
Qed.

Lemma minus_small (x y : f64) (m : Z) : (0 <= m <= 2 ^ 53)%Z ->
  is_finite x = true -> is_finite y = true -> Rabs (B2R x - B2R y) <= IZR m ->
  is_finite (Bminus mode_NE x y) = true /\ Rabs (B2R (Bminus mode_NE x y)) <= IZR m.
Proof.
  intros Hm Fx Fy Hb. pose proof (Bminus_correct 53 1024 _ _ mode_NE x y Fx Fy) as H.
  cbn [round_mode] in H.
  pose proof (rnd_abs _ m Hm Hb) as Hr.
  rewrite Rlt_bool_true in H; [|apply Rle_lt_trans with (IZR m); [easy|apply small_lt_emax; lia]].
  destruct H as (H1 & H2 & _). rewrite H1. easy.
Qed.

Lemma ofZ_correct (z : Z) : (Z.abs z <= 2 ^ 53)%Z ->
  is_finite (f64_ofZ z) = true /\ B2R (f64_ofZ z) = IZR z /\
  Bsign (f64_ofZ z) = match Rcompare (IZR z) 0 with Lt => true | _ => false end.
Proof.
  intro Hz. unfold f64_ofZ.
  pose proof (binary_normalize_correct 53 1024 _ _ mode_NE z 0 false) as H.
  cbn zeta in H. cbn [round_mode] in H.
  assert (E : F2R (Float radix2 z 0) = IZR z) by (unfold F2R; simpl; lra).
  rewrite E in H. rewrite round_generic in H; auto with typeclass_instances; [|now apply int_format].
  rewrite Rlt_bool_true in H.
  - destruct H as (H1 & H2 & H3). rewrite H1, H2, H3. split; [easy|]. split; [easy|].
    now destruct (Rcompare (IZR z) 0).
  - rewrite <- abs_IZR. now apply small_lt_emax.
Qed.

(** lowest() absorbs weights. *)
Lemma max_finite : is_finite f64_max = true.
Proof. reflexivity. Qed.

Definition two11 : f64 := f64_ofZ 2048.
Lemma two11_spec : is_finite two11 = true /\ B2R two11 = 2048.
Proof. destruct (ofZ_correct 2048) as (H1 & H2 & _); [easy|]. now split. Qed.

Lemma round_low_up : rnd64 (B2R (Bopp f64_max) + 2048) = B2R (Bopp f64_max).
Proof.
  destruct two11_spec as [F2 E2]. rewrite <- E2.
  pose proof (Bplus_correct 53 1024 _ _ mode_NE (Bopp f64_max) two11 eq_refl F2) as H.
  cbn [round_mode] in H.
  assert (C : B2SF (Bplus mode_NE (Bopp f64_max) two11) = B2SF (Bopp f64_max)) by (vm_compute; reflexivity).
  destruct (Rlt_bool _ _).
  - destruct H as (H & _). rewrite <- H.
    rewrite <- (SF2R_B2SF 53 1024 (Bplus mode_NE (Bopp f64_max) two11)), C. now rewrite SF2R_B2SF.
  - exfalso. destruct H as [H _]. rewrite C in H. vm_compute in H. discriminate.
Qed.
Lemma round_low_down : rnd64 (B2R (Bopp f64_max) + - 2048) = B2R (Bopp f64_max).
Proof.
  destruct two11_spec as [F2 E2].
  assert (E2' : B2R (Bopp two11) = - 2048) by (rewrite B2R_Bopp, E2; lra).
  rewrite <- E2'.
  pose proof (Bplus_correct 53 1024 _ _ mode_NE (Bopp f64_max) (Bopp two11) eq_refl) as H.
  rewrite is_finite_Bopp in H. specialize (H F2).
  cbn [round_mode] in H.
  assert (C : B2SF (Bplus mode_NE (Bopp f64_max) (Bopp two11)) = B2SF (Bopp f64_max)) by (vm_compute; reflexivity).
  destruct (Rlt_bool _ _).
  - destruct H as (H & _). rewrite <- H.
    rewrite <- (SF2R_B2SF 53 1024 (Bplus mode_NE (Bopp f64_max) (Bopp two11))), C. now rewrite SF2R_B2SF.
  - exfalso. destruct H as [H _]. rewrite C in H. vm_compute in H. discriminate.
Qed.

Lemma low_plus (w : f64) : is_finite w = true -> Rabs (B2R w) <= 2048 ->
  is_finite (Bplus mode_NE (Bopp f64_max) w) = true /\
  B2R (Bplus mode_NE (Bopp f64_max) w) = B2R (Bopp f64_max).
Proof.
  intros Fw Hw. apply Rabs_le_inv in Hw.
  assert (E : rnd64 (B2R (Bopp f64_max) + B2R w) = B2R (Bopp f64_max)).
  { apply Rle_antisym.
    - rewrite <- round_low_up at 2. apply round_le; auto with typeclass_instances. lra.
    - rewrite <- round_low_down at 1. apply round_le; auto with typeclass_instances. lra. }
  pose proof (Bplus_correct 53 1024 _ _ mode_NE (Bopp f64_max) w eq_refl Fw) as H.
  cbn [round_mode] in H. rewrite E in H.
  rewrite Rlt_bool_true in H.
  - destruct H as (H1 & H2 & _). now rewrite H1, H2.
  - apply abs_B2R_lt_emax.
Qed.

Lemma low_value : B2R (Bopp f64_max) < - IZR (2 ^ 52).
Proof.
  assert (H : Bltb (Bopp f64_max) (f64_ofZ (- (2 ^ 52))) = true) by (vm_compute; reflexivity).
  destruct (ofZ_correct (- 2 ^ 52)) as (F1 & E1 & _); [easy|].
  rewrite (Bltb_correct 53 1024) in H; [|reflexivity|exact F1].
  rewrite E1 in H.
  destruct (Rlt_bool_spec (B2R (Bopp f64_max)) (IZR (- 2 ^ 52))) as [Hlt|Hge]; [|discriminate].
  rewrite <- opp_IZR. exact Hlt.
Qed.

Definition ieee_ok (n : Z) (x : f64) : Prop := is_finite x = true /\ Rabs (B2R x) <= IZR (n * 2048).
Definition ieee_wt (w : f64) : Prop := is_finite w = true /\ Rabs (B2R w) <= 2048.

Lemma ok_bound n (x : f64) : (0 <= n <= maxlen)%Z -> ieee_ok n x ->
  - IZR (2 ^ 51) <= B2R x <= IZR (2 ^ 51).
Proof.
  intros Hn [_ H]. apply Rabs_le_inv in H.
  assert (IZR (n * 2048) <= IZR (2 ^ 51)).
  { apply IZR_le. unfold maxlen in Hn. change (2 ^ 51)%Z with (2 ^ 40 * 2048)%Z. nia. }
  lra.
Qed.

Lemma bltb_false (x y : f64) : is_finite x = true -> is_finite y = true ->
  (Bltb x y = false <-> B2R y <= B2R x).
Proof.
  intros Fx Fy. rewrite (Bltb_correct 53 1024) by easy.
  destruct (Rlt_bool_spec (B2R x) (B2R y)); split; intro; try easy; try lra.
Qed.
Lemma bltb_true (x y : f64) : is_finite x = true -> is_finite y = true ->
  (Bltb x y = true <-> B2R x < B2R y).
Proof.
  intros Fx Fy. rewrite (Bltb_correct 53 1024) by easy.
  destruct (Rlt_bool_spec (B2R x) (B2R y)); split; intro; try easy; try lra.
Qed.

Lemma ok_add64 n x w : (0 <= n < maxlen)%Z -> ieee_ok n x -> ieee_wt w ->
  ieee_ok (n + 1) (Bplus mode_NE x w) /\ B2R (Bplus mode_NE x w) = rnd64 (B2R x + B2R w).
Proof.
  intros Hn [Fx Hx] [Fw Hw].
  destruct (plus_small x w ((n + 1) * 2048)) as (H1 & H2 & H3); try easy.
  - unfold maxlen in Hn. change (2 ^ 53)%Z with (2 ^ 42 * 2048)%Z. change (2 ^ 40)%Z with 1099511627776%Z in Hn.
    change (2 ^ 42)%Z with 4398046511104%Z. lia.
  - eapply Rle_trans; [apply Rabs_triang|].
    replace ((n + 1) * 2048)%Z with (n * 2048 + 2048)%Z by ring. rewrite plus_IZR. lra.
Qed.


(** Results bounded by a representable number. *)
Lemma fmt_mpow (m e : Z) : (Z.abs m <= 2 ^ 53)%Z -> (-1074 <= e)%Z ->
  generic_format radix2 fexp64 (IZR m * bpow radix2 e).
Proof.
  intros Hm He. change fexp64 with (FLT_exp (-1074) 53).
  destruct (Z.eq_dec (Z.abs m) (2 ^ 53)) as [E|Hne].
  - assert (Hf : generic_format radix2 (FLT_exp (-1074) 53) (bpow radix2 (53 + e))).
    { apply generic_format_bpow. unfold FLT_exp. lia. }
    rewrite bpow_plus in Hf. change (bpow radix2 53) with (IZR (2 ^ 53)) in Hf.
    destruct (Z.abs_eq_or_opp m) as [E2|E2].
    + replace m with (2 ^ 53)%Z by lia. exact Hf.
    + replace m with (- (2 ^ 53))%Z by lia. rewrite opp_IZR, Ropp_mult_distr_l_reverse.
      now apply generic_format_opp.
  - apply generic_format_FLT. apply FLT_spec with (Float radix2 m e).
    + reflexivity.
    + change (Z.abs m < 2 ^ 53)%Z. lia.
    + exact He.
Qed.
Lemma fmt_pow (e : Z) : (-1074 <= e)%Z -> generic_format radix2 fexp64 (bpow radix2 e).
Proof. intro He. rewrite <- (Rmult_1_l (bpow radix2 e)). now apply (fmt_mpow 1). Qed.

Lemma rnd_bnd (x B : R) : generic_format radix2 fexp64 B -> Rabs x <= B -> Rabs (rnd64 x) <= B.
Proof. intros HB Hx. apply abs_round_le_generic; auto with typeclass_instances. Qed.

Section Bounded.
  Context (B : R) (HB : generic_format radix2 fexp64 B) (HBe : B < bpow radix2 1024).

  Lemma plus_bnd (x y : f64) : is_finite x = true -> is_finite y = true -> Rabs (B2R x + B2R y) <= B ->
    is_finite (Bplus mode_NE x y) = true /\ B2R (Bplus mode_NE x y) = rnd64 (B2R x + B2R y) /\
    Rabs (B2R (Bplus mode_NE x y)) <= B.
  Proof.
    intros Fx Fy Hb. pose proof (Bplus_correct 53 1024 _ _ mode_NE x y Fx Fy) as H.
    cbn [round_mode] in H. pose proof (rnd_bnd _ _ HB Hb) as Hr.
    rewrite Rlt_bool_true in H; [|now apply Rle_lt_trans with B].
    destruct H as (H1 & H2 & _). rewrite H1. easy.
  Qed.
  Lemma minus_bnd (x y : f64) : is_finite x = true -> is_finite y = true -> Rabs (B2R x - B2R y) <= B ->
    is_finite (Bminus mode_NE x y) = true /\ B2R (Bminus mode_NE x y) = rnd64 (B2R x - B2R y) /\
    Rabs (B2R (Bminus mode_NE x y)) <= B.
  Proof.
    intros Fx Fy Hb. pose proof (Bminus_correct 53 1024 _ _ mode_NE x y Fx Fy) as H.
    cbn [round_mode] in H. pose proof (rnd_bnd _ _ HB Hb) as Hr.
    rewrite Rlt_bool_true in H; [|now apply Rle_lt_trans with B].
    destruct H as (H1 & H2 & _). rewrite H1. easy.
  Qed.
  Lemma mult_bnd (x y : f64) : is_finite x = true -> is_finite y = true -> Rabs (B2R x * B2R y) <= B ->
    is_finite (Bmult mode_NE x y) = true /\ B2R (Bmult mode_NE x y) = rnd64 (B2R x * B2R y) /\
    Rabs (B2R (Bmult mode_NE x y)) <= B.
  Proof.
    intros Fx Fy Hb. pose proof (Bmult_correct 53 1024 _ _ mode_NE x y) as H.
    cbn [round_mode] in H. pose proof (rnd_bnd _ _ HB Hb) as Hr.
    rewrite Rlt_bool_true in H; [|now apply Rle_lt_trans with B].
    destruct H as (H1 & H2 & _). rewrite H1, H2, Fx, Fy. easy.
  Qed.
  Lemma div_bnd (x y : f64) : is_finite x = true -> is_finite y = true -> B2R y <> 0 ->
    Rabs (B2R x / B2R y) <= B ->
    is_finite (Bdiv mode_NE x y) = true /\ B2R (Bdiv mode_NE x y) = rnd64 (B2R x / B2R y) /\
    Rabs (B2R (Bdiv mode_NE x y)) <= B.
  Proof.
    intros Fx Fy Hy Hb. pose proof (Bdiv_correct 53 1024 _ _ mode_NE x y Hy) as H.
    cbn [round_mode] in H. pose proof (rnd_bnd _ _ HB Hb) as Hr.
    rewrite Rlt_bool_true in H; [|now apply Rle_lt_trans with B].
    destruct H as (H1 & H2 & _). rewrite H1, H2, Fx. easy.
  Qed.
End Bounded.

(** Totals of counts: at 2^200 further counts are absorbed. *)
Definition p200 : f64 := f64_ofZ (2 ^ 200).
Lemma p200_spec : is_finite p200 = true /\ B2R p200 = bpow radix2 200.
Proof.
  unfold p200, f64_ofZ.
  pose proof (binary_normalize_correct 53 1024 _ _ mode_NE (2 ^ 200) 0 false) as H.
  cbn zeta in H. cbn [round_mode] in H.
  assert (E : F2R (Float radix2 (2 ^ 200) 0) = bpow radix2 200).
  { unfold F2R. cbn [Fnum Fexp]. rewrite Rmult_1_r. now rewrite <- IZR_Zpower. }
  rewrite E in H. rewrite round_generic in H; auto with typeclass_instances; [|now apply fmt_pow].
  rewrite Rlt_bool_true in H.
  - destruct H as (H1 & H2 & H3). now split.
  - rewrite Rabs_right; [|apply Rle_ge, bpow_ge_0]. now apply bpow_lt.
Qed.
Lemma absorb : rnd64 (bpow radix2 200 + IZR (2 ^ 53)) = bpow radix2 200.
Proof.
  destruct p200_spec as [F1 E1]. rewrite <- E1.
  destruct (ofZ_correct (2 ^ 53)) as (F2 & E2 & _); [simpl; lia|].
  rewrite <- E2 at 1.
  pose proof (Bplus_correct 53 1024 _ _ mode_NE p200 (f64_ofZ (2 ^ 53)) F1 F2) as H.
  cbn [round_mode] in H.
  assert (C : B2SF (Bplus mode_NE p200 (f64_ofZ (2 ^ 53))) = B2SF p200) by (vm_compute; reflexivity).
  destruct (Rlt_bool _ _).
  - destruct H as (H & _). rewrite <- H.
    rewrite <- (SF2R_B2SF 53 1024 (Bplus mode_NE p200 (f64_ofZ (2 ^ 53)))), C. now rewrite SF2R_B2SF.
  - exfalso. destruct H as [H _]. rewrite C in H. vm_compute in H. discriminate.
Qed.

Definition ieee_cnt (t : f64) : Prop := is_finite t = true /\ 0 <= B2R t <= bpow radix2 200.
Definition ieee_tot (t : f64) : Prop := is_finite t = true /\ 0 <= B2R t <= bpow radix2 201.

Lemma two53_le e : (53 <= e)%Z -> IZR (2 ^ 53) <= bpow radix2 e.
Proof. intro H. change (IZR (2 ^ 53)) with (bpow radix2 53). now apply bpow_le. Qed.
Lemma ofZ_range z : (0 <= z <= 2 ^ 53)%Z ->
  is_finite (f64_ofZ z) = true /\ B2R (f64_ofZ z) = IZR z /\ 0 <= IZR z <= IZR (2 ^ 53).
Proof.
  intro H. destruct (ofZ_correct z) as (H1 & H2 & _); [lia|]. split; [easy|]. split; [easy|].
  split; apply IZR_le; lia.
Qed.

Lemma cnt_ofZ64 z : (0 <= z <= maxcount)%Z -> ieee_cnt (f64_ofZ z).
Proof.
  intro H. destruct (ofZ_range z H) as (H1 & H2 & H3). split; [easy|]. rewrite H2.
  pose proof (two53_le 200). split; [easy|]. apply Rle_trans with (IZR (2 ^ 53)); [easy|]. now apply H0.
Qed.
Lemma cnt_add64 t z : ieee_cnt t -> (0 <= z <= maxcount)%Z -> ieee_cnt (Bplus mode_NE t (f64_ofZ z)).
Proof.
  intros [Ft Ht] Hz. destruct (ofZ_range z Hz) as (Fz & Ez & Hz').
  destruct (plus_bnd (bpow radix2 201)) with (x := t) (y := f64_ofZ z) as (F1 & E1 & _); try easy.
  - now apply fmt_pow.
  - now apply bpow_lt.
  - rewrite Ez, Rabs_right by lra. change 201%Z with (200 + 1)%Z. rewrite bpow_plus.
    pose proof (two53_le 200 ltac:(lia)). change (bpow radix2 1) with 2. lra.
  - split; [easy|]. rewrite E1, Ez. split.
    + apply round_ge_generic; auto with typeclass_instances; [apply generic_format_0|lra].
    + rewrite <- absorb. apply round_le; auto with typeclass_instances. lra.
Qed.
Lemma tot_add64 s t : ieee_cnt s -> ieee_cnt t -> ieee_tot (Bplus mode_NE s t).
Proof.
  intros [Fs Hs] [Ft Ht].
  destruct (plus_bnd (bpow radix2 201)) with (x := s) (y := t) as (F1 & E1 & H1); try easy.
  - now apply fmt_pow.
  - now apply bpow_lt.
  - rewrite Rabs_right by lra. change 201%Z with (200 + 1)%Z. rewrite bpow_plus.
    change (bpow radix2 1) with 2. lra.
  - split; [easy|]. apply Rabs_le_inv in H1. split; [|lra]. rewrite E1.
    apply round_ge_generic; auto with typeclass_instances; [apply generic_format_0|lra].
Qed.
Lemma tot_plus64 t n : ieee_tot t -> (1 <= n <= maxcount)%Z ->
  is_finite (Bplus mode_NE t (f64_ofZ n)) = true /\
  1 <= B2R (Bplus mode_NE t (f64_ofZ n)) <= bpow radix2 202.
Proof.
  intros [Ft Ht] Hn. destruct (ofZ_range n) as (Fn & En & Hn'); [unfold maxcount in Hn; lia|].
  assert (H1n : 1 <= IZR n) by (apply IZR_le; lia).
  destruct (plus_bnd (bpow radix2 202)) with (x := t) (y := f64_ofZ n) as (F1 & E1 & H1); try easy.
  - now apply fmt_pow.
  - now apply bpow_lt.
  - rewrite En, Rabs_right by lra. change 202%Z with (201 + 1)%Z. rewrite bpow_plus.
    pose proof (two53_le 201 ltac:(lia)). change (bpow radix2 1) with 2. lra.
  - split; [easy|]. apply Rabs_le_inv in H1. split; [|lra]. rewrite E1, En.
    apply round_ge_generic; auto with typeclass_instances; [|lra].
    change 1 with (IZR 1). apply int_format. simpl. lia.
Qed.

(** Magnitudes, in units of 2^80. *)
Definition ieee_mag (m : Z) (x : f64) : Prop :=
  is_finite x = true /\ Rabs (B2R x) <= IZR m * bpow radix2 80.

Lemma unit_lt m : (m <= 2 ^ 53)%Z -> IZR m * bpow radix2 80 < bpow radix2 1024.
Proof.
  intro H. apply Rle_lt_trans with (bpow radix2 (53 + 80)); [|now apply bpow_lt].
  rewrite bpow_plus. apply Rmult_le_compat_r; [apply bpow_ge_0|].
  change (bpow radix2 53) with (IZR (2 ^ 53)). now apply IZR_le.
Qed.
Lemma mag_add64 m n x y : (0 <= m)%Z -> (0 <= n)%Z -> (m + n <= maxcount)%Z -> ieee_mag m x -> ieee_mag n y ->
  ieee_mag (m + n) (Bplus mode_NE x y).
Proof.
  intros Hm Hn Hmn [Fx Hx] [Fy Hy]. unfold maxcount in Hmn.
  destruct (plus_bnd (IZR (m + n) * bpow radix2 80)) with (x := x) (y := y) as (F1 & _ & H1); try easy.
  - apply fmt_mpow; lia.
  - now apply unit_lt.
  - eapply Rle_trans; [apply Rabs_triang|]. rewrite plus_IZR. lra.
Qed.
Lemma mag_sub64 m n x y : (0 <= m)%Z -> (0 <= n)%Z -> (m + n <= maxcount)%Z -> ieee_mag m x -> ieee_mag n y ->
  ieee_mag (m + n) (Bminus mode_NE x y).
Proof.
  intros Hm Hn Hmn [Fx Hx] [Fy Hy]. unfold maxcount in Hmn.
  destruct (minus_bnd (IZR (m + n) * bpow radix2 80)) with (x := x) (y := y) as (F1 & _ & H1); try easy.
  - apply fmt_mpow; lia.
  - now apply unit_lt.
  - unfold Rminus. eapply Rle_trans; [apply Rabs_triang|]. rewrite Rabs_Ropp, plus_IZR. lra.
Qed.

(** Rounding at most doubles, up to the smallest subnormal. *)
Lemma rnd_double (z : R) : Rabs (rnd64 z) <= 2 * Rabs z + bpow radix2 (-1074).
Proof.
  destruct (Req_dec z 0) as [->|Hz].
  - rewrite round_0 by auto with typeclass_instances. rewrite Rabs_R0.
    pose proof (bpow_ge_0 radix2 (-1074)). lra.
  - destruct (mag radix2 z) as [e He]. specialize (He Hz). cbn in He.
    destruct (Z.le_gt_cases (-1074) e) as [Hle|Hlt].
    + apply Rle_trans with (bpow radix2 e).
      * apply rnd_bnd; [now apply fmt_pow|lra].
      * replace e with (1 + (e - 1))%Z by ring. rewrite bpow_plus. change (bpow radix2 1) with 2.
        pose proof (bpow_ge_0 radix2 (-1074)). lra.
    + apply Rle_trans with (bpow radix2 (-1074)).
      * apply rnd_bnd; [now apply fmt_pow|]. apply Rle_trans with (bpow radix2 e); [lra|].
        apply bpow_le. lia.
      * pose proof (Rabs_pos z). lra.
Qed.

Lemma mag_divmul64 m c x : (0 <= m)%Z -> (2 * m + 1 <= maxcount)%Z -> (1 <= c <= maxcount)%Z -> ieee_mag m x ->
  ieee_mag (2 * m + 1) (Bmult mode_NE (Bdiv mode_NE x (f64_ofZ c)) (f64_ofZ c)).
Proof.
  intros Hm Hm2 Hc [Fx Hx]. unfold maxcount in *.
  destruct (ofZ_range c) as (Fc & Ec & Hc'); [lia|].
  assert (H1c : 1 <= IZR c) by (apply IZR_le; lia).
  assert (Hq : Rabs (B2R x / IZR c) <= Rabs (B2R x)).
  { unfold Rdiv. rewrite Rabs_mult. rewrite <- (Rmult_1_r (Rabs (B2R x))) at 2.
    apply Rmult_le_compat_l; [apply Rabs_pos|]. rewrite Rabs_right.
    - rewrite <- Rinv_1. apply Rinv_le; lra.
    - apply Rle_ge, Rlt_le, Rinv_0_lt_compat. lra. }
  destruct (div_bnd (IZR m * bpow radix2 80)) with (x := x) (y := f64_ofZ c) as (F1 & E1 & H1); try easy.
  - apply fmt_mpow; lia.
  - apply unit_lt. lia.
  - rewrite Ec. lra.
  - rewrite Ec. lra.
  - destruct (mult_bnd (IZR (2 * m + 1) * bpow radix2 80)) with (x := Bdiv mode_NE x (f64_ofZ c)) (y := f64_ofZ c)
      as (F2 & _ & H2); try easy.
    + apply fmt_mpow; lia.
    + apply unit_lt. lia.
    + rewrite E1, Ec, Rabs_mult. pose proof (rnd_double (B2R x / IZR c)) as Hd.
      rewrite (Rabs_right (IZR c)) by lra.
      assert (Hq2 : Rabs (B2R x / IZR c) * IZR c = Rabs (B2R x)).
      { unfold Rdiv. rewrite Rabs_mult, (Rabs_right (/ IZR c)), Rmult_assoc, Rinv_l, Rmult_1_r; [easy|lra|].
        apply Rle_ge, Rlt_le, Rinv_0_lt_compat. lra. }
      apply Rle_trans with ((2 * Rabs (B2R x / IZR c) + bpow radix2 (-1074)) * IZR c).
      { apply Rmult_le_compat_r; [lra|easy]. }
      replace ((2 * Rabs (B2R x / IZR c) + bpow radix2 (-1074)) * IZR c) with
        (2 * (Rabs (B2R x / IZR c) * IZR c) + bpow radix2 (-1074) * IZR c) by ring.
      rewrite Hq2.
      assert (Ht : bpow radix2 (-1074) * IZR c <= bpow radix2 80).
      { apply Rle_trans with (bpow radix2 (-1074) * bpow radix2 53).
        - apply Rmult_le_compat_l; [apply bpow_ge_0|]. apply Hc'.
        - rewrite <- bpow_plus. now apply bpow_le. }
      rewrite plus_IZR, mult_IZR. lra.
Qed.

(** Comparison with infinities and NaN. *)
Lemma bltb_nan_l (x y : f64) : is_nan x = true -> Bltb x y = false.
Proof. now destruct x. Qed.
Lemma bltb_nan_r (x y : f64) : is_nan y = true -> Bltb x y = false.
Proof. destruct y; try easy. now destruct x as [[]|[]| |[] m e Hx]. Qed.

Ltac fin3 := first [reflexivity | discriminate].
Lemma lt_asym64 (x y : f64) : Bltb x y = true -> Bltb y x = false.
Proof.
  destruct (is_finite x) eqn:Fx, (is_finite y) eqn:Fy.
  - intro H. apply bltb_true in H; [|easy|easy]. apply bltb_false; [easy|easy|lra].
  - destruct y as [|[]| |]; try discriminate; destruct x as [[]|[]| |[] m e Hx]; try discriminate; reflexivity.
  - destruct x as [|[]| |]; try discriminate; destruct y as [[]|[]| |[] m e Hy]; try discriminate; reflexivity.
  - destruct x as [|[]| |]; try discriminate; destruct y as [|[]| |]; try discriminate; try reflexivity.
Qed.
Lemma lt_irrefl64 (x : f64) : Bltb x x = false.
Proof.
  destruct (Bltb x x) eqn:E; [|easy]. rewrite <- E at 1. now apply lt_asym64.
Qed.
(* position on the extended line: infinities as integers around the finite values *)
Lemma le_trans64 (x y z : f64) : is_nan y = false ->
  Bltb y x = false -> Bltb z y = false -> Bltb z x = false.
Proof.
  intros Ny H1 H2.
  destruct (is_finite x) eqn:Fx, (is_finite y) eqn:Fy, (is_finite z) eqn:Fz.
  - apply bltb_false in H1; [|easy|easy]. apply bltb_false in H2; [|easy|easy].
    apply bltb_false; [easy|easy|lra].
  - destruct z as [|[]| |]; try discriminate.
    + exfalso. destruct y as [[]|[]| |[] m e Hy]; discriminate.
    + now destruct x as [[]|[]| |[] m e Hx].
    + reflexivity.
  - destruct y as [|[]| |]; try discriminate.
    + exfalso. destruct x as [[]|[]| |[] m e Hx]; discriminate.
    + exfalso. destruct z as [[]|[]| |[] m e Hz]; discriminate.
  - destruct y as [|[]| |]; try discriminate.
    + exfalso. destruct x as [[]|[]| |[] m e Hx]; discriminate.
    + destruct z as [|[]| |]; try discriminate.
      * now destruct x as [[]|[]| |[] m e Hx].
      * reflexivity.
  - destruct x as [|[]| |]; try discriminate.
    + now destruct z as [[]|[]| |[] m e Hz].
    + exfalso. destruct y as [[]|[]| |[] m e Hy]; discriminate.
    + now apply bltb_nan_r.
  - destruct x as [|[]| |]; try discriminate.
    + now destruct z as [[]|[]| |[] m e Hz].
    + exfalso. destruct y as [[]|[]| |[] m e Hy]; discriminate.
    + now apply bltb_nan_r.
  - destruct x as [|[]| |]; try discriminate.
    + now destruct z as [[]|[]| |[] m e Hz].
    + destruct y as [|[]| |]; try discriminate.
      exfalso. destruct z as [[]|[]| |[] m e Hz]; discriminate.
    + now apply bltb_nan_r.
  - destruct x as [|[]| |]; try discriminate.
    + now destruct z as [[]|[]| |[] m e Hz].
    + destruct y as [|[]| |]; try discriminate.
      destruct z as [|[]| |]; try discriminate; reflexivity.
    + now apply bltb_nan_r.
Qed.
Lemma neg_lt64 (x y : f64) : Bltb (Bopp x) (Bopp y) = Bltb y x.
Proof.
  destruct (is_finite x) eqn:Fx, (is_finite y) eqn:Fy.
  - rewrite !(Bltb_correct 53 1024); rewrite ?is_finite_Bopp; try easy. rewrite !B2R_Bopp.
    destruct (Rlt_bool_spec (- B2R x) (- B2R y)), (Rlt_bool_spec (B2R y) (B2R x)); try easy; lra.
  - destruct y as [|[]| |]; try discriminate; destruct x as [[]|[]| |[] m e Hx]; try discriminate; reflexivity.
  - destruct x as [|[]| |]; try discriminate; destruct y as [[]|[]| |[] m e Hy]; try discriminate; reflexivity.
  - destruct x as [|[]| |]; try discriminate; destruct y as [|[]| |]; try discriminate; try reflexivity.
Qed.
Lemma fin_num (x : f64) : is_finite x = true -> is_nan x = false.
Proof. now destruct x. Qed.

Lemma max_value : bpow radix2 140 < B2R f64_max.
Proof.
  assert (C : B2SF f64_max = SpecFloat.S754_finite false (2 ^ 53 - 1) 971) by (vm_compute; reflexivity).
  rewrite <- (SF2R_B2SF 53 1024 f64_max), C. cbn [SF2R cond_Zopp]. unfold F2R. cbn [Fnum Fexp].
  apply Rlt_le_trans with (1 * bpow radix2 971).
  - rewrite Rmult_1_l. now apply bpow_lt.
  - apply Rmult_le_compat_r; [apply bpow_ge_0|]. apply IZR_le. lia.
Qed.

Lemma lit13_spec : is_finite (Bdiv mode_NE (f64_ofZ 13) (f64_ofZ 10)) = true /\
  1 <= B2R (Bdiv mode_NE (f64_ofZ 13) (f64_ofZ 10)) <= 2.
Proof.
  set (l := Bdiv mode_NE (f64_ofZ 13) (f64_ofZ 10)).
  assert (Fl : is_finite l = true) by (vm_compute; reflexivity).
  destruct (ofZ_correct 1) as (F1 & E1 & _); [easy|].
  destruct (ofZ_correct 2) as (F2 & E2 & _); [easy|].
  split; [easy|]. rewrite <- E1, <- E2. split.
  - apply bltb_false; [easy|easy|vm_compute; reflexivity].
  - apply bltb_false; [easy|easy|vm_compute; reflexivity].
Qed.

Definition ieee_laws (lg : f64 -> f64) (Hlg : log_ok lg) : flaws (ieee lg).
Proof.
  assert (HR : forall x : f64, is_finite x = true -> 1 <= B2R x <= bpow radix2 202 ->
    is_finite (lg x) = true /\ Rabs (B2R (lg x)) <= 1000).
  { intros x Fx Hx. apply Hlg; [easy|]. split.
    - apply Rle_trans with 1; [|easy]. change 1 with (bpow radix2 0). now apply bpow_le.
    - apply Rle_trans with (bpow radix2 202); [easy|]. now apply bpow_le. }
  assert (HZ : forall a, (1 <= a <= maxcount)%Z ->
    is_finite (lg (f64_ofZ a)) = true /\ Rabs (B2R (lg (f64_ofZ a))) <= 1000).
  { intros a Ha. unfold maxcount in Ha. destruct (ofZ_range a) as (F1 & E1 & H1); [lia|].
    apply HR; [easy|]. rewrite E1. split; [apply IZR_le; lia|].
    apply Rle_trans with (IZR (2 ^ 53)); [easy|]. now apply two53_le. }
  refine (Build_flaws (ieee lg) ieee_ok ieee_wt _ _ _ _ _ _ _ _ _ _ ieee_cnt ieee_tot
            _ _ _ _ _ _ _ _ _ _ _ _ _ _ ieee_mag _ _ _ _ _ _ _ _ _ _ _);
    unfold ieee; cbn [F fadd fsub fmul fdiv fneg fltb flog fofZ flowest fmax fnan ftrunc].
  - split; [reflexivity|]. cbn. rewrite Rabs_R0. lra.
  - intros n x w Hn Hx Hw. now apply ok_add64.
  - intros n m x Hn Hm [F1 H]. split; [easy|]. apply Rle_trans with (IZR (n * 2048)); [easy|].
    apply IZR_le. lia.
  - intros n x Hn Hx. apply bltb_true; [reflexivity|apply Hx|].
    pose proof low_value. destruct (ok_bound n x Hn Hx).
    assert (IZR (2 ^ 51) < IZR (2 ^ 52)) by (apply IZR_lt; lia). lra.
  - intros w [Fw Hw]. destruct (low_plus w Fw Hw) as [F1 E1].
    apply bltb_false; [reflexivity|easy|]. rewrite E1. lra.
  - intros n x w Hn Hx [Fw Hw]. destruct (low_plus w Fw Hw) as [F1 E1].
    apply bltb_false; [apply Hx|easy|]. rewrite E1.
    pose proof low_value. destruct (ok_bound n x Hn Hx).
    assert (IZR (2 ^ 51) < IZR (2 ^ 52)) by (apply IZR_lt; lia). lra.
  - intros n x Hn Hx. apply bltb_false; [apply Hx|apply Hx|lra].
  - intros n x y Hn Hx Hy H. apply bltb_true in H; [|apply Hx|apply Hy].
    apply bltb_false; [apply Hy|apply Hx|lra].
  - intros n x y z Hn Hx Hy Hz H1 H2. apply bltb_false in H1; [|apply Hy|apply Hx].
    apply bltb_false in H2; [|apply Hz|apply Hy]. apply bltb_false; [apply Hz|apply Hx|lra].
  - intros n x y w Hn Hx Hy Hw H. apply bltb_false in H; [|apply Hy|apply Hx].
    destruct (ok_add64 n x w Hn Hx Hw) as [[F1 _] E1].
    destruct (ok_add64 n y w Hn Hy Hw) as [[F2 _] E2].
    apply bltb_false; [easy|easy|]. rewrite E1, E2. apply round_le; auto with typeclass_instances. lra.
  - exact cnt_ofZ64.
  - exact cnt_add64.
  - intros z Hz. destruct (cnt_ofZ64 z Hz) as [H1 H2]. split; [easy|]. split; [easy|].
    apply Rle_trans with (bpow radix2 200); [easy|]. now apply bpow_le.
  - exact tot_add64.
  - intros a t n Ha Ht Hn. destruct (HZ a Ha) as [Fa Ea].
    destruct (tot_plus64 t n Ht Hn) as [Fp Hp]. destruct (HR _ Fp Hp) as [Fb Eb].
    destruct (minus_small (lg (f64_ofZ a)) (lg (Bplus mode_NE t (f64_ofZ n))) 2048) as [H1 H2]; try easy.
    apply Rabs_le_inv in Ea. apply Rabs_le_inv in Eb. apply Rabs_le. lra.
  - intros t n Ht Hn.
    destruct (tot_plus64 t n Ht Hn) as [Fp Hp]. destruct (HR _ Fp Hp) as [Fb Eb].
    destruct (minus_small (f64_ofZ 0) (lg (Bplus mode_NE t (f64_ofZ n))) 2048) as [H1 H2]; try easy.
    apply Rabs_le_inv in Eb. apply Rabs_le. cbn. lra.
  - intros a b Ha Hb Hab. unfold maxcount in Hab.
    destruct (ofZ_correct a) as (Fa & Ea & Sa); [lia|].
    destruct (ofZ_correct b) as (Fb & Eb & Sb); [lia|].
    destruct (ofZ_correct (a + b)) as (Fc & Ec & Sc); [lia|].
    pose proof (Bplus_correct 53 1024 _ _ mode_NE (f64_ofZ a) (f64_ofZ b) Fa Fb) as H.
    cbn [round_mode] in H. rewrite Ea, Eb, <- plus_IZR in H.
    rewrite round_generic in H; auto with typeclass_instances; [|apply int_format; lia].
    rewrite Rlt_bool_true in H; [|rewrite <- abs_IZR; apply small_lt_emax; lia].
    destruct H as (H1 & H2 & H3).
    apply (B2R_Bsign_inj 53 1024); try easy; [now rewrite H1, Ec|].
    rewrite H3, Sc, Sa, Sb.
    destruct (Rcompare_spec (IZR (a + b)) 0) as [Hc|Hc|Hc]; [| |easy].
    + exfalso. apply lt_IZR in Hc. lia.
    + apply eq_IZR in Hc. assert (a = 0)%Z by lia. assert (b = 0)%Z by lia. subst.
      now rewrite Rcompare_Eq.
  - intros a b Ha Hb. destruct (ofZ_range a Ha) as (Fa & Ea & _).
    destruct (ofZ_range b Hb) as (Fb & Eb & _).
    rewrite bltb_true by easy. rewrite Ea, Eb. split; [apply lt_IZR|apply IZR_lt].
  - exact lt_irrefl64.
  - exact lt_asym64.
  - exact le_trans64.
  - intros x y H. split.
    + destruct (is_nan x) eqn:E; [|easy]. now rewrite bltb_nan_l in H.
    + destruct (is_nan y) eqn:E; [|easy]. now rewrite bltb_nan_r in H.
  - exact neg_lt64.
  - split; vm_compute; reflexivity.
  - split; [reflexivity|]. cbn. rewrite Rabs_R0. lra.
  - intros m n x Hmn [Fx Hx]. split; [easy|]. apply Rle_trans with (IZR m * bpow radix2 80); [easy|].
    apply Rmult_le_compat_r; [apply bpow_ge_0|]. now apply IZR_le.
  - exact mag_add64.
  - exact mag_sub64.
  - intros a Ha. destruct (HZ a Ha) as [Fl El]. unfold maxcount in Ha.
    destruct (ofZ_range a) as (Fa & Ea & Ha'); [lia|].
    destruct (mult_bnd (IZR 1 * bpow radix2 80)) with (x := f64_ofZ a) (y := lg (f64_ofZ a)) as (F1 & _ & H1);
      try easy.
    + apply fmt_mpow; [simpl; lia|lia].
    + apply unit_lt. lia.
    + rewrite Ea, Rabs_mult, (Rabs_right (IZR a)) by lra.
      apply Rle_trans with (bpow radix2 53 * bpow radix2 10).
      * apply Rmult_le_compat; try apply Rabs_pos; try lra.
        { change (bpow radix2 53) with (IZR (2 ^ 53)). lra. }
        { change (bpow radix2 10) with 1024. lra. }
      * rewrite <- bpow_plus, Rmult_1_l. now apply bpow_le.
  - exact mag_divmul64.
  - intros m x Hm [Fx Hx]. split; [now apply fin_num|]. apply bltb_true; [easy|reflexivity|].
    apply Rabs_le_inv in Hx.
    assert (Hu : IZR m * bpow radix2 80 <= bpow radix2 (53 + 80)).
    { rewrite bpow_plus. apply Rmult_le_compat_r; [apply bpow_ge_0|].
      change (bpow radix2 53) with (IZR (2 ^ 53)). now apply IZR_le. }
    pose proof max_value. assert (bpow radix2 (53 + 80) < bpow radix2 140) by now apply bpow_lt. lra.
  - intros a t n Ha [Ft Ht] Hn. unfold maxcount in Ha.
    assert (Ht2 : ieee_tot t).
    { split; [easy|]. split; [easy|]. apply Rle_trans with (bpow radix2 200); [easy|]. now apply bpow_le. }
    destruct (tot_plus64 t n Ht2 Hn) as [Fp Hp].
    destruct (ofZ_range a) as (Fa & Ea & Ha'); [lia|].
    destruct (ofZ_range 1) as (F1 & E1 & _); [lia|].
    assert (Ha1 : 0 <= IZR a + 1 <= IZR (2 ^ 53)).
    { rewrite <- plus_IZR. split; apply IZR_le; lia. }
    destruct (plus_bnd (bpow radix2 53)) with (x := f64_ofZ a) (y := f64_ofZ 1) as (Fs & Es & Hs); try easy.
    + now apply fmt_pow.
    + now apply bpow_lt.
    + rewrite Ea, E1, Rabs_right by lra. apply Ha1.
    + apply fin_num.
      destruct (div_bnd (bpow radix2 53)) with (x := Bplus mode_NE (f64_ofZ a) (f64_ofZ 1))
        (y := Bplus mode_NE t (f64_ofZ n)) as (Fd & _ & _); try easy.
      * now apply fmt_pow.
      * now apply bpow_lt.
      * lra.
      * unfold Rdiv. rewrite Rabs_mult. rewrite <- (Rmult_1_r (bpow radix2 53)).
        apply Rmult_le_compat; try apply Rabs_pos; [easy|].
        rewrite Rabs_right; [|apply Rle_ge, Rlt_le, Rinv_0_lt_compat; lra].
        rewrite <- Rinv_1. apply Rinv_le; lra.
  - intros n Hn. unfold maxcount in Hn.
    destruct (Z.eq_dec n 0) as [->|Hn0]; [vm_compute; reflexivity|].
    destruct (ofZ_range n) as (Fn & En & Hn'); [lia|].
    destruct (ofZ_range 1) as (F1 & E1 & _); [lia|].
    assert (H1n : 1 <= IZR n) by (apply IZR_le; lia).
    apply fin_num.
    destruct (div_bnd (bpow radix2 0)) with (x := f64_ofZ 1) (y := f64_ofZ n) as (Fd & _ & _); try easy.
    + now apply fmt_pow.
    + now apply bpow_lt.
    + lra.
    + rewrite E1, En. change (bpow radix2 0) with 1. unfold Rdiv. rewrite Rmult_1_l, Rabs_right;
        [|apply Rle_ge, Rlt_le, Rinv_0_lt_compat; lra].
      rewrite <- Rinv_1. apply Rinv_le; lra.
  - vm_compute. reflexivity.
  - intros n Hn Hx. unfold flit in *. cbn [fdiv fofZ] in *. destruct lit13_spec as [Fl Hl].
    set (l := Bdiv mode_NE (f64_ofZ 13) (f64_ofZ 10)) in *.
    destruct (ofZ_range n Hn) as (Fn & En & Hn').
    destruct (mult_bnd (bpow radix2 54)) with (x := f64_ofZ n) (y := l) as (Fm & _ & _); try easy.
    + now apply fmt_pow.
    + now apply bpow_lt.
    + rewrite En, Rabs_right by (apply Rle_ge, Rmult_le_pos; lra).
      change 54%Z with (53 + 1)%Z. rewrite bpow_plus. apply Rmult_le_compat; try lra.
      * change (bpow radix2 53) with (IZR (2 ^ 53)). lra.
      * change (bpow radix2 1) with 2. lra.
    + destruct (ofZ_correct 10) as (F10 & E10 & _); [easy|].
      apply bltb_false in Hx; [|easy|easy]. rewrite E10 in Hx.
      apply le_IZR. rewrite (Btrunc_correct 53 1024); [|easy]. rewrite round_FIX_IZR.
      apply IZR_le. rewrite Ztrunc_floor by lra. apply Zfloor_lub. lra.
Defined.
