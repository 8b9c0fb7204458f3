(** GainExact: the cost of dropping a word in exact arithmetic. *)
From Coq Require Import Reals Lra.
From Verif Require Import Base Spec SpecEntropy FloatOps FloatIdeal SpecStat SpecGain DictProofs StatProofs IdealProofs.
Local Open Scope R_scope.

Lemma ln_quot a b : 0 < a -> 0 < b -> ln (a / b) = ln a - ln b.
Proof. intros Ha Hb. unfold Rdiv. rewrite ln_mult by (easy || now apply Rinv_0_lt_compat). rewrite ln_Rinv by easy. lra. Qed.

Definition gg (f : Z) : R := if Z.ltb 0 f then IZR f * ln (IZR f) else 0.
Lemma total_code_gg fs : Forall (fun f => 0 <= f)%Z fs ->
  total_code fs = IZR (zsum fs) * ln (IZR (zsum fs)) - rsum (map gg fs).
Proof. intro H. unfold total_code. now rewrite (entropy_sum fs _ H). Qed.

Lemma ln_below x : 0 < x -> ln x <= x - 1.
Proof.
  intro H. pose proof (exp_ineq1_le (ln x)) as E. rewrite exp_ln in E by easy. lra.
Qed.
(** Steps of x ln x grow. *)
Lemma gg_convex z c : (0 <= z)%Z -> (1 <= c)%Z -> gg (z + c) - gg z <= gg (z + c + c) - gg (z + c).
Proof.
  intros Hz Hc. unfold gg. destruct (Z.ltb_spec 0 (z + c)); [|lia]. destruct (Z.ltb_spec 0 (z + c + c)); [|lia].
  rewrite !plus_IZR. set (y := IZR z + IZR c). assert (Hc1 : 1 <= IZR c) by (apply IZR_le; lia).
  assert (Hz0 : 0 <= IZR z) by (apply IZR_le; lia).
  assert (Hy : 0 < y) by (unfold y; lra).
  assert (H1 : (y + IZR c) * (ln y - ln (y + IZR c)) <= - IZR c).
  { rewrite <- (ln_quot y (y + IZR c)) by lra. pose proof (ln_below (y / (y + IZR c))) as Hb.
    assert (Hp : 0 < y / (y + IZR c)) by (apply Rdiv_lt_0_compat; lra). specialize (Hb Hp).
    apply (Rmult_le_compat_l (y + IZR c)) in Hb; [|lra].
    replace ((y + IZR c) * (y / (y + IZR c) - 1)) with (- IZR c) in Hb by (field; lra). exact Hb. }
  destruct (Z.ltb_spec 0 z) as [Hp|Hp].
  - assert (Hzp : 1 <= IZR z) by (apply IZR_le; lia).
    assert (H2 : IZR z * (ln y - ln (IZR z)) <= IZR c).
    { rewrite <- (ln_quot y (IZR z)) by lra. pose proof (ln_below (y / IZR z)) as Hb.
      assert (Hq : 0 < y / IZR z) by (apply Rdiv_lt_0_compat; lra). specialize (Hb Hq).
      apply (Rmult_le_compat_l (IZR z)) in Hb; [|lra].
      replace (IZR z * (y / IZR z - 1)) with (IZR c) in Hb by (unfold y; field; lra). exact Hb. }
    replace (IZR z) with (y - IZR c) in H2 at 1 by (unfold y; ring).
    assert (Hzl : IZR z * ln (IZR z) = (y - IZR c) * ln (IZR z)) by (unfold y; ring). rewrite Hzl. nra.
  - assert (z = 0%Z) by lia. subst z. assert (Hy2 : y = IZR c) by (unfold y; lra).
    rewrite <- Hy2 in *. nra.
Qed.

Lemma gg_steps f c k : (0 <= f)%Z -> (1 <= c)%Z -> (0 <= k)%Z -> gg (f + c) - gg f <= gg (f + k * c + c) - gg (f + k * c).
Proof.
  intros Hf Hc Hk. pattern k. apply natlike_ind; [|clear k Hk|easy].
  - rewrite Z.mul_0_l, Z.add_0_r. lra.
  - intros k Hk IH. apply (Rle_trans _ _ _ IH).
    pose proof (gg_convex (f + k * c) c ltac:(nia) Hc) as H.
    replace (f + Z.succ k * c)%Z with (f + k * c + c)%Z by lia. exact H.
Qed.

Lemma rsum_upd l j x : (j < length l)%nat ->
  rsum (map gg (upd l j x)) = rsum (map gg l) - gg (at0 l j) + gg x.
Proof.
  revert j. induction l as [|a l IH]; intros [|j] H; cbn [length] in H; try lia.
  - cbn. fold (rsum (map gg l)). unfold at0. cbn. lra.
  - cbn [upd map rsum fold_right]. fold (rsum (map gg (upd l j x))). fold (rsum (map gg l)).
    rewrite IH by lia. change (at0 (a :: l) (S j)) with (at0 l j). lra.
Qed.
Lemma zsum_upd l j x : (j < length l)%nat -> zsum (upd l j x) = (zsum l - at0 l j + x)%Z.
Proof.
  revert j. induction l as [|a l IH]; intros [|j] H; cbn [length] in H; try lia.
  - cbn. fold (zsum l). unfold at0. cbn. lia.
  - cbn [upd zsum fold_right]. fold (zsum (upd l j x)). fold (zsum l).
    rewrite IH by lia. change (at0 (a :: l) (S j)) with (at0 l j). lia.
Qed.

Definition add_use (c : Z) (l : list Z) (j : nat) : list Z := upd l j (at0 l j + c)%Z.
Lemma add_length c p : forall l, length (fold_left (add_use c) p l) = length l.
Proof. induction p as [|j p IH]; intro l; [easy|]. cbn [fold_left]. rewrite IH. apply upd_length. Qed.
Lemma add_at c p : forall l j, Forall (fun i => (i < length l)%nat) p ->
  at0 (fold_left (add_use c) p l) j = (at0 l j + c * occ p j)%Z.
Proof.
  induction p as [|i p IH]; intros l j Hp; [change (occ [] j) with 0%Z; cbn [fold_left]; lia|]. inversion_clear Hp as [|? ? Hi Hp'].
  cbn [fold_left]. rewrite IH by (unfold add_use; now rewrite upd_length). unfold add_use.
  rewrite at0_upd by easy. unfold occ. cbn [count_occ]. destruct (Nat.eq_dec i j) as [->|Hne].
  - rewrite Nat.eqb_refl. lia.
  - destruct (Nat.eqb_spec j i) as [->|]; [easy|lia].
Qed.
Lemma add_zsum c p : forall l, Forall (fun i => (i < length l)%nat) p ->
  zsum (fold_left (add_use c) p l) = (zsum l + Z.of_nat (length p) * c)%Z.
Proof.
  induction p as [|i p IH]; intros l Hp; [cbn [fold_left length Z.of_nat]; lia|]. inversion_clear Hp as [|? ? Hi Hp'].
  cbn [fold_left]. rewrite IH by (unfold add_use; now rewrite upd_length). unfold add_use.
  rewrite zsum_upd by easy. cbn [length]. lia.
Qed.

Lemma adds_grow fs c p : (1 <= c)%Z -> forall l, Forall (fun i => (i < length l)%nat) p ->
  (forall j, In j p -> (0 <= at0 fs j)%Z) ->
  (forall j, In j p -> exists k, (0 <= k)%Z /\ at0 l j = (at0 fs j + k * c)%Z) ->
  rsum (map (fun f => gg (f + c) - gg f) (map (at0 fs) p)) <=
  rsum (map gg (fold_left (add_use c) p l)) - rsum (map gg l).
Proof.
  intro Hc. induction p as [|i p IH]; intros l Hp Hn Hk;
    [change (0 <= rsum (map gg l) - rsum (map gg l)); lra|].
  change (rsum (map (fun f => gg (f + c) - gg f) (map (at0 fs) (i :: p)))) with
    (gg (at0 fs i + c) - gg (at0 fs i) + rsum (map (fun f => gg (f + c) - gg f) (map (at0 fs) p))).
  cbn [fold_left].
  inversion_clear Hp as [|? ? Hi Hp'].
  assert (H1 := IH (add_use c l i)).
  assert (Hl : length (add_use c l i) = length l) by apply upd_length.
  rewrite Hl in H1. specialize (H1 Hp' (fun j Hj => Hn j (or_intror Hj))).
  assert (Hk' : forall j, In j p -> exists k, (0 <= k)%Z /\ at0 (add_use c l i) j = (at0 fs j + k * c)%Z).
  { intros j Hj. destruct (Hk j (or_intror Hj)) as (k & Hk0 & E). unfold add_use. rewrite at0_upd by easy.
    destruct (Nat.eqb_spec j i) as [->|]; [exists (k + 1)%Z|exists k]; split; lia. }
  specialize (H1 Hk').
  assert (Eu : rsum (map gg (add_use c l i)) = rsum (map gg l) - gg (at0 l i) + gg (at0 l i + c)) by (now apply rsum_upd).
  rewrite Eu in H1.
  destruct (Hk i (or_introl eq_refl)) as (k & Hk0 & E). rewrite E in H1.
  pose proof (gg_steps (at0 fs i) c k (Hn i (or_introl eq_refl)) Hc Hk0) as H2. lra.
Qed.
Lemma adds_exact fs c p : forall l, Forall (fun i => (i < length l)%nat) p -> NoDup p ->
  (forall j, In j p -> at0 l j = at0 fs j) ->
  rsum (map gg (fold_left (add_use c) p l)) - rsum (map gg l) = rsum (map (fun f => gg (f + c) - gg f) (map (at0 fs) p)).
Proof.
  induction p as [|i p IH]; intros l Hp Hd Hk;
    [change (rsum (map gg l) - rsum (map gg l) = 0); lra|].
  change (rsum (map (fun f => gg (f + c) - gg f) (map (at0 fs) (i :: p)))) with
    (gg (at0 fs i + c) - gg (at0 fs i) + rsum (map (fun f => gg (f + c) - gg f) (map (at0 fs) p))).
  cbn [fold_left].
  inversion_clear Hp as [|? ? Hi Hp']. inversion_clear Hd as [|? ? Hni Hd'].
  rewrite <- (IH (add_use c l i)); [|unfold add_use; now rewrite upd_length|easy|].
  - assert (Eu : rsum (map gg (add_use c l i)) = rsum (map gg l) - gg (at0 l i) + gg (at0 l i + c)) by (now apply rsum_upd).
    rewrite Eu, (Hk i (or_introl eq_refl)). lra.
  - intros j Hj. unfold add_use. rewrite at0_upd by easy. destruct (Nat.eqb_spec j i) as [->|]; [easy|]. apply Hk. now right.
Qed.

Lemma at0_ext (l l' : list Z) : length l = length l' -> (forall j, at0 l j = at0 l' j) -> l = l'.
Proof.
  intros Hl H. apply (nth_ext l l' 0%Z 0%Z Hl). intros n _. apply H.
Qed.

Lemma cost_ideal base P c olds : (1 <= c)%Z -> Forall (fun f => 0 <= f)%Z olds ->
  removal_cost ideal base P c olds =
  gg c - IZR P * ln (IZR P) + IZR (P + (Z.of_nat (length olds) - 1) * c) * ln (IZR (P + (Z.of_nat (length olds) - 1) * c))
  - rsum (map (fun f => gg (f + c) - gg f) olds).
Proof.
  intros Hc Ho. unfold removal_cost, xlx. cbn [fsub fadd fmul flog fofZ ideal].
  assert (Hfold : forall l a, Forall (fun f => 0 <= f)%Z l ->
    fold_left (fun a f => a - (IZR (f + c) * ln (IZR (f + c)) - (if Z.ltb 0 f then IZR f * ln (IZR f) else 0))) l a =
    a - rsum (map (fun f => gg (f + c) - gg f) l)).
  { induction l as [|f l IH]; intros a Hl; cbn [fold_left map rsum fold_right]; [lra|]. inversion_clear Hl as [|? ? Hf Hl'].
    rewrite IH by easy. fold (rsum (map (fun f => gg (f + c) - gg f) l)). fold (gg f).
    assert (E : gg (f + c) = IZR (f + c) * ln (IZR (f + c))) by (unfold gg; destruct (Z.ltb_spec 0 (f + c)); [easy|lia]).
    rewrite E. lra. }
  etransitivity; [apply (f_equal (fun x => x - base)), (Hfold olds _ Ho)|].
  assert (E : gg c = IZR c * ln (IZR c)) by (unfold gg; destruct (Z.ltb_spec 0 c); [easy|lia]). rewrite E. lra.
Qed.

Lemma removal_exact fs fs' i p base : Forall (fun f => 0 <= f)%Z fs -> (1 <= at0 fs i)%Z ->
  p <> [] -> ~ In i p -> Forall (fun j => (j < length fs)%nat) p -> rewritten fs fs' i p ->
  let cost := removal_cost ideal base (zsum fs) (at0 fs i) (map (at0 fs) p) in
  total_code fs' - total_code fs <= cost /\ (NoDup p -> cost = total_code fs' - total_code fs).
Proof.
  intros Hf Hc Hp Hni Hb [Hl Hat] cost. set (c := at0 fs i) in *.
  assert (Hi : (i < length fs)%nat).
  { destruct (Nat.lt_ge_cases i (length fs)) as [|H]; [easy|]. unfold c in Hc. rewrite at0_beyond in Hc by easy. lia. }
  assert (Hnn : forall j, (0 <= at0 fs j)%Z) by (now apply (forall_at0 (fun f => (0 <= f)%Z)); [lia|]).
  set (l0 := upd fs i 0%Z).
  assert (Hl0 : length l0 = length fs) by apply upd_length.
  assert (E : fs' = fold_left (add_use c) p l0).
  { apply at0_ext; [now rewrite add_length, Hl0|]. intro j. rewrite add_at by (now rewrite Hl0). rewrite Hat.
    unfold l0. rewrite at0_upd by easy. destruct (Nat.eqb_spec j i) as [->|]; [|easy].
    unfold occ. rewrite (proj1 (count_occ_not_In Nat.eq_dec p i) Hni). cbn [Z.of_nat]. lia. }
  assert (Hf' : Forall (fun f => 0 <= f)%Z fs').
  { apply (forall_at0 (fun f => (0 <= f)%Z)); [lia|]. intro j. rewrite Hat. pose proof (Hnn j).
    destruct (Nat.eqb j i); [lia|]. unfold occ. nia. }
  assert (Hz : zsum fs' = (zsum fs + (Z.of_nat (length p) - 1) * c)%Z).
  { rewrite E, add_zsum by (now rewrite Hl0). unfold l0. rewrite zsum_upd by easy. fold c. lia. }
  assert (Hg0 : rsum (map gg l0) = rsum (map gg fs) - gg c).
  { unfold l0. rewrite rsum_upd by easy. fold c. change (gg 0) with 0. lra. }
  assert (Hol : Forall (fun f => 0 <= f)%Z (map (at0 fs) p)).
  { apply Forall_forall. intros x Hx. apply in_map_iff in Hx as (j & <- & _). apply Hnn. }
  assert (Hk0 : forall j, In j p -> at0 l0 j = at0 fs j).
  { intros j Hj. unfold l0. rewrite at0_upd by easy. destruct (Nat.eqb_spec j i) as [->|]; easy. }
  assert (Hcost : cost = gg c - IZR (zsum fs) * ln (IZR (zsum fs)) + IZR (zsum fs') * ln (IZR (zsum fs'))
                         - rsum (map (fun f => gg (f + c) - gg f) (map (at0 fs) p))).
  { unfold cost. rewrite cost_ideal by easy. rewrite map_length, Hz. easy. }
  rewrite (total_code_gg fs Hf), (total_code_gg fs' Hf'), Hcost. split.
  - assert (H := adds_grow fs c p Hc l0). rewrite Hl0 in H.
    specialize (H Hb (fun j _ => Hnn j)). rewrite E at 3.
    assert (Hk : forall j, In j p -> exists k, (0 <= k)%Z /\ at0 l0 j = (at0 fs j + k * c)%Z).
    { intros j Hj. exists 0%Z. split; [lia|]. rewrite (Hk0 j Hj). lia. }
    specialize (H Hk). lra.
  - intro Hd. assert (H := adds_exact fs c p l0). rewrite Hl0 in H. specialize (H Hb Hd Hk0).
    replace (rsum (map gg fs')) with (rsum (map gg (fold_left (add_use c) p l0))) by (now rewrite <- E). lra.
Qed.
