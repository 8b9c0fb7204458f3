(** Proofs for C84 in exact arithmetic. *)
From Coq Require Import Reals Lra Psatz.
From Verif Require Import Base Spec SpecEntropy FloatOps FloatIdeal ModelStat SpecStat SpecBuilder StatProofs VGramProofs IdealProofs TotalProofs SpecMeasure.
Local Open Scope R_scope.

Lemma per_symbol_exact fs C : Forall (fun f => 0 <= f)%Z fs -> per_symbol ideal fs (zsum fs) C = entropy_per_char fs (zsum fs) C.
Proof.
  intro Hf. unfold per_symbol, entropy_per_char. cbn [fsub fmul fdiv fadd flog fofZ ideal].
  rewrite (code_fold fs), (entropy_sum fs _ Hf). unfold Rdiv. f_equal. lra.
Qed.

Lemma rsum_le {A} (f g : A -> R) l : Forall (fun x => f x <= g x) l -> rsum (map f l) <= rsum (map g l).
Proof. induction 1; cbn [map rsum fold_right]; [lra|]. fold (rsum (map f l)) (rsum (map g l)). lra. Qed.
Lemma rsum_linear l a : rsum (map (fun f => a - IZR f) l) = INR (length l) * a - IZR (zsum l).
Proof.
  induction l as [|x l IH]; [cbn; lra|]. cbn [map rsum fold_right zsum]. fold (rsum (map (fun f => a - IZR f) l)) (zsum l).
  rewrite IH. change (length (x :: l)) with (S (length l)). rewrite S_INR, plus_IZR. lra.
Qed.
Lemma ln_below x : 0 < x -> ln x <= x - 1.
Proof. intro Hx. pose proof (exp_ineq1_le (ln x)) as H. rewrite exp_ln in H by exact Hx. lra. Qed.

(** The code length of P words out of n different ones is at most P ln n. *)
Lemma gibbs fs : Forall (fun f => 0 <= f)%Z fs -> (0 < zsum fs)%Z ->
  rsum (map (fun f => if Z.ltb 0 f then IZR f * (ln (IZR (zsum fs)) - ln (IZR f)) else 0) fs) <= IZR (zsum fs) * ln (INR (length fs)).
Proof.
  intros Hf HP. set (P := zsum fs) in *. set (n := INR (length fs)).
  assert (Hl : (0 < length fs)%nat) by (destruct fs; [unfold P in HP; cbn in HP; lia|cbn; lia]).
  assert (Hn : 0 < n) by (unfold n; now apply lt_0_INR).
  assert (HPr : 0 < IZR P) by (now apply IZR_lt).
  rewrite (entropy_sum fs (ln (IZR P)) Hf).
  assert (E : rsum (map (fun f => if Z.ltb 0 f then IZR f * (ln (IZR P) - ln n - ln (IZR f)) else 0) fs) <=
              rsum (map (fun f => IZR P / n - IZR f) fs)).
  { apply rsum_le. eapply Forall_impl; [|exact Hf]. cbn beta. intros f H0. destruct (Z.ltb_spec 0 f) as [H|H].
    - assert (Hfr : 0 < IZR f) by (now apply IZR_lt).
      assert (Hx : 0 < IZR P / (n * IZR f)) by (apply Rdiv_lt_0_compat; [easy|now apply Rmult_lt_0_compat]).
      pose proof (ln_below _ Hx) as Hlb. unfold Rdiv in Hlb at 1. rewrite ln_mult, ln_Rinv, ln_mult in Hlb; try easy.
      2: now apply Rmult_lt_0_compat. 2: apply Rinv_0_lt_compat; now apply Rmult_lt_0_compat.
      replace (IZR P / n - IZR f) with (IZR f * (IZR P / (n * IZR f) - 1)) by (field; lra).
      apply Rmult_le_compat_l; lra.
    - replace f with 0%Z by lia. assert (0 < IZR P / n) by (now apply Rdiv_lt_0_compat). lra. }
  rewrite (entropy_sum fs (ln (IZR P) - ln n) Hf), rsum_linear in E. fold P in E. fold n in E.
  replace (n * (IZR P / n) - IZR P) with 0 in E by (field; lra). fold P. lra.
Qed.

Lemma entropy_most fs C : Forall (fun f => 0 <= f)%Z fs -> (0 < zsum fs <= C)%Z -> entropy_per_char fs (zsum fs) C <= ln (INR (length fs)).
Proof.
  intros Hf HC. unfold entropy_per_char. pose proof (gibbs fs Hf ltac:(lia)) as G.
  assert (Hl : (0 < length fs)%nat) by (destruct fs; [cbn in HC; lia|cbn; lia]).
  assert (Hn : 0 <= ln (INR (length fs))).
  { rewrite <- ln_1. destruct (Nat.eq_dec (length fs) 1) as [->|H1]; [cbn; lra|]. left. apply ln_increasing; [lra|]. apply lt_1_INR. lia. }
  assert (HCr : 0 < IZR C) by (apply IZR_lt; lia).
  apply (Rmult_le_reg_r (IZR C)); [easy|]. unfold Rdiv. rewrite Rmult_assoc, Rinv_l, Rmult_1_r by lra.
  assert (IZR (zsum fs) <= IZR C) by (apply IZR_le; lia). nra.
Qed.

Lemma sum_nonneg l : Forall (fun f => 0 <= f)%Z l -> (0 <= zsum l)%Z.
Proof. induction 1; [cbn; lia|]. rewrite zsum_cons. lia. Qed.
Lemma uses_nonneg n log : Forall (fun f => 0 <= f)%Z (uses n log).
Proof.
  apply Forall_forall. intros x Hx. apply in_map_iff in Hx as (j & <- & _). unfold log_occ. apply sum_nonneg.
  apply Forall_forall. intros x Hx. apply in_map_iff in Hx as (e & <- & _). unfold occ. lia.
Qed.
Lemma occ_all n ids : Forall (fun i => (i < n)%nat) ids -> sumf n (occ ids) = Z.of_nat (length ids).
Proof.
  induction 1 as [|i ids Hi H IH]; [now apply sumf_zero|].
  assert (E : forall m, (sumf m (occ (i :: ids)) = sumf m (occ ids) + if Nat.ltb i m then 1 else 0)%Z).
  { induction m as [|m IHm]; [reflexivity|]. rewrite !sumf_S, IHm. unfold occ at 2. cbn [count_occ]. fold (occ ids m).
    destruct (Nat.eq_dec i m) as [->|Hn].
    - rewrite Nat.ltb_irrefl. replace (Nat.ltb m (S m)) with true by (symmetry; apply Nat.ltb_lt; lia). unfold occ at 3. lia.
    - destruct (Nat.ltb_spec i m), (Nat.ltb_spec i (S m)); unfold occ at 3; lia. }
  rewrite E, IH. replace (Nat.ltb i n) with true by (symmetry; now apply Nat.ltb_lt). cbn [length]. lia.
Qed.
Lemma uses_sum ws log : Forall (fun e => spells ws (snd e) (fst e)) log -> zsum (uses (length ws) log) = words_emitted log.
Proof.
  unfold uses. fold (sumf (length ws) (log_occ log)). induction 1 as [|e log He H IH]; [now apply sumf_zero|].
  assert (E : forall n, (sumf n (log_occ (e :: log)) = sumf n (occ (snd e)) + sumf n (log_occ log))%Z).
  { clear IH. induction n as [|n IHn]; [reflexivity|]. rewrite !sumf_S, IHn. unfold log_occ at 2. cbn [map]. rewrite zsum_cons. fold (log_occ log n). lia. }
  rewrite E, IH. unfold words_emitted. cbn [map]. rewrite zsum_cons, occ_all; [reflexivity|].
  destruct He as (vs & He & _). clear - He. induction He as [|i w ids vs Hw _ IHe]; constructor; [|exact IHe].
  apply nth_error_Some. unfold word_at in Hw. congruence.
Qed.

Lemma reading_exact w xs ws log : readings w xs ws log -> ~ In [] ws -> Exists (fun s : seq => s <> []) (in_window w xs) ->
  let x := per_symbol ideal (uses (length ws) log) (words_emitted log) (symbols_consumed log) in
  x = entropy_per_char (uses (length ws) log) (words_emitted log) (symbols_consumed log) /\ 0 <= x <= ln (INR (length ws)).
Proof.
  intros [Hw Hs] Hn Hx. rewrite <- Hw in Hx. clear Hw. cbn zeta.
  pose proof (uses_sum ws log Hs) as E. pose proof (uses_nonneg (length ws) log) as Hu. pose proof (words_symbols ws log Hs Hn) as Hle.
  assert (Hp : (0 < words_emitted log)%Z).
  { clear - Hs Hx. unfold words_emitted. induction Hs as [|e log He Hs IH]; [inversion Hx|]. cbn [map]. rewrite zsum_cons. cbn [map] in Hx.
    assert (0 <= zsum (map (fun e : seq * list nat => Z.of_nat (length (snd e))) log))%Z.
    { apply sum_nonneg. apply Forall_forall. intros x Hi. apply in_map_iff in Hi as (? & <- & _). lia. }
    inversion_clear Hx as [? ? Hh|? ? Ht]; [|specialize (IH Ht); lia].
    destruct He as (vs & He & Ev). destruct (snd e) as [|i ids]; [|cbn [length]; lia]. inversion He; subst. now destruct Hh. }
  rewrite <- E in *. rewrite (per_symbol_exact _ _ Hu). split; [reflexivity|]. split; [apply entropy_nonneg; [exact Hu|lia]|].
  replace (length ws) with (length (uses (length ws) log)) at 3 by (unfold uses; rewrite map_length; apply seq_length).
  apply entropy_most; [exact Hu|lia].
Qed.
