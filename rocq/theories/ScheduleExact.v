(** ScheduleExact: the rate in exact arithmetic. *)
From Coq Require Import Reals Lra.
From Verif Require Import Base Spec SpecEntropy FloatOps FloatIdeal SpecStat SpecGain StatProofs IdealProofs SpecSchedule.
Local Open Scope R_scope.

(** The number of symbols of the words [ws] used [fs] times. *)
Definition symbols_used (ws : list seq) (fs : list Z) : Z := zsum (map (fun p => Z.of_nat (length (fst p)) * snd p)%Z (combine ws fs)).
Lemma used_fold (fs : list Z) : forall a : R,
  fold_left (fun (a : R) f => if Z.ltb 0 f then a - IZR f * ln (IZR f) / ln 2 else a) fs a =
  a - rsum (map (fun f => if Z.ltb 0 f then IZR f * ln (IZR f) else 0) fs) / ln 2.
Proof.
  induction fs as [|f fs IH]; intro a; cbn [fold_left map rsum fold_right]; [unfold Rdiv; lra|].
  rewrite IH. fold (rsum (map (fun f => if Z.ltb 0 f then IZR f * ln (IZR f) else 0) fs)).
  destruct (Z.ltb 0 f); unfold Rdiv; lra.
Qed.
Lemma symbols_fold (l : list (seq * Z)) : Forall (fun p => 0 <= Z.of_nat (length (fst p)) * snd p < 2 ^ 64)%Z l -> forall a : R,
  fold_left (fun (a : R) p => a + IZR ((Z.of_nat (length (fst p)) * snd p) mod 2 ^ 64)%Z) l a =
  a + IZR (zsum (map (fun p => Z.of_nat (length (fst p)) * snd p)%Z l)).
Proof.
  induction 1 as [|p l Hp _ IH]; intro a; cbn [fold_left map zsum fold_right]; [lra|].
  rewrite IH. fold (zsum (map (fun p => Z.of_nat (length (fst p)) * snd p)%Z l)). rewrite Z.mod_small by easy. rewrite plus_IZR. lra.
Qed.
Lemma rate_exact ws fs : Forall (fun f => 0 <= f)%Z fs -> Forall (fun p => Z.of_nat (length (fst p)) * snd p < 2 ^ 64)%Z (combine ws fs) ->
  rate ideal ws fs (IZR (zsum fs)) = total_code fs / ln 2 / 8 / IZR (symbols_used ws fs).
Proof.
  intros Hf Hs. unfold rate, bits, total_code, symbols_used. cbn [fadd fsub fmul fdiv flog fofZ ideal F].
  assert (Hs' : Forall (fun p => 0 <= Z.of_nat (length (fst p)) * snd p < 2 ^ 64)%Z (combine ws fs)).
  { rewrite Forall_forall in *. intros [w f] Hp. split; [|now apply Hs]. apply in_combine_r in Hp. apply Hf in Hp. cbn [fst snd]. nia. }
  rewrite (symbols_fold _ Hs'), (used_fold fs), (entropy_sum fs _ Hf). rewrite Rplus_0_l. unfold Rdiv. f_equal. f_equal. lra.
Qed.
