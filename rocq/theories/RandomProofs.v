(** The literal next_dirichlet computes the sample of ModelStat, whatever the output buffer held. *)
From Verif Require Import Base FloatOps Maps ModelStat ModelRandom StatProofs.

Section R.
  Context (fl : fops) (g : rng fl).

  Lemma vset_mid {A} (a : list A) x y b : vset (a ++ x :: b) (length a) y = Ok (a ++ y :: b).
  Proof.
    unfold vset. rewrite app_length. cbn [length]. destruct (Nat.ltb_spec (length a) (length a + S (length b))); [|lia].
    f_equal. clear. induction a; cbn; [easy|]. now f_equal.
  Qed.
  Lemma vget_mid {A} (a : list A) x b : vget (a ++ x :: b) (length a) = Ok x.
  Proof. unfold vget. rewrite nth_error_app2, Nat.sub_diag by lia. reflexivity. Qed.

  Lemma draws_length : forall ps s, length (draws_from fl g ps s) = length ps.
  Proof. induction ps; intro s; cbn; [easy|]. destruct (rng_gamma g a s). cbn. now f_equal. Qed.

  Lemma draw_loop_ok : forall ps done out total s, length ps = length out ->
    draw_loop fl g ps (length done) (done ++ out) total s =
    Ok (done ++ draws_from fl g ps s, fold_left (fadd fl) (draws_from fl g ps s) total).
  Proof.
    induction ps as [|p ps IH]; intros done [|o out] total s H; try discriminate H; cbn [draw_loop draws_from].
    - reflexivity.
    - destruct (rng_gamma g p s) as [x s']. rewrite vset_mid. cbn [bind].
      specialize (IH (done ++ [x]) out (fadd fl total x) s' ltac:(now injection H)).
      rewrite app_length, Nat.add_1_r, <- !app_assoc in IH. cbn [app length] in IH. rewrite IH. reflexivity.
  Qed.
  Lemma scale_loop_ok inv : forall out done,
    scale_loop fl (length out) (length done) inv (done ++ out) = Ok (done ++ map (fun x => fmul fl x inv) out).
  Proof.
    induction out as [|x out IH]; intro done; cbn [length scale_loop map]; [easy|].
    rewrite vget_mid. cbn [bind]. rewrite vset_mid. cbn [bind].
    specialize (IH (done ++ [fmul fl x inv])). rewrite app_length, Nat.add_1_r, <- !app_assoc in IH. cbn [app length] in IH.
    exact IH.
  Qed.

  Lemma dirichlet_code ps out (e : env fl) : length out = length ps -> (forall l, e_gamma e l = fresh_draws fl g l) ->
    next_dirichlet_code fl g ps out = Ok (next_dirichlet fl e ps).
  Proof.
    intros H He. unfold next_dirichlet_code, next_dirichlet. rewrite He.
    pose proof (draw_loop_ok ps [] out (fofZ fl 0) (rng_default g) ltac:(easy)) as E. cbn [app length] in E. rewrite E.
    cbn [bind]. rewrite <- (draws_length ps (rng_default g)). exact (scale_loop_ok _ _ []).
  Qed.
  Lemma dirichlet_again ps out out' : length out = length ps -> length out' = length ps ->
    exists r, next_dirichlet_code fl g ps out = Ok r /\ next_dirichlet_code fl g ps out' = Ok r.
  Proof.
    intros H H'. pose (e := {| e_pairs := fun l => l; e_sort := fun l => l; e_gamma := fresh_draws fl g |} : env fl).
    exists (next_dirichlet fl e ps). split; now apply dirichlet_code.
  Qed.
End R.
