(** PropsGrowLemmas: C82. *)
From Coq Require Import Reals Lra.
From Verif Require Import Base Spec FloatOps FloatLaws FloatIEEE FloatIdeal FloatScore ModelDict Maps ModelStat SpecStat
  DictProofs StatProofs ExpandProofs RunProofs LearnProofs PropsStatLemmas SpecGrow GrowProofs.

Section S.
  Context (fl : fops) (L : flaws fl).
  Lemma expansion_selects ws mp init d0 st0 log d st e slots ws' fs' mp' :
    start_ok ws init -> NoDup ws -> symbol_closed ws -> mk_stat fl ws mp init = Ok (d0, st0) ->
    stat_run fl d0 st0 log d st -> inputs_ok (map fst log) -> fresh_ascending ws (concat (map fst log)) ->
    env_ok fl e -> draws_ok fl e -> (0 <= slots)%Z -> expand fl e d st slots = Ok (ws', fs', mp') ->
    exists olds news old_txts new_txts,
      Permutation olds (List.seq 0 (dsize d)) /\ ws' = old_txts ++ new_txts /\
      Forall2 (word_at (seqs d)) olds old_txts /\
      incl news (pairs st) /\ Forall2 (joined (seqs d)) news new_txts /\
      fs' = map (freq fl st) olds ++ map snd news /\
      mp' = least_share fl (pairs st) (minp st) news /\
      best_first fl (e_gamma e) (pairs st) news /\
      Forall (fun p => exists v, worth fl (e_gamma e) (pairs st) p = Some v /\ fltb fl v (fofZ fl 0) = false) news /\
      (forall p t, In p (pairs st) -> joined (seqs d) p t -> ~ In t ws' ->
         exists q v, In q (pairs st) /\ joined (seqs d) q t /\ worth fl (e_gamma e) (pairs st) q = Some v /\
           (fltb fl v (fofZ fl 0) = true \/
            Z.of_nat (length news) = slots /\
            forall r u, In r news -> worth fl (e_gamma e) (pairs st) r = Some u -> fltb fl u v = false)).
  Proof.
    intros Hw Hn Hc H Hr Hi Hf He Hdr Hs E.
    destruct (ordered_run fl L ws mp init d0 st0 log d st Hw Hn Hc H Hr Hi Hf) as (Hst & R & I).
    assert (Hsc : (symbols_consumed log <= 2 ^ 48)%Z) by (rewrite symbols_map; apply Hi).
    apply (expand_selects fl L e d st slots ws' fs' mp' He Hdr (fi_full _ _ _ _ _ I) (ri_ne _ _ _ _ _ _ R) (ri_len _ _ _ _ _ _ R)); try easy.
    apply (run_table fl d0 st0 log d st R). lia.
  Qed.
End S.

Local Open Scope R_scope.
Lemma ten_exact v : ten_times ideal v = 10 * v.
Proof. change (0 + v + v + v + v + v + v + v + v + v + v = 10 * v). lra. Qed.
Lemma ln_sign x : 0 < x -> (0 <= ln x <-> 1 <= x).
Proof.
  intro Hx. split; intro H.
  - destruct (Rle_or_lt 1 x) as [|Hlt]; [easy|]. pose proof (ln_increasing x 1 Hx Hlt). rewrite ln_1 in *. lra.
  - destruct H as [H| <-]; [|rewrite ln_1; lra]. pose proof (ln_increasing 1 x ltac:(lra) H). rewrite ln_1 in *. lra.
Qed.
Lemma worth_exact gamma ps f s c g1 g2 g3 g4 : (1 <= c)%Z ->
  gamma [IZR c + 1; IZR (starts ps f) - IZR c + 1; IZR (ends ps s) - IZR c + 1;
         IZR (all_pairs ps) - (IZR (starts ps f) - IZR c) - (IZR (ends ps s) - IZR c) - IZR c + 1] = [g1; g2; g3; g4] ->
  0 < g1 -> 0 < g2 -> 0 < g3 -> 0 < g4 ->
  let G := g1 + g2 + g3 + g4 in
  exists v, worth ideal gamma ps ((f, s), c) = Some v /\
    v = IZR c * (g1 / (g1 + g2)) * ln ((g1 / G) / (((g1 + g2) / G) * ((g1 + g3) / G))) /\
    (fltb ideal v (fofZ ideal 0) = false <-> g2 * g3 <= g1 * g4).
Proof.
  intros Hc Hg H1 H2 H3 H4 G. assert (HG : 0 < G) by (unfold G; lra).
  unfold worth, round_value. cbn [fst snd].
  cbn [ideal fadd fsub fofZ F] in *. rewrite Hg. cbn [fold_left option_map fadd fmul fdiv flog fofZ F ideal].
  eexists. split; [reflexivity|]. fold ideal. rewrite ten_exact.
  replace (0 + g1 + g2 + g3 + g4) with G by (unfold G; ring).
  assert (HcR : 1 <= IZR c) by (now apply IZR_le in Hc).
  assert (E : 10 * (IZR c * (g1 * (1 / G)) / (g2 * (1 / G) + g1 * (1 / G)) *
     ln (g1 * (1 / G) / (g2 * (1 / G) + g1 * (1 / G)) / (g3 * (1 / G) + g1 * (1 / G))) / 10) =
     IZR c * (g1 / (g1 + g2)) * ln (g1 / G / ((g1 + g2) / G * ((g1 + g3) / G)))).
  { replace (g1 * (1 / G) / (g2 * (1 / G) + g1 * (1 / G)) / (g3 * (1 / G) + g1 * (1 / G)))
      with (g1 / G / ((g1 + g2) / G * ((g1 + g3) / G))) by (field; lra).
    field. lra. }
  split; [exact E|]. rewrite E.
  set (x := g1 / G / ((g1 + g2) / G * ((g1 + g3) / G))).
  assert (Ex : x = g1 * G / ((g1 + g2) * (g1 + g3))) by (unfold x; field; lra).
  assert (Hd : 0 < (g1 + g2) * (g1 + g3)) by (apply Rmult_lt_0_compat; lra).
  assert (Hx : 0 < x) by (rewrite Ex; apply Rdiv_lt_0_compat; [apply Rmult_lt_0_compat; lra|easy]).
  assert (Hk : 0 < IZR c * (g1 / (g1 + g2))).
  { apply Rmult_lt_0_compat; [lra|]. apply Rdiv_lt_0_compat; lra. }
  assert (A : fltb ideal (IZR c * (g1 / (g1 + g2)) * ln x) 0 = false <-> 0 <= ln x).
  { cbn [fltb ideal]. destruct (Rlt_dec _ 0) as [Hl|Hl]; split; intro Hy; try easy.
    - exfalso. assert (0 <= IZR c * (g1 / (g1 + g2)) * ln x) by (apply Rmult_le_pos; lra). lra.
    - apply Rnot_lt_le in Hl. destruct (Rle_or_lt 0 (ln x)) as [|Hn]; [easy|].
      assert (IZR c * (g1 / (g1 + g2)) * ln x < 0) by (rewrite <- (Rmult_0_r (IZR c * (g1 / (g1 + g2)))); now apply Rmult_lt_compat_l).
      lra. }
  change (fltb ideal (IZR c * (g1 / (g1 + g2)) * ln x) 0 = false <-> g2 * g3 <= g1 * g4).
  rewrite A, (ln_sign x Hx), Ex. split; intro H.
  - apply (Rmult_le_compat_r ((g1 + g2) * (g1 + g3))) in H; [|lra].
    replace (g1 * G / ((g1 + g2) * (g1 + g3)) * ((g1 + g2) * (g1 + g3))) with (g1 * G) in H by (field; lra).
    unfold G in H. lra.
  - apply (Rmult_le_reg_r ((g1 + g2) * (g1 + g3))); [easy|].
    replace (g1 * G / ((g1 + g2) * (g1 + g3)) * ((g1 + g2) * (g1 + g3))) with (g1 * G) by (field; lra).
    unfold G. lra.
Qed.
