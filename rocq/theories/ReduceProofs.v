(** Proofs about reduce. *)
From Verif Require Import Base Spec SpecWeight FloatOps FloatLaws ModelDict Maps ModelStat SpecStat OrderProofs
  DictProofs GreedyProofs DpProofs WeightedProofs ReachProofs StatProofs ExpandProofs.

Section Reduce.
  Context (fl : fops) (L : flaws fl).

  (** One id gives at most one item. *)
  Lemma stat_item_sound d (st : sstat fl) ex base id l : stat_item fl d st ex base id = Ok l ->
    id < dsize d /\
    (l = [] \/ exists sc, l = [mkItem None id sc (freq fl st id)] /\ fnan fl sc = false) .
  Proof.
    unfold stat_item. intro H. apply bind_ok in H as (s & Hs & H). apply vget_ok in Hs.
    split; [now apply nth_some_lt in Hs|].
    destruct (Nat.ltb 1 (length s)).
    - apply bind_ok in H as ([[p x] d'] & _ & H).
      match type of H with Ok (if ?b then _ else _) = _ => destruct b eqn:E end; injection H as <-.
      + right. eexists. split; [reflexivity|]. now apply (lt_num fl L) in E.
      + now left.
    - injection H as <-. right. eexists. split; [reflexivity|]. apply (max_num fl L).
  Qed.

  Definition item_of (st : sstat fl) (it : item fl) : Prop :=
    first it = None /\ icount it = freq fl st (second it) /\ fnan fl (score it) = false.

  Definition items_fold d (st : sstat fl) ex base l acc :=
    foldM (fun acc id => if existsb (Nat.eqb id) ex then Ok acc
                         else (l <- stat_item fl d st ex base id ;; Ok (acc ++ l))) l acc.
  Lemma items_fold_sound d (st : sstat fl) ex base : forall l acc its,
    items_fold d st ex base l acc = Ok its ->
    exists new, its = acc ++ new /\ Forall (item_of st) new /\
      (forall x, In x (map second new) -> In x l /\ x < dsize d) /\
      (NoDup l -> NoDup (map second new)).
  Proof.
    induction l as [|id l IH]; intros acc its H; unfold items_fold in H; cbn [foldM] in H.
    - injection H as <-. exists []. rewrite app_nil_r. split; [easy|]. split; [constructor|].
      split; [easy|]. intros _. constructor.
    - apply bind_ok in H as (acc1 & H1 & H). apply IH in H as (new & -> & Hit & Hin & Hnd).
      destruct (existsb (Nat.eqb id) ex).
      + injection H1 as <-. exists new. split; [easy|]. split; [easy|]. split.
        * intros x Hx. destruct (Hin x Hx). split; [now right|easy].
        * intro H. inversion_clear H. now apply Hnd.
      + apply bind_ok in H1 as (li & Hli & H1). injection H1 as <-.
        destruct (stat_item_sound _ _ _ _ _ _ Hli) as [Hid [->|(sc & -> & Hsc)]].
        * exists new. rewrite app_nil_r. split; [easy|]. split; [easy|]. split.
          { intros x Hx. destruct (Hin x Hx). split; [now right|easy]. }
          { intro H. inversion_clear H. now apply Hnd. }
        * exists (mkItem None id sc (freq fl st id) :: new). rewrite <- app_assoc. split; [easy|].
          split; [now constructor|]. split.
          { cbn [map second]. intros x [<-|Hx]; [split; [now left|easy]|].
            destruct (Hin x Hx). split; [now right|easy]. }
          { intro H. inversion_clear H as [|? ? Hn Hnd']. cbn [map second]. constructor; [|now apply Hnd].
            intro Hx. apply Hin in Hx as [Hx _]. easy. }
  Qed.

  (** Root words among the first n. *)
  Definition roots (d : dict) (l : list nat) : Z :=
    zsum (map (fun i => match nth_error (parents d) i with Some None => 1 | _ => 0 end)%Z l).
  Lemma count_roots d : forall l acc r,
    foldM (fun acc s => p <- parent d s ;; Ok (match p with None => (acc + 1)%Z | Some _ => acc end)) l acc = Ok r ->
    r = (acc + roots d l)%Z.
  Proof.
    induction l as [|i l IH]; intros acc r H; cbn [foldM] in H.
    - injection H as <-. unfold roots. cbn. lia.
    - apply bind_ok in H as (a & Ha & H). apply bind_ok in Ha as (p & Hp & Ha). injection Ha as <-.
      apply vget_ok in Hp. apply IH in H as ->. unfold roots. cbn [map zsum fold_right]. rewrite Hp.
      destruct p; unfold zsum; lia.
  Qed.
  Lemma count_roots_total d : forall l acc, Forall (fun i => i < length (parents d)) l ->
    exists r, foldM (fun acc s => p <- parent d s ;; Ok (match p with None => (acc + 1)%Z | Some _ => acc end)) l acc = Ok r.
  Proof.
    induction l as [|i l IH]; intros acc H; [now eexists|]. inversion_clear H as [|? ? Hi Hl]. cbn [foldM].
    unfold parent at 1. destruct (nth_lt _ _ Hi) as [p Hp]. rewrite (vget_some _ _ _ Hp). cbn [bind]. now apply IH.
  Qed.

  (** The excluded ids: words with a parent that were never used. *)
  Definition unused (d : dict) (st : sstat fl) (id : nat) : bool :=
    match nth_error (parents d) id with Some (Some _) => Z.eqb (freq fl st id) 0 | _ => false end.
  Lemma excl_spec d (st : sstat fl) : forall l acc, Forall (fun i => i < length (parents d)) l ->
    foldM (fun acc id => p <- parent d id ;;
                   Ok (match p with
                       | Some _ => if Z.eqb (freq fl st id) 0 then acc ++ [id] else acc
                       | None => acc
                       end)) l acc = Ok (acc ++ filter (unused d st) l).
  Proof.
    induction l as [|i l IH]; intros acc H; [cbn; now rewrite app_nil_r|]. inversion_clear H as [|? ? Hi Hl].
    cbn [foldM filter]. unfold parent at 1. destruct (nth_lt _ _ Hi) as [p Hp]. rewrite (vget_some _ _ _ Hp). cbn [bind].
    unfold unused at 1. rewrite Hp. destruct p as [j|]; [|now apply IH].
    destruct (Z.eqb (freq fl st i) 0); rewrite IH by easy; [|easy]. now rewrite <- app_assoc.
  Qed.

  Lemma reduce_out_sound d pw : forall items mp ws fs ws' fs' mp',
    reduce_out fl d pw items mp ws fs = Ok (ws', fs', mp') ->
    exists txts, ws' = ws ++ txts /\ fs' = fs ++ map icount items /\
      Forall2 (word_at (seqs d)) (map second items) txts.
  Proof.
    induction items as [|it items IH]; intros mp ws fs ws' fs' mp' H; cbn [reduce_out] in H.
    - injection H as <- <- <-. exists []. rewrite !app_nil_r. split; [easy|]. split; [easy|constructor].
    - apply bind_ok in H as (p & _ & H). apply bind_ok in H as (w & Hw & H).
      apply IH in H as (txts & -> & -> & Htx). exists (w :: txts). rewrite <- !app_assoc. cbn.
      split; [easy|]. split; [easy|]. constructor; [|easy]. now apply vget_ok in Hw.
  Qed.
  Lemma reduce_out_total d pw : wf_dict d -> forall items mp ws fs,
    Forall (fun it => second it < dsize d) items -> exists r, reduce_out fl d pw items mp ws fs = Ok r.
  Proof.
    intros Hwf. induction items as [|it items IH]; intros mp ws fs H; cbn [reduce_out]; [now eexists|].
    inversion_clear H as [|? ? Hi Hl].
    destruct Hwf as [Hl2 _]. unfold parent, get.
    destruct (nth_lt (parents d) (second it)) as [p Hp]; [unfold dsize in Hi; lia|].
    destruct (nth_lt (seqs d) (second it)) as [w Hw]; [easy|].
    rewrite (vget_some _ _ _ Hp). cbn [bind]. rewrite (vget_some _ _ _ Hw). cbn [bind]. now apply IH.
  Qed.

  (** Any state: distinct words of the dictionary, within the slots. *)
  Lemma reduce_sound e d (st : sstat fl) slots ws fs mp :
    env_ok fl e -> reduce fl e d st slots = Ok (ws, fs, mp) ->
    exists ids, Forall2 (word_at (seqs d)) ids ws /\ NoDup ids /\ fs = map (freq fl st) ids /\
      Forall (fun i => i < length (sfreqs st)) ids /\
      ((0 <= slots + roots d (List.seq 0 (length (sfreqs st))))%Z ->
       (Z.of_nat (length ws) <= slots + roots d (List.seq 0 (length (sfreqs st))))%Z).
  Proof.
    intros He H. unfold reduce in H. apply bind_ok in H as (items & Hi & H).
    apply reduce_out_sound in H as (txts & -> & -> & Htx). cbn [app].
    unfold filter_stat_items in Hi. apply bind_ok in Hi as (sl & Hsl & Hi). apply count_roots in Hsl. subst sl.
    set (R := roots d (List.seq 0 (length (sfreqs st)))) in *.
    apply bind_ok in Hi as (ex & _ & Hi). apply bind_ok in Hi as (all & Hall & Hi). injection Hi as Hi.
    unfold stat_items in Hall. apply bind_ok in Hall as (its & Hits & Hs).
    apply items_fold_sound in Hits as (new & E & Hnew & Hin & Hnd). cbn [app] in E. subst its.
    apply sort_items_perm in Hs as [Hperm _]; [|easy].
    specialize (Hnd (seq_nodup _)).
    assert (Hsub : exists k, items = firstn k all).
    { destruct (Z.ltb (slots + R) 0); subst items; [exists (length all); now rewrite firstn_all|now eexists]. }
    destruct Hsub as (k & Hk).
    assert (Hof : Forall (item_of st) items).
    { apply Forall_forall. intros it Hit. rewrite Hk in Hit. apply firstn_in in Hit.
      apply (Permutation_in it (Permutation_sym Hperm)) in Hit. rewrite Forall_forall in Hnew. now apply Hnew. }
    exists (map second items). split; [easy|]. split.
    - rewrite Hk, <- firstn_map. apply NoDup_firstn.
      now apply (Permutation_NoDup (Permutation_map second Hperm)).
    - split; [|split].
      + rewrite map_map. apply map_ext_in. intros it Hit. rewrite Forall_forall in Hof.
        now apply Hof in Hit as (_ & -> & _).
      + apply Forall_forall. intros i Hi2. apply in_map_iff in Hi2 as (it & <- & Hit).
        rewrite Hk in Hit. apply firstn_in in Hit.
        apply (Permutation_in it (Permutation_sym Hperm)) in Hit.
        apply (in_map second) in Hit. apply Hin in Hit as [Hit _]. apply in_seq in Hit. lia.
      + intro H0. destruct (Z.ltb_spec (slots + R) 0); [lia|].
        assert (Hl : length txts = length items).
        { rewrite <- (map_length second items). clear - Htx. induction Htx; cbn; lia. }
        rewrite Hl, <- Hi, firstn_length. lia.
  Qed.
  Lemma word_at_nodup (ws : list seq) ids vs : NoDup ws -> Forall2 (word_at ws) ids vs -> NoDup ids -> NoDup vs.
  Proof.
    intros Hws H Hids. induction H as [|i v ids vs Hv Hvs IH]; [constructor|].
    inversion_clear Hids as [|? ? Hn Hnd]. constructor; [|now apply IH].
    intro Hin. apply Hn. destruct (forall2_incl _ _ _ Hvs v Hin) as (j & Hj & Hjv).
    assert (i = j); [|now subst]. apply (proj1 (NoDup_nth_error ws) Hws).
    - now apply nth_some_lt in Hv.
    - unfold word_at in *. congruence.
  Qed.

  (** Minimum probability. *)
  Lemma reduce_out_mp d pw : fcnt fl L pw -> (Z.of_nat (dsize d) <= maxcount)%Z ->
    forall items mp ws fs ws' fs' mp', Forall (fun it => (0 <= icount it < maxcount)%Z) items ->
    fnan fl mp = false -> reduce_out fl d pw items mp ws fs = Ok (ws', fs', mp') ->
    fnan fl mp' = false /\ fltb fl mp mp' = false.
  Proof.
    intros Hpw H2. induction items as [|it items IH]; intros mp ws fs ws' fs' mp' Hc Hn H; cbn [reduce_out] in H.
    - injection H as <- <- <-. split; [easy|apply (lt_irrefl fl L)].
    - inversion_clear Hc as [|? ? Hit Hc'].
      apply bind_ok in H as (p & _ & H). apply bind_ok in H as (w & Hw & H).
      assert (H1 : 1 <= dsize d) by (apply vget_ok, nth_some_lt in Hw; unfold dsize; lia).
      match type of H with context [match p with Some _ => ?x | None => _ end] =>
        set (m := match p with Some _ => x | None => mp end) in H end.
      assert (Hm : fnan fl m = false /\ fltb fl mp m = false).
      { unfold m. destruct p; [|split; [easy|apply (lt_irrefl fl L)]].
        split; [|apply (fmin_le fl L)]. apply (fmin_num fl L). apply (div_num fl L); [easy|easy|lia]. }
      apply IH in H as [H3 H4]; [|easy|easy]. split; [easy|].
      apply (le_trans fl L mp' m mp); easy.
  Qed.
  Lemma reduce_mp e d (st : sstat fl) slots ws fs mp :
    env_ok fl e -> fnan fl (minp st) = false -> (Z.of_nat (dsize d) <= maxcount)%Z ->
    (forall i, 0 <= freq fl st i < maxcount)%Z ->
    reduce fl e d st slots = Ok (ws, fs, mp) -> fnan fl mp = false /\ fltb fl (minp st) mp = false.
  Proof.
    intros He Hn H2 Hfr H. pose proof H as Hr. apply reduce_sound in Hr as (ids & Hids & _ & Hfs & _); [|easy].
    unfold reduce in H. apply bind_ok in H as (items & _ & H).
    pose proof H as Hro. apply reduce_out_sound in Hro as (txts & _ & Efs & _). cbn [app] in Efs.
    assert (Hc : Forall (fun it => (0 <= icount it < maxcount)%Z) items).
    { apply Forall_forall. intros it Hit. apply (in_map icount) in Hit. rewrite <- Efs, Hfs in Hit.
      apply in_map_iff in Hit as (i & <- & _). apply Hfr. }
    apply reduce_out_mp in H as [H3 H4]; try easy.
    - split; [easy|]. apply (le_trans fl L mp (fmin fl (fdiv fl (fofZ fl 1) (fofZ fl (Z.of_nat (dsize d)))) (minp st)) (minp st)); try easy.
      + apply (fmin_num fl L). apply (inv_num fl L). lia.
      + apply (fmin_le fl L).
    - unfold fsumZ. apply (fsumZ_cnt fl L).
      + apply (cnt_ofZ fl L). unfold maxcount. lia.
      + apply Forall_forall. intros f Hf. apply in_map_iff in Hf as (it & <- & Hit).
        rewrite Forall_forall in Hc. apply Hc in Hit. lia.
    - apply (fmin_num fl L). apply (inv_num fl L). lia.
  Qed.

  (** States reached by parsing with a dictionary in good order. *)
  Definition closed (d : dict) : Prop := forall w, In w (seqs d) -> covers (seqs d) w.
  Record good (d : dict) (st : sstat fl) (P C : Z) : Prop := {
    g_full : full_dict d;
    g_ne : no_empty d;
    g_closed : closed d;
    g_len : length (sfreqs st) = dsize d;
    g_nonneg : forall i, (0 <= freq fl st i)%Z;
    g_tot : total_freq fl d st = P;
    g_length : total_length fl d st = C;
    g_power : power st = fofZ fl P;
    g_chars : chars st = fofZ fl C;
    g_bound : (P <= 2 ^ 50 /\ C <= 2 ^ 50 /\ Z.of_nat (dsize d) <= 2 ^ 50)%Z;
    g_words : forall w, In w (seqs d) -> (Z.of_nat (length w) <= maxlen)%Z
  }.

  Lemma root_iff d i w : full_dict d -> no_empty d -> closed d -> word_at (seqs d) i w ->
    (nth_error (parents d) i = Some None <-> length w = 1).
  Proof.
    intros [Hs Hlk] Hne Hcl Hw. pose proof Hlk as [Hpl Hpar].
    destruct (nth_lt (parents d) i) as [p Hp]; [rewrite Hpl; now apply nth_some_lt in Hw|].
    pose proof (Hpar i p Hp w Hw) as Hok. rewrite Hp.
    assert (Hwne : w <> []) by (apply Hne; now apply nth_error_In in Hw).
    split.
    - intros [= ->]. destruct w as [|c [|c2 w]]; try easy. exfalso.
      assert (Hin : In [c] (seqs d)).
      { apply (Hcl (c :: c2 :: w)); [now apply nth_error_In in Hw|now left]. }
      apply In_nth_error in Hin as [k Hk].
      apply (Hok k [c]); [|easy|now exists (c2 :: w)].
      apply (strict_nth_inv (seqs d) k i [c] (c :: c2 :: w)); try easy.
      left. now exists c2, w.
    - intro Hl. destruct p as [j|]; [|easy]. exfalso. destruct Hok as (Hji & (v & Hv & Hpre) & _).
      assert (v = w).
      { apply (prefix_length_eq v w Hpre). rewrite Hl.
        assert (v <> []) by (apply Hne; now apply nth_error_In in Hv). destruct v; [easy|]. cbn. lia. }
      subst v. assert (j = i) by (now apply (strict_nth_inj (seqs d) j i w)). lia.
  Qed.

  Lemma freq_le d (st : sstat fl) P C i : good d st P C -> (0 <= freq fl st i <= P)%Z.
  Proof.
    intro G. split; [apply (g_nonneg _ _ _ _ G)|]. rewrite <- (g_tot _ _ _ _ G).
    change (total_freq fl d st) with (sumf (dsize d) (freq fl st)).
    destruct (Nat.lt_ge_cases i (dsize d)) as [H|H].
    - apply sumf_term; [|easy]. intros. apply (g_nonneg _ _ _ _ G).
    - rewrite freq_at0, at0_beyond by (rewrite (g_len _ _ _ _ G); easy).
      apply sumf_nonneg. intros. apply (g_nonneg _ _ _ _ G).
  Qed.
  Lemma freq_len_le d (st : sstat fl) P C i w : good d st P C -> word_at (seqs d) i w ->
    (freq fl st i * Z.of_nat (length w) <= C)%Z.
  Proof.
    intros G Hw. rewrite <- (g_length _ _ _ _ G).
    change (total_length fl d st) with
      (sumf (dsize d) (fun i => freq fl st i * Z.of_nat (length (nth i (seqs d) [])))%Z).
    replace (length w) with (length (nth i (seqs d) [])).
    - apply (sumf_term _ (fun i => freq fl st i * Z.of_nat (length (nth i (seqs d) [])))%Z).
      + intros j _. pose proof (g_nonneg _ _ _ _ G j). lia.
      + now apply nth_some_lt in Hw.
    - f_equal. now apply nth_error_nth.
  Qed.

  Lemma code_sum_mag d (st : sstat fl) P C l : good d st P C -> (P <= maxcount)%Z -> forall m a,
    (0 <= m)%Z -> (m + Z.of_nat (length l) <= maxcount)%Z -> fmag fl L m a ->
    fmag fl L (m + Z.of_nat (length l))
      (fold_left (fun a i => if Z.ltb 0 (freq fl st i) then fsub fl a (xlogx fl (freq fl st i)) else a) l a).
  Proof.
    intros G HP. induction l as [|i l IH]; intros m a Hm Hb Ha; cbn [fold_left].
    - cbn. now rewrite Z.add_0_r.
    - cbn [length] in *. replace (m + Z.of_nat (S (length l)))%Z with (m + 1 + Z.of_nat (length l))%Z by lia.
      apply IH; [lia|lia|]. destruct (Z.ltb_spec 0 (freq fl st i)).
      + apply (mag_sub fl L); [lia|lia|lia|easy|]. apply (mag_xlogx fl L).
        pose proof (freq_le d st P C i G). lia.
      + apply (mag_mono fl L m); [lia|easy].
  Qed.

  Lemma base_mag d (st : sstat fl) P C : good d st P C -> (1 <= P)%Z -> (1 <= C)%Z ->
    fmag fl L (2 * (Z.of_nat (dsize d) + 1) + 1) (fmul fl (code_length_per_char fl d st) (chars st)).
  Proof.
    intros G HP HC. pose proof (g_bound _ _ _ _ G) as (B1 & B2 & B3).
    unfold code_length_per_char. rewrite (g_chars _ _ _ _ G).
    apply (mag_divmul fl L); [lia|unfold maxcount; lia|unfold maxcount; lia|].
    apply (mag_add fl L); [lia|lia|unfold maxcount; lia| |].
    - pose proof (code_sum_mag d st P C (List.seq 0 (dsize d)) G ltac:(unfold maxcount; lia) 0 (fofZ fl 0)) as H.
      rewrite seq_length in H. apply H; [lia|unfold maxcount; lia|apply (mag_zero fl L)].
    - rewrite (g_power _ _ _ _ G). apply (mag_xlogx fl L). unfold maxcount. lia.
  Qed.

  (** The words of the parse of s without s itself. *)
  Lemma inner_parse d (st : sstat fl) P C id w ex : good d st P C ->
    word_at (seqs d) id w -> 1 < length w ->
    (forall i, In i ex -> nth_error (parents d) i <> Some None) ->
    exists p x, weighted_parse fl false true d w (sfreqs st) (power st) (Some (id :: ex)) = Ok (p, x, d) /\
      length p <= length w /\ 1 <= length p /\ Forall (fun i => i < dsize d) p.
  Proof.
    intros G Hw Hl Hex. pose proof (g_bound _ _ _ _ G) as (B1 & B2 & B3).
    assert (Hin : In w (seqs d)) by (now apply nth_error_In in Hw).
    destruct (weighted_full fl L false true d w (sfreqs st) P (Some (id :: ex)) (fun _ => True))
      as (p & Hp & Hsp & Hall & _); try easy.
    - apply (g_full _ _ _ _ G).
    - apply (g_ne _ _ _ _ G).
    - split.
      + pose proof (freq_le d st P C 0 G). lia.
      + apply (forall_at0 (fun f => (0 <= f < maxcount)%Z)); [unfold maxcount; lia|].
        intro j. rewrite <- freq_at0. pose proof (freq_le d st P C j G). unfold maxcount. lia.
    - now apply (g_words _ _ _ _ G).
    - unfold maxcount. lia.
    - intros c Hc. pose proof (g_closed _ _ _ _ G w Hin c Hc) as Hci. apply In_nth_error in Hci as [k Hk].
      exists k. split; [easy|].
      assert (Hroot : nth_error (parents d) k = Some None).
      { apply (root_iff d k [c]); try apply G; easy. }
      unfold allowed. apply negb_true_iff. destruct (existsb (Nat.eqb k) (id :: ex)) eqn:E; [|easy].
      apply existsb_exists in E as (x & Hx & E). apply Nat.eqb_eq in E. subst x. destruct Hx as [<-|Hx].
      + exfalso. unfold word_at in *. pose proof (eq_trans (eq_sym Hk) Hw) as E. injection E as <-. cbn in Hl. lia.
      + exfalso. now apply (Hex k Hx).
    - rewrite (g_power _ _ _ _ G), Hp. eexists. eexists. split; [reflexivity|].
      split; [apply (spells_le (seqs d)); [apply (g_ne _ _ _ _ G)|easy]|]. split.
      + destruct p as [|a p]; [|cbn; lia]. destruct Hsp as (vs & Hvs & Hcc). inversion Hvs; subst. cbn in Hl. lia.
      + now apply (spells_bound _ _ w).
  Qed.

  Lemma stat_item_good d (st : sstat fl) P C id w ex : good d st P C ->
    word_at (seqs d) id w ->
    (forall i, In i ex -> nth_error (parents d) i <> Some None) ->
    (1 < length w -> (1 <= freq fl st id)%Z) ->
    exists l, stat_item fl d st ex (fmul fl (code_length_per_char fl d st) (chars st)) id = Ok l /\
      Forall (fun it => second it = id /\
        if Nat.eqb (length w) 1 then score it = fmax fl else fltb fl (score it) (fmax fl) = true) l /\
      (length w = 1 -> l <> []).
  Proof.
    intros G Hw Hex Hused. pose proof (g_bound _ _ _ _ G) as (B1 & B2 & B3).
    unfold stat_item. unfold get. rewrite (vget_some _ _ _ Hw). cbn [bind].
    assert (Hin : In w (seqs d)) by (now apply nth_error_In in Hw).
    destruct (Nat.ltb_spec 1 (length w)) as [Hl|Hl].
    - specialize (Hused Hl).
      destruct (inner_parse d st P C id w ex G Hw Hl Hex) as (p & x & Hp & Hpl & Hp1 & Hpb).
      rewrite Hp. cbn [bind].
      set (base := fmul fl (code_length_per_char fl d st) (chars st)).
      set (count := freq fl st id) in *.
      pose proof (freq_le d st P C id G) as Hc. fold count in Hc.
      pose proof (freq_len_le d st P C id w G Hw) as Hcl. fold count in Hcl.
      pose proof (g_words _ _ _ _ G w Hin) as Hwl.
      assert (HC1 : (1 <= C)%Z) by nia.
      pose proof (base_mag d st P C G ltac:(lia) HC1) as Hb. fold base in Hb.
      set (n := Z.of_nat (dsize d)) in *.
      set (k := ((Z.of_nat (length p) - 1) * count)%Z).
      assert (Hk : (0 <= k <= C)%Z) by (unfold k; nia).
      assert (Hmod : (((Z.of_nat (length p) - 1) mod 2 ^ 64 * count) mod 2 ^ 64 = k)%Z).
      { unfold maxlen in Hwl. rewrite (Z.mod_small (Z.of_nat (length p) - 1)) by lia. fold k. apply Z.mod_small. lia. }
      rewrite Hmod. rewrite (g_power _ _ _ _ G).
      rewrite (ofZ_add fl L) by (unfold maxcount; lia).
      set (c0 := fadd fl (fsub fl (fadd fl base (xlogx fl count)) _) _).
      assert (Hc0 : fmag fl L (2 * (n + 1) + 1 + 1 + 1 + 1) c0).
      { unfold c0. apply (mag_add fl L); [lia|lia|unfold maxcount; lia| |apply (mag_xlogx fl L); unfold maxcount; lia].
        apply (mag_sub fl L); [lia|lia|unfold maxcount; lia| |apply (mag_xlogx fl L); unfold maxcount; lia].
        apply (mag_add fl L); [lia|lia|unfold maxcount; lia|easy|apply (mag_xlogx fl L); unfold maxcount; lia]. }
      match goal with |- context [fold_left ?f p c0] => set (g := f) end.
      assert (Hfold : forall q a m, (0 <= m)%Z -> (m + 2 * Z.of_nat (length q) <= maxcount)%Z -> fmag fl L m a ->
                fmag fl L (m + 2 * Z.of_nat (length q)) (fold_left g q a)).
      { induction q as [|i q IHq]; intros a m Hm Hmb Ha; cbn [fold_left].
        - cbn. now rewrite Z.add_0_r.
        - cbn [length] in *. replace (m + 2 * Z.of_nat (S (length q)))%Z with (m + (1 + 1) + 2 * Z.of_nat (length q))%Z by lia.
          apply IHq; [lia|lia|]. unfold g. pose proof (freq_le d st P C i G) as Hi.
          apply (mag_sub fl L); [lia|lia|lia|easy|].
          apply (mag_sub fl L); [lia|lia|unfold maxcount; lia| |].
          + apply (mag_xlogx fl L). unfold maxcount. lia.
          + destruct (Z.ltb_spec 0 (freq fl st i)).
            * apply (mag_xlogx fl L). unfold maxcount. lia.
            * apply (mag_mono fl L 0); [lia|apply (mag_zero fl L)]. }
      assert (Hsc : fmag fl L (2 * (n + 1) + 1 + 1 + 1 + 1 + 2 * Z.of_nat (length p) + (2 * (n + 1) + 1))
                (fsub fl (fold_left g p c0) base)).
      { unfold maxlen in Hwl. apply (mag_sub fl L); [lia|lia|unfold maxcount; lia| |easy].
        apply Hfold; [lia|unfold maxcount; lia|easy]. }
      apply (mag_num fl L) in Hsc as [Hn1 Hn2]; [|unfold maxlen in Hwl; unfold maxcount; lia].
      eexists. split; [reflexivity|]. split; [|lia].
      destruct (fltb fl (fofZ fl 0) _); [|constructor]. constructor; [|constructor]. cbn. split; [easy|].
      destruct (Nat.eqb_spec (length w) 1); [lia|easy].
    - eexists. split; [reflexivity|]. split; [|easy]. constructor; [|constructor]. cbn. split; [easy|].
      assert (w <> []) by (now apply (g_ne _ _ _ _ G)).
      destruct (Nat.eqb_spec (length w) 1); [easy|]. destruct w; [easy|]. cbn in *. lia.
  Qed.

  Lemma items_fold_good d (st : sstat fl) P C ex : good d st P C ->
    (forall i, In i ex -> nth_error (parents d) i <> Some None) ->
    (forall i w, word_at (seqs d) i w -> 1 < length w -> ~ In i ex -> (1 <= freq fl st i)%Z) ->
    forall l acc, Forall (fun i => i < dsize d) l ->
    exists new, items_fold d st ex (fmul fl (code_length_per_char fl d st) (chars st)) l acc = Ok (acc ++ new) /\
      Forall (fun it => exists w, word_at (seqs d) (second it) w /\
        if Nat.eqb (length w) 1 then score it = fmax fl else fltb fl (score it) (fmax fl) = true) new /\
      (forall i w, In i l -> word_at (seqs d) i w -> length w = 1 -> In i (map second new)).
  Proof.
    intros G Hex Hused. induction l as [|id l IH]; intros acc Hl.
    - exists []. rewrite app_nil_r. split; [easy|]. split; [constructor|easy].
    - inversion_clear Hl as [|? ? Hid Hl']. unfold items_fold. cbn [foldM].
      destruct (nth_lt (seqs d) id Hid) as [w Hw].
      destruct (existsb (Nat.eqb id) ex) eqn:E.
      + cbn [bind]. destruct (IH acc Hl') as (new & H1 & H2 & H3). exists new. split; [easy|]. split; [easy|].
        intros i v [<-|Hi] Hv Hv1; [|now apply (H3 i v)].
        exfalso. apply existsb_exists in E as (x & Hx & E). apply Nat.eqb_eq in E. subst x.
        apply (Hex id Hx). apply (root_iff d id v); try apply G; easy.
      + assert (Hn : ~ In id ex).
        { intro Hin. assert (existsb (Nat.eqb id) ex = true); [|congruence].
          apply existsb_exists. exists id. split; [easy|apply Nat.eqb_refl]. }
        destruct (stat_item_good d st P C id w ex G Hw Hex (fun H => Hused id w Hw H Hn)) as (li & H0 & Hli & Hne).
        rewrite H0. cbn [bind]. destruct (IH (acc ++ li) Hl') as (new & H1 & H2 & H3).
        exists (li ++ new). rewrite app_assoc. split; [easy|]. split.
        * apply Forall_app. split; [|easy]. eapply Forall_impl; [|exact Hli]. intros it [<- H]. now exists w.
        * intros i v Hi Hv Hv1. rewrite map_app. apply in_app_iff. destruct Hi as [<-|Hi]; [|right; now apply (H3 i v)].
          left. assert (v = w) by (unfold word_at in *; congruence). subst v. specialize (Hne Hv1).
          destruct li as [|it li]; [easy|]. pose proof (Forall_inv Hli) as [H _]. now left.
  Qed.

  Lemma reduce_full e d (st : sstat fl) P C slots : env_ok fl e -> good d st P C ->
    exists ws fs mp, reduce fl e d st slots = Ok (ws, fs, mp) /\
      ((0 <= slots)%Z -> forall c, In [c] (seqs d) -> In [c] ws).
  Proof.
    intros He G. pose proof (full_wf _ (g_full _ _ _ _ G)) as Hwf. pose proof Hwf as [Hpl _].
    unfold reduce, filter_stat_items.
    assert (Hbnd : Forall (fun i => i < length (parents d)) (List.seq 0 (dsize d))).
    { apply Forall_forall. intros i Hi. apply in_seq in Hi. unfold dsize in Hi. lia. }
    rewrite (g_len _ _ _ _ G).
    destruct (count_roots_total d (List.seq 0 (dsize d)) slots Hbnd) as (sl & Hsl).
    rewrite Hsl. cbn [bind]. apply count_roots in Hsl. subst sl.
    rewrite (excl_spec d st _ [] Hbnd). cbn [bind app].
    set (ex := filter (unused d st) (List.seq 0 (dsize d))).
    assert (Hex : forall i, In i ex -> nth_error (parents d) i <> Some None).
    { intros i Hi. apply filter_In in Hi as [_ Hi]. unfold unused in Hi. intro E. now rewrite E in Hi. }
    assert (Hused : forall i w, word_at (seqs d) i w -> 1 < length w -> ~ In i ex -> (1 <= freq fl st i)%Z).
    { intros i w Hw Hl Hn. pose proof (g_nonneg _ _ _ _ G i) as H0.
      destruct (Z.eq_dec (freq fl st i) 0) as [E|]; [|lia]. exfalso. apply Hn. apply filter_In. split.
      - apply in_seq. apply nth_some_lt in Hw. unfold dsize. lia.
      - unfold unused. destruct (nth_lt (parents d) i) as [p Hp]; [apply nth_some_lt in Hw; lia|]. rewrite Hp.
        destruct p; [now apply Z.eqb_eq|]. apply (root_iff d i w) in Hp; try apply G; [lia|easy]. }
    unfold stat_items. rewrite (g_len _ _ _ _ G).
    destruct (items_fold_good d st P C ex G Hex Hused (List.seq 0 (dsize d)) []) as (new & Hf & Hcls & Hone).
    { apply Forall_forall. intros i Hi. apply in_seq in Hi. lia. }
    pose proof (items_fold_sound _ _ _ _ _ _ _ Hf) as (new' & E & Hof & Hin & Hnd). cbn [app] in E, Hf. subst new'.
    specialize (Hnd (seq_nodup _)).
    unfold items_fold in Hf. rewrite Hf. cbn [bind].
    assert (Hnan : Forall (fun it => fnan fl (score it) = false) new).
    { eapply Forall_impl; [|exact Hof]. now intros it (_ & _ & H). }
    destruct (sort_items_ok fl e _ He Hnan) as (Hs & Hperm & Hsorted).
    rewrite Hs. cbn [bind]. set (all := e_sort e new) in *.
    set (slots' := (slots + roots d (List.seq 0 (dsize d)))%Z).
    set (items := if Z.ltb slots' 0 then all else firstn (Z.to_nat slots') all).
    assert (Hib : Forall (fun it => second it < dsize d) all).
    { apply (Permutation_Forall Hperm). apply Forall_forall. intros it Hit. apply (in_map second) in Hit.
      now apply Hin in Hit. }
    assert (Hib2 : Forall (fun it => second it < dsize d) items).
    { unfold items. destruct (Z.ltb slots' 0); [easy|]. apply Forall_forall. intros it Hit.
      apply firstn_in in Hit. rewrite Forall_forall in Hib. now apply Hib. }
    destruct (reduce_out_total d (fsumZ fl (map icount items)) Hwf items
                (fmin fl (fdiv fl (fofZ fl 1) (fofZ fl (Z.of_nat (dsize d)))) (minp st)) [] [] Hib2)
      as ([[ws fs] mp] & Hout).
    exists ws, fs, mp. split; [easy|]. intros Hslots c Hc.
    apply reduce_out_sound in Hout as (txts & -> & _ & Htx). cbn [app].
    apply In_nth_error in Hc as [i Hi]. change (word_at (seqs d) i [c]) in Hi. unfold word_at in Hi.
    pose (W := fun it : item fl => match nth_error (seqs d) (second it) with Some w => Nat.eqb (length w) 1 | None => false end).
    assert (HW : Forall (fun it => if W it then score it = fmax fl else fltb fl (score it) (fmax fl) = true) all).
    { apply (Permutation_Forall Hperm). eapply Forall_impl; [|exact Hcls]. intros it (w & Hw & H).
      unfold W. rewrite Hw. easy. }
    pose proof (sorted_split fl L W all Hsorted HW) as Hsplit.
    (* one-symbol items are at most as many as roots *)
    assert (Hroots : (Z.of_nat (length (filter W all)) <= roots d (List.seq 0 (dsize d)))%Z).
    { assert (Hrl : forall l, roots d l = Z.of_nat (length (filter (fun i => match nth_error (parents d) i with Some None => true | _ => false end) l))).
      { clear. unfold roots. induction l as [|i l IH]; [easy|]. cbn [map zsum fold_right filter]. fold (zsum (map (fun i => match nth_error (parents d) i with Some None => 1 | _ => 0 end)%Z l)).
        rewrite IH. destruct (nth_error (parents d) i) as [[k|]|]; cbn [length]; lia. }
      rewrite Hrl. apply inj_le. rewrite <- (map_length second (filter W all)).
      apply NoDup_incl_length.
      - assert (Hnd2 : NoDup (map second all)) by (now apply (Permutation_NoDup (Permutation_map second Hperm))).
        clear - Hnd2. induction all as [|it all IH]; [constructor|]. cbn [map] in Hnd2. inversion_clear Hnd2 as [|? ? Hn Hd].
        cbn [filter]. destruct (W it); [|now apply IH]. cbn [map]. constructor; [|now apply IH].
        intro H. apply Hn. apply in_map_iff in H as (x & <- & Hx). apply filter_In in Hx as [Hx _]. now apply in_map.
      - intros k Hk. apply in_map_iff in Hk as (it & <- & Hit). apply filter_In in Hit as [Hit HWit].
        unfold W in HWit. destruct (nth_error (seqs d) (second it)) as [w|] eqn:Ew; [|easy].
        apply Nat.eqb_eq in HWit. apply filter_In. split.
        + apply in_seq. rewrite Forall_forall in Hib. apply Hib in Hit. lia.
        + rewrite (proj2 (root_iff d (second it) w (g_full _ _ _ _ G) (g_ne _ _ _ _ G) (g_closed _ _ _ _ G) Ew) HWit). easy. }
    (* the item of [c] survives the cut *)
    assert (Hit : exists it, In it items /\ second it = i).
    { assert (Hic : In i (map second new)).
      { apply (Hone i [c]); [|easy|easy]. apply in_seq. split; [lia|]. now apply nth_some_lt in Hi. }
      apply in_map_iff in Hic as (it & Hsi & Hit). exists it. split; [|easy].
      apply (Permutation_in it Hperm) in Hit. unfold items. destruct (Z.ltb slots' 0); [easy|].
      rewrite Hsplit. rewrite firstn_app. apply in_app_iff. left.
      rewrite firstn_all2; [|unfold slots'; lia].
      apply filter_In. split; [easy|]. unfold W. rewrite Hsi, Hi. easy. }
    destruct Hit as (it & Hit & Hsi). apply (in_map second) in Hit. rewrite Hsi in Hit.
    clear - Htx Hit Hi. induction Htx as [|j v ids vs Hv _ IH]; [easy|]. destruct Hit as [->|Hit].
    - left. unfold word_at in Hv. congruence.
    - right. now apply IH.
  Qed.
End Reduce.
