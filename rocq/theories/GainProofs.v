(** GainProofs: what reduce keeps. *)
From Verif Require Import Base Spec SpecWeight SpecEntropy FloatOps FloatLaws FloatIdeal ModelDict Maps ModelStat SpecStat
  OrderProofs DictProofs GreedyProofs DpProofs WeightedProofs ReachProofs StatProofs ExpandProofs ReduceProofs SpecGain IdealProofs.

Section Gain.
  Context (fl : fops) (L : flaws fl).

  Lemma counts_map d (st : sstat fl) : length (sfreqs st) = dsize d ->
    map (freq fl st) (List.seq 0 (dsize d)) = sfreqs st.
  Proof.
    intro Hl. rewrite <- Hl. unfold freq. generalize (sfreqs st) as l. clear.
    induction l as [|x l IH]; [easy|]. cbn [length List.seq map nth_error]. f_equal.
    rewrite <- seq_shift, map_map. exact IH.
  Qed.

  Definition excl (d : dict) (st : sstat fl) := filter (unused fl d st) (List.seq 0 (dsize d)).
  Lemma excl_parent d st i : In i (excl d st) -> nth_error (parents d) i <> Some None.
  Proof. intros Hi E. apply filter_In in Hi as [_ Hi]. unfold unused in Hi. now rewrite E in Hi. Qed.
  Lemma excl_not d (st : sstat fl) P C i w : good fl d st P C -> word_at (seqs d) i w ->
    (In i (excl d st) <-> 1 < length w /\ freq fl st i = 0%Z).
  Proof.
    intros G Hw. pose proof (full_wf _ (g_full _ _ _ _ _ G)) as [Hpl _].
    destruct (nth_lt (parents d) i) as [p Hp]; [rewrite Hpl; now apply nth_some_lt in Hw|].
    pose proof (root_iff d i w (g_full _ _ _ _ _ G) (g_ne _ _ _ _ _ G) (g_closed _ _ _ _ _ G) Hw) as Hr.
    assert (Hne : w <> []) by (apply (g_ne _ _ _ _ _ G); now apply nth_error_In in Hw).
    unfold excl. rewrite filter_In. unfold unused. rewrite Hp in *.
    assert (Hi : In i (List.seq 0 (dsize d))) by (apply in_seq; apply nth_some_lt in Hw; unfold dsize; lia).
    destruct p as [j|].
    - rewrite Z.eqb_eq. split; [intros [_ E]; split; [|easy]|intros [_ E]; now split].
      destruct w as [|a [|b w]]; [easy| |cbn; lia]. exfalso. assert (length [a] = 1) by easy. apply Hr in H. discriminate.
    - split; [now intros [_ E]|]. intros [Hl _]. assert (length w = 1) by (now apply Hr). lia.
  Qed.

  Lemma parse_without d (st : sstat fl) P C id w : good fl d st P C ->
    word_at (seqs d) id w -> 1 < length w ->
    exists p x, weighted_parse fl false true d w (sfreqs st) (power st) (Some (id :: excl d st)) = Ok (p, x, d) /\
      length p <= length w /\ Forall (fun i => i < dsize d) p /\
      reading_without fl (seqs d) (map (freq fl st) (List.seq 0 (dsize d))) P id w p.
  Proof.
    intros G Hw Hl. pose proof (g_bound _ _ _ _ _ G) as (B1 & B2 & B3).
    assert (Hin : In w (seqs d)) by (now apply nth_error_In in Hw).
    pose proof (g_full _ _ _ _ _ G) as Hfull. pose proof Hfull as [Hst Hlk].
    rewrite (counts_map d st (g_len _ _ _ _ _ G)).
    destruct (weighted_full fl L false true d w (sfreqs st) P (Some (id :: excl d st)) (fun v => length v < length w))
      as (p & Hp & Hsp & Hall & Hbest); try easy.
    - apply (g_ne _ _ _ _ _ G).
    - split.
      + pose proof (freq_le fl d st P C 0 G). lia.
      + apply (forall_at0 (fun f => (0 <= f < maxcount)%Z)); [unfold maxcount; lia|].
        intro j. rewrite <- freq_at0. pose proof (freq_le fl d st P C j G). unfold maxcount. lia.
    - now apply (g_words _ _ _ _ _ G).
    - unfold maxcount. lia.
    - intros c Hc. pose proof (g_closed _ _ _ _ _ G w Hin c Hc) as Hci. apply In_nth_error in Hci as [k Hk].
      exists k. split; [easy|].
      unfold allowed. apply negb_true_iff. destruct (existsb (Nat.eqb k) (id :: excl d st)) eqn:E; [|easy].
      apply existsb_exists in E as (x & Hx & E). apply Nat.eqb_eq in E. subst x. exfalso. destruct Hx as [<-|Hx].
      + unfold word_at in *. pose proof (eq_trans (eq_sym Hk) Hw) as E. injection E as <-. cbn in Hl. lia.
      + apply (excl_not d st P C k [c] G Hk) in Hx as [Hx _]. cbn in Hx. lia.
    - intros v u [r ->] H. rewrite app_length in H. lia.
    - intros pos i v Hpos (v' & Hv' & [r Hr] & Hal & _) Hv.
      assert (v' = v) by (unfold word_at in *; congruence). subst v'.
      assert (Hle : length (skipn pos w) = length w - pos) by apply skipn_length. rewrite Hr, app_length in Hle.
      destruct (Nat.eq_dec (length v) (length w)) as [E|]; [|lia]. exfalso.
      assert (pos = 0) by lia. subst pos. cbn [skipn] in Hr.
      assert (r = []) by (destruct r; [easy|cbn in Hle; lia]). subst r. rewrite app_nil_r in Hr. subst v.
      assert (i = id) by (now apply (strict_nth_inj (seqs d) i id w)). subst i.
      unfold allowed in Hal. cbn [existsb] in Hal. now rewrite Nat.eqb_refl in Hal.
    - assert (Hni : ~ In id p).
      { intro Hi. apply (proj1 (Forall_forall _ _) Hall) in Hi as (v & Hv & Hlt).
        assert (v = w) by (unfold word_at in *; congruence). subst v. lia. }
      rewrite (g_power _ _ _ _ _ G), Hp. exists p. eexists. split; [reflexivity|].
      split; [apply (spells_le (seqs d)); [apply (g_ne _ _ _ _ _ G)|easy]|].
      split; [now apply (spells_bound _ _ w)|]. split; [easy|]. split.
      { destruct Hsp as (vs & Hvs & Hcc). destruct p as [|a [|b p]]; [| |cbn; lia].
        - inversion Hvs; subst. cbn in Hl. lia.
        - exfalso. inversion Hvs as [|? v ? vs' Ha Hvs']; subst. inversion Hvs'; subst. cbn in Hall.
          rewrite app_nil_r in *. inversion_clear Hall as [|? ? (u & Hu & Hlt) _].
          assert (u = v) by (unfold word_at in *; congruence). subst u. lia. }
      split; [easy|]. intros q Hq Hnq Hqa. unfold dsize in Hbest. apply Hbest; [|easy].
      apply Forall_forall. intros j Hj. unfold allowed. apply negb_true_iff.
      destruct (existsb (Nat.eqb j) (id :: excl d st)) eqn:E; [|easy].
      apply existsb_exists in E as (x & Hx & E). apply Nat.eqb_eq in E. subst x. exfalso. destruct Hx as [<-|Hx]; [easy|].
      apply (proj1 (Forall_forall _ _) Hqa) in Hj.
      pose proof Hx as Hx1. apply filter_In in Hx1 as [Hx1 _]. apply in_seq in Hx1.
      destruct (nth_lt (seqs d) j) as [v Hv]; [unfold dsize in Hx1; lia|].
      apply (excl_not d st P C j v G Hv) in Hx as [Hx Hf]. rewrite freq_at0 in Hf.
      destruct Hj as [Hj|[c Hj]]; [lia|]. assert (v = [c]) by (unfold word_at in *; congruence). subst v. cbn in Hx. lia.
  Qed.

  (** The cost that the code computes for word [i]. *)
  Definition base_of (d : dict) (st : sstat fl) : F fl := fmul fl (code_length_per_char fl d st) (chars st).
  Definition cost_of (d : dict) (st : sstat fl) (P : Z) (i : nat) : F fl :=
    removal_cost fl (base_of d st) P (freq fl st i)
      (map (freq fl st)
        (match nth_error (seqs d) i with
         | Some w => match weighted_parse fl false true d w (sfreqs st) (power st) (Some (i :: excl d st)) with
                     | Ok (p, _, _) => p | _ => [] end
         | None => [] end)).
  Definition items_of (d : dict) (st : sstat fl) (P : Z) (i : nat) : list (item fl) :=
    match nth_error (seqs d) i with
    | Some w => if Nat.ltb 1 (length w)
                then (if fltb fl (fofZ fl 0) (cost_of d st P i) then [mkItem None i (cost_of d st P i) (freq fl st i)] else [])
                else [mkItem None i (fmax fl) (freq fl st i)]
    | None => []
    end.

  Lemma base_measured d (st : sstat fl) P C : good fl d st P C ->
    base_of d st = measured_length fl (map (freq fl st) (List.seq 0 (dsize d))) P C.
  Proof.
    intro G. unfold base_of, measured_length, code_length_per_char. rewrite (g_power _ _ _ _ _ G), (g_chars _ _ _ _ _ G).
    rewrite <- (fold_map (freq fl st) (fun a f => if Z.ltb 0 f then fsub fl a (xlx fl f) else a)). reflexivity.
  Qed.

  Lemma stat_item_cost d (st : sstat fl) P C id w : good fl d st P C -> word_at (seqs d) id w ->
    (1 < length w -> (1 <= freq fl st id)%Z) ->
    stat_item fl d st (excl d st) (base_of d st) id = Ok (items_of d st P id) /\
    (1 < length w -> exists p, reading_without fl (seqs d) (map (freq fl st) (List.seq 0 (dsize d))) P id w p /\
       cost_of d st P id = removal_cost fl (base_of d st) P (freq fl st id) (map (freq fl st) p)).
  Proof.
    intros G Hw Hu. pose proof (g_bound _ _ _ _ _ G) as (B1 & B2 & B3).
    unfold stat_item, items_of, get. rewrite (vget_some _ _ _ Hw). cbn [bind]. unfold word_at in Hw. rewrite Hw.
    destruct (Nat.ltb_spec 1 (length w)) as [Hl|Hl].
    - specialize (Hu Hl). destruct (parse_without d st P C id w G Hw Hl) as (p & x & Hp & Hpl & Hpb & Hread).
      assert (Hcost : cost_of d st P id = removal_cost fl (base_of d st) P (freq fl st id) (map (freq fl st) p)).
      { unfold cost_of. rewrite Hw, Hp. easy. }
      rewrite Hp. cbn [bind]. split; [|intros _; now exists p].
      rewrite Hcost. unfold removal_cost. rewrite map_length.
      pose proof (freq_len_le fl d st P C id w G Hw) as Hcl.
      assert (Hin : In w (seqs d)) by (now apply nth_error_In in Hw).
      pose proof (g_words _ _ _ _ _ G w Hin) as Hwl. destruct Hread as (_ & H2 & _).
      set (count := freq fl st id) in *. pose proof (freq_le fl d st P C id G) as Hc. fold count in Hc.
      set (k := ((Z.of_nat (length p) - 1) * count)%Z).
      assert (Hk : (0 <= k <= C)%Z) by (unfold k; nia).
      assert (Hmod : (((Z.of_nat (length p) - 1) mod 2 ^ 64 * count) mod 2 ^ 64 = k)%Z).
      { unfold maxlen in Hwl. rewrite (Z.mod_small (Z.of_nat (length p) - 1)) by lia. fold k. apply Z.mod_small. lia. }
      rewrite Hmod, (g_power _ _ _ _ _ G), (ofZ_add fl L) by (unfold maxcount; lia).
      rewrite <- (fold_map (freq fl st) (fun a f => fsub fl a (fsub fl (xlx fl (f + count)) (if Z.ltb 0 f then xlx fl f else fofZ fl 0)))).
      reflexivity.
    - split; [easy|lia].
  Qed.

  Lemma items_fold_exact d (st : sstat fl) P C : good fl d st P C -> forall l acc, Forall (fun i => i < dsize d) l ->
    items_fold fl d st (excl d st) (base_of d st) l acc =
    Ok (acc ++ flat_map (items_of d st P) (filter (fun i => negb (existsb (Nat.eqb i) (excl d st))) l)).
  Proof.
    intros G. induction l as [|id l IH]; intros acc Hl.
    - cbn. now rewrite app_nil_r.
    - inversion_clear Hl as [|? ? Hid Hl']. unfold items_fold. cbn [foldM filter].
      destruct (nth_lt (seqs d) id Hid) as [w Hw].
      destruct (existsb (Nat.eqb id) (excl d st)) eqn:E; cbn [negb].
      + cbn [bind]. now apply IH.
      + destruct (stat_item_cost d st P C id w G Hw) as [H _].
        { intro Hlw. pose proof (g_nonneg _ _ _ _ _ G id) as H0. destruct (Z.eq_dec (freq fl st id) 0) as [E0|]; [|lia].
          exfalso. assert (existsb (Nat.eqb id) (excl d st) = true); [|congruence].
          apply existsb_exists. exists id. split; [|apply Nat.eqb_refl]. now apply (excl_not d st P C id w G Hw). }
        rewrite H. cbn [bind flat_map]. rewrite app_assoc. now apply IH.
  Qed.

  Lemma sorted_before {A} (R : A -> A -> Prop) l : StronglySorted R l -> forall k x y,
    In x (firstn k l) -> In y (skipn k l) -> R x y.
  Proof.
    induction 1 as [|a l Hs IH Ha]; intros k x y Hx Hy; [now rewrite firstn_nil in Hx|].
    destruct k as [|k]; [easy|]. cbn [firstn skipn] in *. destruct Hx as [<-|Hx].
    - apply (proj1 (Forall_forall _ _) Ha). rewrite <- (firstn_skipn k l). apply in_app_iff. now right.
    - now apply (IH k).
  Qed.
  Lemma word_in_texts d (items : list (item fl)) txts i w : strictly_sorted (seqs d) ->
    Forall2 (word_at (seqs d)) (map second items) txts -> word_at (seqs d) i w -> In w txts ->
    exists it, In it items /\ second it = i.
  Proof.
    intros Hst Htx Hw Hin. destruct (forall2_incl _ _ _ Htx w Hin) as (j & Hj & Hjw).
    assert (i = j) by (now apply (strict_nth_inj (seqs d) i j w)). subst j.
    apply in_map_iff in Hj as (it & E & Hit). now exists it.
  Qed.
  Lemma text_of_item d (items : list (item fl)) txts it w :
    Forall2 (word_at (seqs d)) (map second items) txts -> In it items -> word_at (seqs d) (second it) w -> In w txts.
  Proof.
    revert txts. induction items as [|x items IH]; intros txts Htx Hit Hw; [easy|]. inversion Htx as [|? v ? vs Hv Hvs]; subst.
    destruct Hit as [->|Hit].
    - left. unfold word_at in *. congruence.
    - right. now apply (IH vs).
  Qed.

  Lemma roots_symbols d : full_dict d -> no_empty d -> closed d ->
    roots d (List.seq 0 (dsize d)) = Z.of_nat (symbol_words (seqs d)).
  Proof.
    intros Hf Hn Hc. pose proof (root_iff d) as Hr. specialize (fun i w => Hr i w Hf Hn Hc).
    pose proof (full_wf _ Hf) as [Hpl _]. unfold roots, symbol_words, dsize.
    assert (Hgen : forall l i0, (forall k w, nth_error l k = Some w -> word_at (seqs d) (i0 + k) w) ->
      zsum (map (fun i => match nth_error (parents d) i with Some None => 1 | _ => 0 end)%Z (List.seq i0 (length l))) =
      Z.of_nat (length (filter (fun w => Nat.eqb (length w) 1) l))).
    { induction l as [|w l IH]; intros i0 Hl; [easy|]. cbn [length List.seq map zsum fold_right filter].
      fold (zsum (map (fun i => match nth_error (parents d) i with Some None => 1 | _ => 0 end)%Z (List.seq (S i0) (length l)))).
      rewrite (IH (S i0)).
      2:{ intros k v Hk. replace (S i0 + k) with (i0 + S k) by lia. now apply Hl. }
      pose proof (Hl 0 w eq_refl) as Hw. rewrite Nat.add_0_r in Hw. specialize (Hr i0 w Hw).
      destruct (nth_lt (parents d) i0) as [p Hp]; [rewrite Hpl; now apply nth_some_lt in Hw|]. rewrite Hp in *.
      destruct (Nat.eqb_spec (length w) 1) as [E|E]; cbn [length].
      - apply Hr in E. injection E as ->. lia.
      - destruct p; [lia|]. exfalso. now apply E, Hr. }
    apply (Hgen (seqs d) 0). intros k w Hk. exact Hk.
  Qed.

  Lemma reduce_selects e d (st : sstat fl) P C slots ws fs mp : env_ok fl e -> good fl d st P C ->
    reduce fl e d st slots = Ok (ws, fs, mp) ->
    let counts := map (freq fl st) (List.seq 0 (dsize d)) in
    exists cost : nat -> F fl,
      (forall i w, word_at (seqs d) i w -> 1 < length w -> (1 <= freq fl st i)%Z ->
         exists p, reading_without fl (seqs d) counts P i w p /\
           cost i = removal_cost fl (measured_length fl counts P C) P (freq fl st i) (map (freq fl st) p)) /\
      (forall i w, word_at (seqs d) i w -> 1 < length w -> In w ws ->
         (1 <= freq fl st i)%Z /\ fltb fl (fofZ fl 0) (cost i) = true) /\
      (forall i w, word_at (seqs d) i w -> 1 < length w -> (1 <= freq fl st i)%Z ->
         fltb fl (fofZ fl 0) (cost i) = true -> ~ In w ws ->
         Z.of_nat (length ws) = (slots + Z.of_nat (symbol_words (seqs d)))%Z /\
         forall j v, word_at (seqs d) j v -> 1 < length v -> In v ws -> fltb fl (cost j) (cost i) = false).
  Proof.
    intros He G H counts. exists (cost_of d st P).
    assert (Hst : strictly_sorted (seqs d)) by apply (g_full _ _ _ _ _ G).
    pose proof (full_wf _ (g_full _ _ _ _ _ G)) as [Hpl _].
    assert (Hbnd : Forall (fun i => i < length (parents d)) (List.seq 0 (dsize d))).
    { apply Forall_forall. intros i Hi. apply in_seq in Hi. unfold dsize in Hi. lia. }
    assert (Hrd : forall i w, word_at (seqs d) i w -> 1 < length w -> (1 <= freq fl st i)%Z ->
      exists p, reading_without fl (seqs d) counts P i w p /\
        cost_of d st P i = removal_cost fl (measured_length fl counts P C) P (freq fl st i) (map (freq fl st) p)).
    { intros i w Hw Hl Hf. destruct (stat_item_cost d st P C i w G Hw (fun _ => Hf)) as [_ Hr].
      unfold counts. rewrite <- (base_measured d st P C G). now apply Hr. }
    unfold reduce in H. apply bind_ok in H as (items & Hi & H).
    apply reduce_out_sound in H as (txts & -> & -> & Htx). cbn [app].
    unfold filter_stat_items in Hi. apply bind_ok in Hi as (sl & Hsl & Hi). apply count_roots in Hsl. subst sl.
    rewrite (g_len _ _ _ _ _ G) in Hi.
    rewrite (roots_symbols d (g_full _ _ _ _ _ G) (g_ne _ _ _ _ _ G) (g_closed _ _ _ _ _ G)) in Hi.
    set (S := (slots + Z.of_nat (symbol_words (seqs d)))%Z) in *.
    rewrite (excl_spec fl d st _ [] Hbnd) in Hi. cbn [bind app] in Hi. fold (excl d st) in Hi.
    unfold stat_items in Hi. rewrite (g_len _ _ _ _ _ G) in Hi. fold (base_of d st) in Hi.
    assert (Hb2 : Forall (fun i => i < dsize d) (List.seq 0 (dsize d))).
    { apply Forall_forall. intros i Hii. apply in_seq in Hii. lia. }
    pose proof (items_fold_exact d st P C G (List.seq 0 (dsize d)) [] Hb2) as Hfold. unfold items_fold in Hfold.
    rewrite Hfold in Hi. cbn [bind app] in Hi. clear Hfold.
    set (new := flat_map (items_of d st P) _) in Hi.
    apply bind_ok in Hi as (all & Hall & Hi). injection Hi as Hi.
    pose proof Hall as Hp0. apply sort_items_perm in Hp0 as [Hperm Hnan]; [|easy].
    destruct (sort_items_ok fl e new He Hnan) as (Hs & _ & Hsorted). rewrite Hs in Hall. injection Hall as <-.
    set (all := e_sort e new) in *.
    (* the items *)
    assert (Hnew : forall it, In it new <-> exists i w, second it = i /\ word_at (seqs d) i w /\ ~ (1 < length w /\ freq fl st i = 0%Z) /\
              In it (items_of d st P i)).
    { intro it. unfold new. rewrite in_flat_map. split.
      - intros (i & Hii & Hit). apply filter_In in Hii as [Hsq Hex]. apply in_seq in Hsq.
        destruct (nth_lt (seqs d) i) as [w Hw]; [unfold dsize in Hsq; lia|]. exists i, w. split; [|split; [easy|split; [|easy]]].
        + unfold items_of in Hit. rewrite Hw in Hit. destruct (Nat.ltb 1 (length w)); [destruct (fltb fl _ _)|];
            try destruct Hit as [<-|[]]; easy.
        + intro Hbad. apply (excl_not d st P C i w G Hw) in Hbad. apply negb_true_iff in Hex.
          assert (existsb (Nat.eqb i) (excl d st) = true); [|congruence].
          apply existsb_exists. exists i. split; [easy|apply Nat.eqb_refl].
      - intros (i & w & E & Hw & Hnb & Hit). exists i. split; [|easy]. apply filter_In. split.
        + apply in_seq. apply nth_some_lt in Hw. unfold dsize. lia.
        + apply negb_true_iff. destruct (existsb (Nat.eqb i) (excl d st)) eqn:Ex; [|easy]. exfalso. apply Hnb.
          apply (excl_not d st P C i w G Hw). apply existsb_exists in Ex as (x & Hx & Ex). apply Nat.eqb_eq in Ex. now subst x. }
    assert (Hmem : forall it w, In it all -> word_at (seqs d) (second it) w -> 1 < length w ->
              (1 <= freq fl st (second it))%Z /\ fltb fl (fofZ fl 0) (cost_of d st P (second it)) = true /\ score it = cost_of d st P (second it)).
    { intros it w Hit Hw Hl. apply (Permutation_in it (Permutation_sym Hperm)) in Hit.
      apply Hnew in Hit as (i & w' & E & Hw' & Hnb & Hit). rewrite E in *.
      assert (w' = w) by (unfold word_at in *; congruence). subst w'.
      unfold items_of in Hit. rewrite Hw in Hit. destruct (Nat.ltb_spec 1 (length w)) as [_|]; [|lia].
      destruct (fltb fl (fofZ fl 0) (cost_of d st P i)) eqn:Ec; [|easy]. destruct Hit as [<-|[]]. split; [|split; easy].
      pose proof (g_nonneg _ _ _ _ _ G i) as H0. destruct (Z.eq_dec (freq fl st i) 0); [|lia]. now exfalso; apply Hnb. }
    assert (Hsub : forall it, In it items -> In it all).
    { intros it Hit. rewrite <- Hi in Hit. destruct (Z.ltb S 0); [easy|now apply firstn_in in Hit]. }
    split; [easy|]. split.
    - intros i w Hw Hl Hin. destruct (word_in_texts d items txts i w Hst Htx Hw Hin) as (it & Hit & <-).
      destruct (Hmem it w (Hsub it Hit) Hw Hl) as (H1 & H2 & _). now split.
    - intros i w Hw Hl Hf Hc Hout.
      assert (Hit : exists it, In it all /\ second it = i /\ score it = cost_of d st P i).
      { exists (mkItem None i (cost_of d st P i) (freq fl st i)). split; [|split; easy].
        apply (Permutation_in _ Hperm). apply Hnew. exists i, w. split; [easy|]. split; [easy|]. split; [lia|].
        unfold items_of. unfold word_at in Hw. rewrite Hw. destruct (Nat.ltb_spec 1 (length w)) as [_|]; [|lia]. rewrite Hc. now left. }
      destruct Hit as (it & Hit & Esec & Esc).
      assert (Hno : ~ In it items).
      { intro Hy. apply Hout. apply (text_of_item d items txts it w Htx Hy). now rewrite Esec. }
      rewrite <- Hi in Hno. destruct (Z.ltb_spec S 0) as [|HS]; [easy|].
      assert (Hsk : In it (skipn (Z.to_nat S) all)).
      { rewrite <- (firstn_skipn (Z.to_nat S) all) in Hit. apply in_app_iff in Hit as [Hit|Hit]; easy. }
      split.
      + assert (Hlt : length txts = length items).
        { rewrite <- (map_length second items). clear - Htx. induction Htx; cbn; lia. }
        rewrite Hlt, <- Hi, firstn_length.
        assert (length (skipn (Z.to_nat S) all) <> 0) by (destruct (skipn (Z.to_nat S) all); [easy|cbn; lia]).
        rewrite skipn_length in H. lia.
      + intros j v Hv Hlv Hinv. destruct (word_in_texts d items txts j v Hst Htx Hv Hinv) as (jt & Hjt & <-).
        destruct (Hmem jt v (Hsub jt Hjt) Hv Hlv) as (_ & _ & Esj).
        rewrite <- Hi in Hjt. pose proof (sorted_before _ _ Hsorted (Z.to_nat S) jt it Hjt Hsk) as Hle. cbn beta in Hle.
        rewrite (neg_lt fl L), Esj, Esc in Hle. exact Hle.
  Qed.
End Gain.
