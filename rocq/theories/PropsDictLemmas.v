(** Lemmas in the exact form of PropsDict. *)
From Verif Require Import Base Spec SpecWeight SpecHistory FloatOps FloatLaws FloatIEEE FloatExample
  ModelDict OrderProofs DictProofs GreedyProofs DpProofs WeightedProofs ReachProofs.

Lemma build_exact ws : exists d,
  mk_dict ws = Ok d /\ Permutation (seqs d) ws /\ sorted (seqs d) /\
  dsize d = length ws /\ length (parents d) = length ws /\
  (NoDup ws -> strictly_sorted (seqs d)) /\
  (forall ws' d', Permutation ws ws' -> mk_dict ws' = Ok d' -> seqs d' = seqs d).
Proof.
  destruct (mk_dict_spec ws) as (d & H & Hs & [Hl _]). exists d. split; [easy|].
  rewrite Hs in *. split; [apply isort_perm|]. split; [apply isort_sorted|].
  unfold dsize. rewrite Hs, Hl, isort_length. split; [easy|]. split; [easy|].
  split; [apply isort_strict|].
  intros ws' d' Hp H'. destruct (mk_dict_spec ws') as (d2 & H2 & Hs2 & _).
  rewrite H' in H2. injection H2 as ->. rewrite Hs2.
  apply sorted_perm_unique; try apply isort_sorted.
  apply (Permutation_trans (isort_perm ws')). apply (Permutation_trans (Permutation_sym Hp)).
  apply Permutation_sym, isort_perm.
Qed.

Lemma build_symbols syms : exists d,
  mk_dict_symbols syms = Ok d /\ Permutation (seqs d) (map (fun c => [c]) syms) /\ sorted (seqs d).
Proof.
  destruct (build_exact (map (fun c => [c]) syms)) as (d & H & Hp & Hs & _). now exists d.
Qed.

Lemma get_word_at d i w : get d i = Ok w <-> word_at (seqs d) i w.
Proof. apply vget_ok. Qed.

Lemma parent_longest ws d i w :
  NoDup ws -> mk_dict ws = Ok d -> word_at (seqs d) i w ->
  exists p, parent d i = Ok p /\
  match p with
  | Some j => exists v, word_at (seqs d) j v /\ prefix v w /\ v <> w /\
      forall k u, word_at (seqs d) k u -> prefix u w -> u <> w -> length u <= length v
  | None => forall k u, word_at (seqs d) k u -> prefix u w -> u = w
  end.
Proof.
  intros Hn H Hw. destruct (mk_dict_history_full ws d Hn H) as [[Hsrt [Hl Hp]] _].
  destruct (nth_lt (parents d) i) as [p Hpi]. { rewrite Hl. now apply nth_some_lt in Hw. }
  exists p. split; [now apply vget_some|]. pose proof (Hp i p Hpi w Hw) as Hok.
  assert (Hbelow : forall k u, word_at (seqs d) k u -> prefix u w -> u <> w -> k < i).
  { intros k u Hu Hpre Hne. destruct (lt_dec k i) as [|Hge]; [easy|]. exfalso.
    destruct (Nat.eq_dec k i) as [->|Hki].
    - unfold word_at in *. congruence.
    - pose proof (strict_nth _ i k w u Hsrt Hw Hu ltac:(lia)) as Hlt.
      apply (lex_lt_irrefl w). apply (lex_lt_le_trans w u w); [easy|]. now apply prefix_le. }
  destruct p as [j|].
  - destruct Hok as (Hj & (v & Hv & Hvw) & Hmax). exists v. split; [easy|]. split; [easy|]. split.
    + intros ->. assert (j = i) by (now apply (strict_nth_inj (seqs d) j i w)). lia.
    + intros k u Hu Hpre Hne. pose proof (Hbelow k u Hu Hpre Hne) as Hk.
      assert (k <= j).
      { destruct (le_lt_dec k j) as [|Hgt]; [easy|]. exfalso. now apply (Hmax k u). }
      apply prefix_length. apply (prefix_comparable_le u v w); try easy.
      apply (sorted_nth (seqs d) k j u v); try easy. now apply strict_sorted.
  - intros k u Hu Hpre. destruct (seq_eqb u w) eqn:E; [now apply seq_eqb_spec|]. exfalso.
    assert (Hne : u <> w) by (intros ->; now rewrite seq_eqb_refl in E).
    apply (Hok k u); try easy. now apply (Hbelow k u).
Qed.

Lemma on_chain_anc d i k : on_chain d i k -> exists j, nth_error (parents d) i = Some (Some j) /\ anc d j k.
Proof.
  induction 1 as [i j H|i j k H _ (j' & H1 & H2)]; apply vget_ok in H.
  - exists j. split; [easy|constructor].
  - exists j. split; [easy|]. now apply (anc_step d j j').
Qed.
Lemma anc_on_chain d i k : anc d i k -> i = k \/ on_chain d i k.
Proof.
  induction 1 as [i|i j k H _ [->|IH]]; [now left| |]; right.
  - constructor. now apply vget_some.
  - apply (chain_more d i j k); [now apply vget_some|easy].
Qed.

Lemma chain_prefixes ws d i k v w :
  NoDup ws -> mk_dict ws = Ok d -> word_at (seqs d) i w -> word_at (seqs d) k v ->
  (on_chain d i k <-> prefix v w /\ v <> w).
Proof.
  intros Hn H Hw Hv. destruct (mk_dict_history_full ws d Hn H) as [Hf _].
  pose proof (full_wf d Hf) as Hwf. split.
  - intro Hc. apply on_chain_anc in Hc as (j & Hj & Ha).
    destruct Hwf as [Hl Hp]. destruct (Hp i j Hj) as (Hji & u & w' & Hu & Hw' & Huw).
    unfold word_at in Hw. rewrite Hw in Hw'. injection Hw' as <-.
    destruct (anc_prefix d j k u (full_wf d Hf) Ha Hu) as (v' & Hv' & Hvu).
    unfold word_at in Hv, Hv'. rewrite Hv in Hv'. injection Hv' as <-.
    split; [now apply (prefix_trans v u w)|]. intros ->.
    pose proof (anc_le d j k (full_wf d Hf) Ha).
    assert (i = k) by (apply (strict_nth_inj (seqs d) i k w); try easy; apply Hf). lia.
  - intros [Hp Hne]. pose proof (full_anc d Hf i k v w Hw Hv Hp) as Ha.
    apply anc_on_chain in Ha as [->|Ha]; [|easy]. exfalso. apply Hne.
    unfold word_at in *. congruence.
Qed.

Lemma build_safe ws k e :
  mk_dict ws <> UB k /\ mk_dict ws <> Throw e /\ mk_dict ws <> NoTerm.
Proof. destruct (mk_dict_spec ws) as (d & -> & _). easy. Qed.

Lemma allowed_spec l k : allowed (Some l) k = true <-> ~ In k l.
Proof.
  simpl. rewrite negb_true_iff. split.
  - intros H Hin. assert (existsb (Nat.eqb k) l = true).
    { apply existsb_exists. exists k. split; [easy|apply Nat.eqb_refl]. } congruence.
  - intro H. destruct (existsb (Nat.eqb k) l) eqn:E; [|easy]. exfalso. apply H.
    apply existsb_exists in E as (x & Hx & Hk). apply Nat.eqb_eq in Hk. now subst.
Qed.

Lemma longest_prefix_iff ws P Q q i : (forall k, P k <-> Q k) ->
  longest_prefix ws P q i -> longest_prefix ws Q q i.
Proof.
  intros H (w & Hw & Hp & Hok & Hm). exists w. split; [easy|]. split; [easy|]. split; [now apply H|].
  intros j v Hv Hpv Hj. apply (Hm j v); try easy. now apply H.
Qed.
Lemma no_prefix_iff ws (P Q : nat -> Prop) q : (forall k, P k <-> Q k) ->
  no_prefix ws P q -> no_prefix ws Q q.
Proof. intros H Hn j v Hv Hp Hj. apply (Hn j v); try easy. now apply H. Qed.
Lemma greedy_iff ws (P Q : nat -> Prop) s ids : (forall k, P k <-> Q k) ->
  greedy ws P s ids -> greedy ws Q s ids.
Proof.
  intros H. induction 1 as [|i w r ids Hw Hl _ IH|c r ids Hn _ IH].
  - constructor.
  - constructor; try easy. now apply (longest_prefix_iff ws P Q).
  - apply greedy_skip; try easy. now apply (no_prefix_iff ws P Q).
Qed.

Lemma search_excludes ws d q l :
  NoDup ws -> mk_dict ws = Ok d ->
  exists r, search d q (Some l) = Ok (r, d) /\
  match r with
  | Some i => longest_prefix (seqs d) (fun k => ~ In k l) q i
  | None => no_prefix (seqs d) (fun k => ~ In k l) q
  end.
Proof.
  intros Hn H. destruct (mk_dict_history_full ws d Hn H) as [Hf _].
  assert (Hn0 : Some l = None -> q <> []) by easy.
  pose proof (search_full d q (Some l) Hf Hn0) as Hs.
  destruct (search d q (Some l)) as [[[i|] d1]| | |]; try contradiction.
  - destruct Hs as [[-> Hl]|(Hx & _)]; [|easy]. exists (Some i). split; [easy|].
    apply (longest_prefix_iff _ (fun k => allowed (Some l) k = true)); [|easy].
    intro k. apply allowed_spec.
  - destruct Hs as (-> & _ & Hs). exists None. split; [easy|].
    apply (no_prefix_iff _ (fun k => allowed (Some l) k = true)); [|easy].
    intro k. apply allowed_spec.
Qed.

Lemma search_total ws d c q :
  NoDup ws -> mk_dict ws = Ok d ->
  (exists i, search d (c :: q) None = Ok (Some i, d) /\
     longest_prefix (seqs d) (fun _ => True) (c :: q) i) \/
  (no_prefix (seqs d) (fun _ => True) (c :: q) /\
   search d (c :: q) None =
     Ok (Some (dsize d), mkDict (seqs d ++ [[c]]) (parents d ++ [None]))).
Proof.
  intros Hn H. destruct (mk_dict_history_full ws d Hn H) as [Hf _].
  assert (Hn0 : @None (list nat) = None -> c :: q <> []) by easy.
  pose proof (search_full d (c :: q) None Hf Hn0) as Hs.
  destruct (search d (c :: q) None) as [[[i|] d1]| | |]; try contradiction.
  - destruct Hs as [[-> Hl]|(_ & Hno & -> & c' & q' & [= <- <-] & ->)].
    + left. exists i. split; [easy|]. now apply (longest_prefix_iff _ (fun k => allowed None k = true)).
    + now right.
  - now destruct Hs as (_ & Hx & _).
Qed.

Lemma search_stable ws d q ex r d' i w :
  history ws d -> search d q ex = Ok (r, d') -> word_at (seqs d) i w -> word_at (seqs d') i w.
Proof.
  intros Hh Hs Hw. destruct (history_wf ws d Hh) as [Hwf _].
  destruct (search_ok_wf _ _ _ _ _ Hwf Hs) as [_ He]. now apply (ext_word_at (seqs d)).
Qed.

Lemma search_safe ws d c q ex :
  history ws d ->
  exists r d', search d (c :: q) ex = Ok (r, d') /\
    (ex = None -> r <> None) /\
    forall i, r = Some i -> exists w, word_at (seqs d') i w /\ prefix w (c :: q) /\
      forall l, ex = Some l -> ~ In i l.
Proof.
  intro Hh. destruct (history_wf ws d Hh) as [Hwf _].
  destruct (search_wf d (c :: q) ex Hwf) as (r & d' & H & _ & _ & _ & Hr & _ & Hi); [easy|].
  exists r, d'. split; [easy|]. split; [easy|]. intros i Hri.
  destruct (Hi i Hri) as (w & Hw & Hp & Hal). exists w. split; [easy|]. split; [easy|].
  intros l ->. now apply allowed_spec.
Qed.

Lemma search_empty_query ws d : history ws d -> ~ In [] ws ->
  search d [] None = UB OobRead /\ forall l, search d [] (Some l) = Ok (None, d).
Proof.
  intros Hh Hn. pose proof (history_no_empty ws d Hh Hn) as Hne.
  destruct (lower_bound_spec (seqs d) []) as (i & E & _ & Hp & _).
  assert (i = 0). { destruct i as [|i]; [easy|]. destruct (Hp i eq_refl) as (w & _ & Hw). now destruct w. }
  subst i. unfold search. rewrite E. cbn [bind].
  destruct (Nat.ltb_spec 0 (dsize d)) as [Hlt|Hge].
  - destruct (nth_lt (seqs d) 0 Hlt) as [w Hw]. unfold get. rewrite (vget_some _ _ _ Hw). cbn [bind].
    assert (Hwn : w <> []) by (apply Hne; now apply nth_error_In in Hw).
    destruct w as [|a w]; [easy|]. cbn. easy.
  - cbn. easy.
Qed.

Lemma history_unsorted : exists d, history [[5]; [5; 6]]%Z d /\
  seqs d = [[5]; [5; 6]; [9]; [3]; [3]]%Z.
Proof.
  eexists. split.
  - eapply (h_greedy _ _ 3 [9; 3; 3]%Z [] None).
    + apply h_new. reflexivity.
    + reflexivity.
  - reflexivity.
Qed.

Lemma word_finds_itself ws d i w ex :
  NoDup ws -> mk_dict ws = Ok d -> word_at (seqs d) i w -> w <> [] ->
  (forall l, ex = Some l -> ~ In i l) ->
  search d w ex = Ok (Some i, d).
Proof.
  intros Hn H Hw Hne Hex. destruct (mk_dict_history_full ws d Hn H) as [Hf _].
  apply search_self; try easy; [now left|]. destruct ex as [l|]; [|easy].
  apply allowed_spec. now apply Hex.
Qed.

Lemma learned_index_refuted : exists ws d d1 d2 c i j,
  mk_dict ws = Ok d /\ search d [c] None = Ok (Some i, d1) /\
  search d1 [c] None = Ok (Some j, d2) /\ i <> j /\ dsize d2 = S (dsize d1).
Proof.
  exists [[5%Z]]. do 3 eexists. exists 3%Z, 1, 2.
  split; [reflexivity|]. split; [reflexivity|]. split; [reflexivity|]. split; [easy|reflexivity].
Qed.

Lemma learned_in_order ws d cs :
  NoDup ws -> ~ In [] ws -> mk_dict ws = Ok d ->
  increasing_after (seqs d) cs ->
  exists d', learn_all d cs = Ok d' /\ seqs d' = seqs d ++ map (fun c => [c]) cs /\
    forall i w, word_at (seqs d') i w -> search d' w None = Ok (Some i, d').
Proof.
  intros Hn He H. destruct (mk_dict_history_full ws d Hn H) as [Hf _].
  pose proof (history_no_empty ws d (h_new _ _ H) He) as Hne. clear H He Hn.
  revert d Hf Hne. induction cs as [|c cs IH]; intros d Hf Hne Hinc.
  - exists d. split; [easy|]. split; [simpl; now rewrite app_nil_r|].
    intros i w Hw. apply search_self; try easy. left. apply Hne. now apply word_at_in in Hw.
  - destruct Hinc as [Hlt Hinc]. destruct (search_learn_full d c Hf Hlt Hne) as [Hs Hf1].
    cbn [learn_all]. rewrite Hs. cbn [bind].
    destruct (IH (learn d c) Hf1) as (d' & H1 & H2 & H3); try easy.
    + apply (no_empty_ext d); [easy|apply ext_learn].
    + exists d'. split; [easy|]. split; [|easy]. rewrite H2. cbn. now rewrite <- app_assoc.
Qed.

Lemma increasing_case : increasing_after [[1]; [1; 2]; [4; 9]]%Z [5; 7; 8]%Z.
Proof.
  cbn. repeat split; intros w Hw; apply lex_ltb_spec;
    repeat (destruct Hw as [<-|Hw]; [reflexivity|]); now destruct Hw.
Qed.

Lemma greedy_lossless ws d s fuel :
  history ws d -> ~ In [] ws -> length s <= fuel ->
  exists ids d', parse_greedy fuel d s [] None = Ok (ids, length ids, d') /\
    spells (seqs d') ids s /\ extends_by_symbols (seqs d) (seqs d').
Proof.
  intros Hh Hn Hl. destruct (history_wf ws d Hh) as [Hwf _].
  destruct (linear_loop_lossless fuel d s [] Hwf (history_no_empty ws d Hh Hn) Hl)
    as (ids & d' & H & Hsp & _ & He).
  exists ids, d'. unfold parse_greedy. rewrite H. now cbn.
Qed.

Lemma greedy_spells ws s ids : greedy ws (fun _ => True) s ids -> covers ws s -> spells ws ids s.
Proof.
  induction 1 as [|i w r ids Hw Hl _ IH|c r ids Hn _ IH]; intro Hc.
  - apply spells_nil.
  - apply spells_cons; [easy|]. apply IH. intros c Hin. apply Hc. apply in_app_iff. now right.
  - exfalso. apply (no_prefix_covers ws c r); [|easy]. apply Hc. now left.
Qed.

Lemma greedy_longest ws d s fuel :
  NoDup ws -> ~ In [] ws -> mk_dict ws = Ok d -> covers (seqs d) s -> length s <= fuel ->
  exists ids, parse_greedy fuel d s [] None = Ok (ids, length ids, d) /\
    spells (seqs d) ids s /\ greedy (seqs d) (fun _ => True) s ids.
Proof.
  intros Hn He H Hc Hl. destruct (mk_dict_history_full ws d Hn H) as [Hf _].
  pose proof (history_no_empty ws d (h_new _ _ H) He) as Hne.
  destruct (linear_loop_greedy None d Hf Hne fuel s [] (fun _ => Hc) Hl) as (ids & Hi & Hg).
  exists ids. unfold parse_greedy. rewrite Hi. cbn [bind]. split; [easy|].
  assert (Hg' : greedy (seqs d) (fun _ => True) s ids) by
    (now apply (greedy_iff _ (fun k => allowed None k = true))).
  split; [now apply greedy_spells|easy].
Qed.

Lemma longest_refuted : exists ws d q i d',
  history ws d /\ ~ In [] ws /\ NoDup ws /\ search d q None = Ok (Some i, d') /\
  ~ longest_prefix (seqs d) (fun _ => True) q i /\ In q (seqs d).
Proof.
  exists [[6]; [6; 7]]%Z. eexists. exists [6; 7]%Z, 5. eexists.
  split; [|split; [|split; [|split; [|split]]]].
  - eapply (h_greedy _ _ 3 [5; 4; 3]%Z [] None); [apply h_new; reflexivity|reflexivity].
  - simpl. intuition discriminate.
  - repeat constructor; simpl; intuition discriminate.
  - reflexivity.
  - intros (w & Hw & _). discriminate.
  - simpl. tauto.
Qed.

Lemma greedy_case : exists d, mk_dict [[1]; [2]; [1; 2]; [1; 2; 1]]%Z = Ok d /\
  covers (seqs d) [1; 2; 1; 2; 2; 1]%Z /\
  parse_greedy 6 d [1; 2; 1; 2; 2; 1]%Z [] None = Ok ([2; 3; 3; 0], 4, d).
Proof.
  eexists. split; [reflexivity|]. split; [|reflexivity].
  intros c Hc. simpl in *. intuition subst; tauto.
Qed.

Lemma greedy_allowed ws ok s ids : greedy ws ok s ids -> Forall ok ids.
Proof.
  induction 1 as [|i w r ids Hw (v & Hv & Hp & Hok & _) _ IH|]; [constructor| |easy]. now constructor.
Qed.

Lemma greedy_excludes ws d s fuel l :
  NoDup ws -> ~ In [] ws -> mk_dict ws = Ok d -> length s <= fuel ->
  exists ids, parse_greedy fuel d s [] (Some l) = Ok (ids, length ids, d) /\
    greedy (seqs d) (fun k => ~ In k l) s ids /\ Forall (fun i => ~ In i l) ids.
Proof.
  intros Hn He H Hl. destruct (mk_dict_history_full ws d Hn H) as [Hf _].
  pose proof (history_no_empty ws d (h_new _ _ H) He) as Hne.
  destruct (linear_loop_greedy (Some l) d Hf Hne fuel s [] ltac:(easy) Hl) as (ids & Hi & Hg).
  exists ids. unfold parse_greedy. rewrite Hi. cbn [bind]. split; [easy|].
  assert (Hg' : greedy (seqs d) (fun k => ~ In k l) s ids).
  { apply (greedy_iff _ (fun k => allowed (Some l) k = true)); [|easy]. intro. apply allowed_spec. }
  split; [easy|]. now apply greedy_allowed in Hg'.
Qed.

Lemma greedy_excludes_any ws d s fuel l :
  history ws d -> ~ In [] ws -> length s <= fuel ->
  exists ids, parse_greedy fuel d s [] (Some l) = Ok (ids, length ids, d) /\
    Forall (fun i => ~ In i l /\ i < dsize d) ids.
Proof.
  intros Hh Hn Hl. destruct (history_wf ws d Hh) as [Hwf _].
  destruct (linear_loop_excl l d Hwf (history_no_empty ws d Hh Hn) fuel s [] Hl) as (ids & H & Hf).
  exists ids. unfold parse_greedy. rewrite H. now cbn.
Qed.

Lemma greedy_buffer fuel d s out ex :
  parse_greedy fuel d s out ex =
  ('(ids, _, d') <- parse_greedy fuel d s [] ex ;; Ok (out ++ ids, length (out ++ ids), d')).
Proof.
  unfold parse_greedy. rewrite linear_loop_buffer.
  destruct (linear_loop fuel d s [] ex) as [[o d']| | |]; reflexivity.
Qed.

Lemma greedy_terminates ws d s fuel out ex :
  history ws d -> ~ In [] ws -> length s <= fuel ->
  exists o n d', parse_greedy fuel d s out ex = Ok (o, n, d').
Proof.
  intros Hh Hn Hl. rewrite greedy_buffer. destruct ex as [l|].
  - destruct (greedy_excludes_any ws d s fuel l Hh Hn Hl) as (ids & -> & _).
    do 3 eexists. reflexivity.
  - destruct (greedy_lossless ws d s fuel Hh Hn Hl) as (ids & d' & -> & _).
    do 3 eexists. reflexivity.
Qed.

Lemma greedy_loops : exists ws d s, mk_dict ws = Ok d /\
  forall fuel, parse_greedy fuel d s [] None = NoTerm.
Proof.
  exists [[]], dict_with_empty, [5%Z]. split; [reflexivity|]. intro fuel.
  unfold parse_greedy. now rewrite empty_word_loops.
Qed.

Lemma weighted_parse_lossless fl (L : flaws fl) ws d s freqs T out :
  history ws d -> ~ In [] ws -> counts_ok freqs T ->
  (Z.of_nat (length s) <= maxlen)%Z ->
  (T + Z.of_nat (dsize d) + Z.of_nat (length s) <= maxcount)%Z ->
  exists ids d', parse_weighted fl d s freqs (fofZ fl T) out =
      Ok (out ++ ids, length (out ++ ids), d') /\
    spells (seqs d') ids s /\ extends_by_symbols (seqs d) (seqs d').
Proof.
  intros Hh Hn Hc Hl Hb. destruct (history_wf ws d Hh) as [Hwf _].
  destruct (weighted_lossless fl L true false d s freqs T Hwf (history_no_empty ws d Hh Hn) Hc Hl Hb)
    as (ids & x & d' & H & Hsp & _ & _ & He & _).
  exists ids, d'. unfold parse_weighted. rewrite H. now cbn.
Qed.

Lemma weighted_parse_lossless_double lg : log_ok lg -> forall ws d s freqs T out,
  history ws d -> ~ In [] ws -> counts_ok freqs T ->
  (Z.of_nat (length s) <= maxlen)%Z ->
  (T + Z.of_nat (dsize d) + Z.of_nat (length s) <= maxcount)%Z ->
  exists ids d', parse_weighted (ieee lg) d s freqs (f64_ofZ T) out =
      Ok (out ++ ids, length (out ++ ids), d') /\
    spells (seqs d') ids s /\ extends_by_symbols (seqs d) (seqs d').
Proof. intro H. exact (weighted_parse_lossless (ieee lg) (ieee_laws lg H)). Qed.

Lemma counts_case l T : (0 <= T)%Z -> forallb (fun f => (0 <=? f) && (f <? maxcount))%Z l = true ->
  counts_ok l T.
Proof.
  intros HT H. split; [easy|]. apply Forall_forall. intros f Hf.
  rewrite forallb_forall in H. apply H in Hf. lia.
Qed.

Lemma weighted_case : exists d d', mk_dict [[1; 2]; [2; 3]]%Z = Ok d /\ counts_ok [4; 1]%Z 5 /\
  parse_weighted exf d [1; 2; 3; 2; 3]%Z [4; 1]%Z (fofZ exf 5) [7] = Ok ([7; 0; 2; 1], 4, d') /\
  spells (seqs d') [0; 2; 1] [1; 2; 3; 2; 3]%Z.
Proof.
  do 2 eexists. split; [reflexivity|]. split; [now apply counts_case|].
  split; [vm_compute; reflexivity|].
  exists [[1; 2]; [3]; [2; 3]]%Z. split; [|reflexivity]. repeat constructor.
Qed.

Lemma covers_allowed d s : covers (seqs d) s ->
  forall c, In c s -> exists i, word_at (seqs d) i [c] /\ allowed None i = true.
Proof. intros H c Hc. apply H in Hc. apply In_nth_error in Hc as [i Hi]. now exists i. Qed.

Lemma weighted_optimal fl (L : flaws fl) ws d s freqs T :
  NoDup ws -> ~ In [] ws -> mk_dict ws = Ok d -> covers (seqs d) s -> counts_ok freqs T ->
  (Z.of_nat (length s) <= maxlen)%Z -> (T + Z.of_nat (dsize d) <= maxcount)%Z ->
  exists ids, parse_weighted fl d s freqs (fofZ fl T) [] = Ok (ids, length ids, d) /\
    spells (seqs d) ids s /\
    forall ids', spells (seqs d) ids' s ->
      fltb fl (split_weight fl freqs T (dsize d) ids) (split_weight fl freqs T (dsize d) ids') = false.
Proof.
  intros Hn He H Hcov Hc Hl Hb. destruct (mk_dict_history_full ws d Hn H) as [Hf _].
  pose proof (history_no_empty ws d (h_new _ _ H) He) as Hne.
  destruct (weighted_full fl L true false d s freqs T None (fun _ => True) Hf Hne Hc Hl Hb
              (covers_allowed d s Hcov) ltac:(easy) ltac:(easy)) as (ids & Hp & Hsp & _ & Hopt).
  exists ids. unfold parse_weighted. rewrite Hp. cbn. split; [easy|]. split; [easy|].
  intros ids' Hs'. apply Hopt; [|easy]. now apply Forall_forall.
Qed.

Lemma weighted_optimal_double lg : log_ok lg -> forall ws d s freqs T,
  NoDup ws -> ~ In [] ws -> mk_dict ws = Ok d -> covers (seqs d) s -> counts_ok freqs T ->
  (Z.of_nat (length s) <= maxlen)%Z -> (T + Z.of_nat (dsize d) <= maxcount)%Z ->
  exists ids, parse_weighted (ieee lg) d s freqs (f64_ofZ T) [] = Ok (ids, length ids, d) /\
    spells (seqs d) ids s /\
    forall ids', spells (seqs d) ids' s ->
      fltb (ieee lg) (split_weight (ieee lg) freqs T (dsize d) ids)
                     (split_weight (ieee lg) freqs T (dsize d) ids') = false.
Proof. intro H. exact (weighted_optimal (ieee lg) (ieee_laws lg H)). Qed.

Lemma optimal_case : exists d, mk_dict [[1]; [2]; [3]; [1; 2]; [2; 3]]%Z = Ok d /\
  covers (seqs d) [1; 2; 3]%Z /\
  parse_weighted exf d [1; 2; 3]%Z [50; 1; 1; 90; 1]%Z (fofZ exf 143) [] = Ok ([0; 3], 2, d) /\
  parse_greedy 3 d [1; 2; 3]%Z [] None = Ok ([1; 4], 2, d).
Proof.
  eexists. split; [reflexivity|]. split; [|split; [vm_compute; reflexivity|reflexivity]].
  intros c Hc. simpl in *. intuition subst; tauto.
Qed.

Lemma weighted_buffer fl d s freqs total out :
  parse_weighted fl d s freqs total out =
  ('(ids, _, d') <- parse_weighted fl d s freqs total [] ;; Ok (out ++ ids, length (out ++ ids), d')).
Proof.
  unfold parse_weighted.
  destruct (weighted_parse fl true false d s freqs total None) as [[[ids x] d']| | |]; reflexivity.
Qed.

Lemma greedy_return fuel d s out ex o n d' :
  parse_greedy fuel d s out ex = Ok (o, n, d') -> n = length o.
Proof. unfold parse_greedy. intro H. apply bind_ok in H as ([a b] & _ & H). now injection H as <- <- _. Qed.

Lemma reparse_without_itself fl (L : flaws fl) ws d x w freqs T :
  NoDup ws -> ~ In [] ws -> mk_dict ws = Ok d -> word_at (seqs d) x w -> 2 <= length w ->
  covers (seqs d) w -> counts_ok freqs T ->
  (Z.of_nat (length w) <= maxlen)%Z -> (T + Z.of_nat (dsize d) <= maxcount)%Z ->
  exists ids, weighted_parse fl false true d w freqs (fofZ fl T) (Some [x]) =
      Ok (ids, split_weight fl freqs T (dsize d) ids, d) /\
    spells (seqs d) ids w /\ ~ In x ids /\ 2 <= length ids /\
    forall ids', ~ In x ids' -> spells (seqs d) ids' w ->
      fltb fl (split_weight fl freqs T (dsize d) ids) (split_weight fl freqs T (dsize d) ids') = false.
Proof.
  intros Hn He H Hx Hlw Hcov Hc Hl Hb. destruct (mk_dict_history_full ws d Hn H) as [Hf _].
  pose proof (history_no_empty ws d (h_new _ _ H) He) as Hne.
  assert (Hsym : forall c, In c w -> exists i, word_at (seqs d) i [c] /\ allowed (Some [x]) i = true).
  { intros c Hin. apply Hcov in Hin. apply In_nth_error in Hin as [i Hi]. exists i. split; [easy|].
    apply allowed_spec. intros [<-|[]]. assert (Hi' : word_at (seqs d) x [c]) by exact Hi.
    unfold word_at in Hx, Hi'. rewrite Hi' in Hx. injection Hx as <-. simpl in Hlw. lia. }
  destruct (weighted_full fl L false true d w freqs T (Some [x]) (fun v => length v < length w)
              Hf Hne Hc Hl Hb Hsym) as (ids & Hp & Hsp & Hq & Hopt).
  - intros v u Hvu Hu. apply prefix_length in Hvu. lia.
  - intros p i v Hp (v' & Hv' & Hpre & Hal & _) Hv. unfold word_at in *. rewrite Hv' in Hv.
    injection Hv as ->. apply allowed_spec in Hal.
    pose proof (prefix_length _ _ Hpre) as Hle. rewrite skipn_length in Hle.
    destruct p as [|p]; [|lia]. simpl in Hpre.
    destruct (Nat.eq_dec (length v) (length w)) as [E|]; [|lia]. exfalso.
    assert (v = w) by (apply prefix_length_eq; [easy|lia]). subst v.
    apply Hal. left. apply (strict_nth_inj (seqs d) x i w); try easy. apply Hf.
  - exists ids. split; [easy|]. split; [easy|].
    assert (Hxi : ~ In x ids).
    { intro Hin. rewrite Forall_forall in Hq. apply Hq in Hin as (v & Hv & Hlt).
      unfold word_at in *. rewrite Hx in Hv. injection Hv as <-. lia. }
    split; [easy|]. split.
    + destruct Hsp as (vs & Hvs & Hcc). inversion Hvs as [|i v ids1 vs1 Hv Hvs1]; subst.
      * simpl in Hlw. lia.
      * inversion Hvs1 as [|i2 v2 ids2 vs2 Hv2 Hvs2]; subst; [|simpl; lia].
        exfalso. simpl in Hq. inversion Hq as [|? ? (v' & Hv' & Hlt) _]; subst.
        unfold word_at in *. rewrite Hv in Hv'. injection Hv' as <-. rewrite app_nil_r in Hlt. lia.
    + intros ids' Hni Hs'. apply Hopt; [|easy]. apply Forall_forall. intros i Hi.
      apply allowed_spec. intros [<-|[]]. easy.
Qed.

Lemma reparse_refuted : exists ws d x w,
  NoDup ws /\ mk_dict ws = Ok d /\ word_at (seqs d) x w /\ 2 <= length w /\
  forall fl freqs total, weighted_parse fl false true d w freqs total (Some [x]) = UB OobRead.
Proof.
  exists [[1; 2]]%Z. eexists. exists 0, [1; 2]%Z.
  split; [repeat constructor; simpl; tauto|]. split; [reflexivity|]. split; [reflexivity|].
  split; [simpl; lia|]. reflexivity.
Qed.

Lemma reparse_case : exists d, mk_dict [[1]; [2]; [1; 2]; [1; 2; 1]]%Z = Ok d /\
  covers (seqs d) [1; 2; 1]%Z /\ word_at (seqs d) 2 [1; 2; 1]%Z /\
  ('(ids, _, d') <- weighted_parse exf false true d [1; 2; 1]%Z [5; 5; 2; 4]%Z (fofZ exf 16) (Some [2]) ;;
   Ok (ids, d')) = Ok ([1; 0], d).
Proof.
  eexists. split; [reflexivity|]. split; [intros c Hc; simpl in *; intuition subst; tauto|].
  split; [reflexivity|]. vm_compute. reflexivity.
Qed.
