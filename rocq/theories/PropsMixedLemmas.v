(** Statements of PropsMixed.v. *)
From Verif Require Import Base Spec FloatOps FloatLaws FloatIEEE FloatExample DictProofs ModelDict Maps ModelCoder ModelStat ModelBuilder ModelStream ModelVGram
  SpecStat SpecBuilder EnvExample BuilderRuns StreamRuns VGramRuns StreamProofs PropsStreamLemmas VGramProofs PropsVGramLemmas MixedProofs SpecStream SpecVGram SpecMixed.

Section P.
  Context (fl : fops) (L : flaws fl).

  (** Which objects have a dictionary. *)
  Lemma hist_dict z ops z' : shist fl z ops z' -> (zdict z <> None -> zdict z' <> None) /\ (In SUpdate ops -> zdict z' <> None).
  Proof.
    intro H. split; intro Hi; apply (updated_dict fl _ _ _ H); [now right|now left].
  Qed.
  Lemma recount_dict w fs : forall xs t z acc stop t' z' acc', recount fl w fs xs t z acc = Ok (stop, t', z', acc') -> zdict z' = zdict z.
  Proof.
    induction xs as [|x xs IH]; intros t z acc stop t' z' acc' H; cbn [recount] in H; [now injection H as _ _ <- _|].
    destruct (encode (zcoder z) x) as [q c]. apply bind_ok in H as ([p d] & _ & H). apply bind_ok in H as ([[ids n] d'] & _ & H).
    apply bind_ok in H as (acc1 & _ & H). destruct (w_term w t); [now injection H as _ _ <- _|]. now apply IH in H.
  Qed.
  Lemma recompute_dict w xs t z t' z' : recompute_freqs fl w xs t z = Ok (t', z') -> zdict z' = zdict z.
  Proof.
    unfold recompute_freqs. intro H. apply bind_ok in H as ([fs b] & _ & H). apply bind_ok in H as ([[[stop t2] z2] acc] & Hr & H).
    apply recount_dict in Hr. now injection H as _ <-.
  Qed.
  Lemma transform_dict w : forall xs t z r z', transform_loop fl w xs t z = Ok (r, z') -> zdict z' = zdict z /\ s_freqs fl z' = s_freqs fl z.
  Proof.
    induction xs as [|x xs IH]; intros t z r z' H; cbn [transform_loop] in H; [now injection H as _ <-|].
    apply bind_ok in H as ([ids z1] & Hp & H).
    assert (G : zdict z1 = zdict z /\ s_freqs fl z1 = s_freqs fl z).
    { unfold s_parse in Hp. apply bind_ok in Hp as (da & _ & Hp). apply bind_ok in Hp as ([p d] & _ & Hp). apply bind_ok in Hp as ([[i n] d'] & _ & Hp). now injection Hp as _ <-. }
    destruct G as [G1 G2]. destruct (w_term w t); [injection H as _ <-; now split|]. apply bind_ok in H as ([r2 z2] & H2 & H). apply IH in H2 as [E1 E2].
    injection H as _ <-. split; congruence.
  Qed.
  Lemma no_update_parses xs : ~ In SUpdate (map (@SParse fl) xs).
  Proof. intro H. apply in_map_iff in H as (x & E & _). discriminate E. Qed.
  Lemma no_update_draws w xs l : ~ In SUpdate (map (draw fl w xs) l).
  Proof. intro H. apply in_map_iff in H as (x & E & _). discriminate E. Qed.

  Lemma vstep_dict calls v op new v' : vstep fl calls v op new v' -> (zdict (vs v) <> None -> zdict (vs v') <> None) /\
    (In SUpdate new -> zdict (vs v') <> None).
  Proof.
    intro Hv. destruct op as [w xs|w xs|op]; cbn [vstep] in Hv.
    - destruct Hv as (ok & Hf & Hc & _). unfold fit in Hf. unfold fit_calls in Hc. destruct (vfitted v).
      + destruct (vcomputed v).
        * injection Hf as <- <-. subst new. split; [easy|intros []].
        * apply bind_ok in Hf as ([t z] & Hr & Hf). injection Hf as <- <-. subst new. cbn [vs]. apply recompute_dict in Hr as ->.
          split; [easy|]. intro Hi. now apply no_update_parses in Hi.
      + apply bind_ok in Hf as ([[stop t] z] & Hr & Hf).
        pose proof (rounds_prefix fl w xs (Z.to_nat (viter v)) 0 (vs v) stop t z Hr) as G. cbn [Nat.add] in G.
        destruct G as [[-> Hs]|(-> & m & j & Hj & Hkt & Hkf & Hs)].
        * apply bind_ok in Hf as ([t2 z2] & Hr2 & Hf). injection Hf as <- <-. cbn [vs]. subst new. apply recompute_dict in Hr2 as ->.
          destruct (hist_dict _ _ _ Hs) as [H1 H2]. split; [exact H1|]. intro Hi. apply in_app_or in Hi as [Hi|Hi]; [now apply H2|now apply no_update_parses in Hi].
        * injection Hf as <- <-. cbn [vs on_stream]. destruct Hc as (m' & j' & Hj' & Hkt' & Hkf' & ->).
          assert (Ek : m' * length xs + j' = m * length xs + j).
          { destruct (Nat.lt_trichotomy (m * length xs + j) (m' * length xs + j')) as [Hlt|[E|Hlt]]; [|easy|].
            - rewrite (Hkf' _ Hlt) in Hkt. discriminate.
            - rewrite (Hkf (m' * length xs + j')) in Hkt'; [discriminate|]. lia. }
          rewrite !(Nat.mul_comm _ (length xs)) in Ek. apply Nat.div_mod_unique in Ek as [-> ->]; [|exact Hj'|exact Hj].
          exact (hist_dict _ _ _ Hs).
    - destruct Hv as [[r Ht] ->]. unfold transform in Ht. apply bind_ok in Ht as ([r2 z] & Hl & Ht). injection Ht as <- <-. cbn [vs on_stream].
      apply transform_dict in Hl as [-> _]. split; [easy|]. intro Hi. now apply no_update_parses in Hi.
    - destruct Hv as (Hs & _ & ->). split; [exact (step_keeps fl _ _ _ Hs)|]. intros [->|[]]. now apply (update_sets fl) in Hs.
  Qed.
  Lemma vhist_dict v0 ops calls v : vhist fl v0 ops calls v -> In SUpdate calls -> zdict (vs v) <> None.
  Proof.
    induction 1 as [|ops calls v op new v' H IH Hs]; [intros []|]. intro Hi. destruct (vstep_dict _ _ _ _ _ Hs) as [H1 H2].
    apply in_app_or in Hi as [Hi|Hi]; [now apply H1, IH|now apply H2].
  Qed.

  Lemma mixed_parse size iter N ops calls v s : vhist fl (new_vgram fl size iter) ops calls v -> normal fl N (calls ++ [SParse s]) ->
    In SUpdate calls -> (Z.of_nat (length s) <= 2 ^ 40)%Z ->
    exists ids z' al al', s_parse fl (vs v) s = Ok (ids, z') /\ s_alphabet fl (vs v) = Ok al /\ s_alphabet fl z' = Ok al' /\
      spells al' ids (restrict (seen fl calls) s) /\ extends_by_symbols al al'.
  Proof.
    intros H Hn Hu Hl. destruct (vhist_sim fl L size N iter ops calls v H (normal_snoc _ _ _ _ Hn)) as [bops S].
    exact (ms_parse fl L size N _ _ _ _ S Hn (vhist_dict _ _ _ _ H Hu) Hl).
  Qed.
  Lemma mixed_words size iter N ops calls v : vhist fl (new_vgram fl size iter) ops calls v -> normal fl N calls -> In SUpdate calls ->
    exists al, s_alphabet fl (vs v) = Ok al /\ forall w, In w al -> w <> [] /\ occurs (fed fl calls) w.
  Proof.
    intros H Hn Hu. destruct (vhist_sim fl L size N iter ops calls v H Hn) as [bops S]. exact (ms_words fl L size N _ _ _ S Hn (vhist_dict _ _ _ _ H Hu)).
  Qed.
  Lemma mixed_accept size iter N ops calls v e s : vhist fl (new_vgram fl size iter) ops calls v -> normal fl N (calls ++ [SAccept e s]) ->
    roomy fl size (calls ++ [SAccept e s]) ->
    exists z', s_accept fl e (vs v) s = Ok z' /\ s_freqs fl z' = s_freqs fl (vs v) /\
      vhist fl (new_vgram fl size iter) (ops ++ [VCall (SAccept e s)]) (calls ++ [SAccept e s]) (on_stream fl v z').
  Proof.
    intros H Hn Hr. destruct (vhist_sim fl L size N iter ops calls v H (normal_snoc _ _ _ _ Hn)) as [bops S].
    destruct (updated_safe fl L size N _ _ _ _ _ S Hn Hr) as [z' E]. exists z'. split; [exact E|]. split; [now apply (accept_keeps fl) in E|].
    apply (vh_step fl _ ops calls v); [exact H|]. cbn [vstep]. now split.
  Qed.
  Lemma mixed_update size iter N ops calls v : vhist fl (new_vgram fl size iter) ops calls v -> normal fl N (calls ++ [SUpdate]) ->
    exists z', s_update fl (vs v) = Ok z' /\
      (z' = vs v \/ exists r al, s_freqs fl z' = s_freqs fl (vs v) ++ r /\ s_alphabet fl z' = Ok al /\ length al <= length r) /\
      vhist fl (new_vgram fl size iter) (ops ++ [VCall SUpdate]) (calls ++ [SUpdate]) (on_stream fl v z').
  Proof.
    intros H Hn. destruct (vhist_sim fl L size N iter ops calls v H (normal_snoc _ _ _ _ Hn)) as [bops S].
    destruct (ms_update fl L size N _ _ _ S Hn) as (z' & E & _ & G). exists z'. split; [exact E|]. split; [exact G|].
    apply (vh_step fl _ ops calls v); [exact H|]. cbn [vstep]. now split.
  Qed.
  Lemma mixed_freqs calls v op new v' : vstep fl calls v op new v' -> (forall w xs, op <> VFit w xs) ->
    exists r, s_freqs fl (vs v') = s_freqs fl (vs v) ++ r /\ (r = [] \/ op = VCall SUpdate).
  Proof.
    intros Hv Ho. destruct op as [w xs|w xs|op]; cbn [vstep] in Hv.
    - now destruct (Ho w xs).
    - destruct Hv as [[r Ht] ->]. unfold transform in Ht. apply bind_ok in Ht as ([r2 z] & Hl & Ht). injection Ht as <- <-. cbn [vs on_stream].
      apply transform_dict in Hl as [_ ->]. exists []. rewrite app_nil_r. split; [easy|now left].
    - destruct Hv as (Hs & _ & ->). apply call_freqs in Hs as (r & E & Hr). exists r. split; [exact E|]. destruct Hr as [Hr|Hr]; [now left|right; congruence].
  Qed.
  (** A fitted object keeps its flags whatever is called. *)
  Lemma mixed_fitted calls v op new v' : vstep fl calls v op new v' -> vfitted v = true -> vfitted v' = true.
  Proof.
    intros Hv Hf. destruct op as [w xs|w xs|op]; cbn [vstep] in Hv.
    - destruct Hv as (ok & H & _). unfold fit in H. rewrite Hf in H. destruct (vcomputed v); [now injection H as _ <-|].
      apply bind_ok in H as ([t z] & _ & H). now injection H as _ <-.
    - destruct Hv as [[r Ht] _]. apply transform_flags in Ht as [-> _]. exact Hf.
    - destruct Hv as (_ & -> & _). exact Hf.
  Qed.
End P.

(** ** Executions on doubles *)
Definition mixed_look (o : outcome (bool * vgram exf)) : option (bool * list Z) * option (outcome (list seq) * list Z) * option (list (list nat)) :=
  match o with
  | Ok (ok, v) =>
      match s_accept exf exenv (vs v) (rep 1180 [1]%Z) with
      | Ok z1 => match s_update exf z1 with
          | Ok z2 => (Some (ok, s_freqs exf (vs v)), Some (s_alphabet exf z2, s_freqs exf z2),
              match transform exf (listed [] 100) (on_stream exf v z2) [[1; 1; 1]; [2; 1]]%Z with Ok (r, _) => Some r | _ => None end)
          | _ => (None, None, None)
          end
      | _ => (None, None, None)
      end
  | _ => (None, None, None)
  end.
Lemma mixed_run : mixed_look (fit exf (listed [0]%Z 100) (new_vgram exf 10 1) [[1]]%Z) =
  (Some (true, [1]%Z), Some (Ok [[1]; [1; 1]]%Z, [1; 0; 0]%Z), Some [[0; 0; 0]; [0]]).
Proof. vm_compute. reflexivity. Qed.

Definition mixed_ops : list (vop exf) := [VFit (listed [0]%Z 100) [[1]]%Z; VCall (feed (rep 1180 [1]%Z)); VCall SUpdate].
Definition mixed_calls : list (sop exf) := [feed [1]%Z; SUpdate; SParse [1]%Z; feed (rep 1180 [1]%Z); SUpdate].
Lemma mixed_look_ok o a al fs r : mixed_look o = (Some (true, a), Some (al, fs), Some r) ->
  exists v1 z1 z2 v3, o = Ok (true, v1) /\ s_freqs exf (vs v1) = a /\ s_accept exf exenv (vs v1) (rep 1180 [1]%Z) = Ok z1 /\ s_update exf z1 = Ok z2 /\
    s_alphabet exf z2 = al /\ s_freqs exf z2 = fs /\ transform exf (listed [] 100) (on_stream exf v1 z2) [[1; 1; 1]; [2; 1]]%Z = Ok (r, v3).
Proof.
  unfold mixed_look. destruct o as [[ok v1]| | |]; try discriminate.
  destruct (s_accept exf exenv (vs v1) (rep 1180 [1]%Z)) as [z1| | |] eqn:Ea; try discriminate.
  destruct (s_update exf z1) as [z2| | |] eqn:Eu; try discriminate.
  destruct (transform exf (listed [] 100) (on_stream exf v1 z2) [[1; 1; 1]; [2; 1]]%Z) as [[r' v3]| | |] eqn:Et; try discriminate.
  intros [= -> <- <- <- <-]. exists v1, z1, z2, v3. easy.
Qed.
Lemma mixed_case : exists v1 v, vhist exf (new_vgram exf 10 1) (firstn 1 mixed_ops) (firstn 3 mixed_calls) v1 /\ s_freqs exf (vs v1) = [1]%Z /\
  vhist exf (new_vgram exf 10 1) mixed_ops mixed_calls v /\ vfitted v = true /\
  s_alphabet exf (vs v) = Ok [[1]; [1; 1]]%Z /\ s_freqs exf (vs v) = [1; 0; 0]%Z /\
  exists v', transform exf (listed [] 100) v [[1; 1; 1]; [2; 1]]%Z = Ok ([[0; 0; 0]; [0]], v').
Proof.
  destruct (mixed_look_ok _ _ _ _ _ mixed_run) as (v1 & z1 & z2 & v3 & Ef & E2 & Ea & Eu & E3 & E4 & Et).
  destruct (fit_flags exf _ _ _ _ Ef) as [F1 F2].
  assert (H1 : vhist exf (new_vgram exf 10 1) (firstn 1 mixed_ops) (firstn 3 mixed_calls) v1).
  { change (firstn 1 mixed_ops) with (([] : list (vop exf)) ++ [VFit (listed [0]%Z 100) [[1]]%Z]).
    change (firstn 3 mixed_calls) with (([] : list (sop exf)) ++ [feed [1]%Z; SUpdate; SParse [1]%Z]).
    apply (vh_step exf _ [] [] (new_vgram exf 10 1)); [constructor|]. cbn [vstep]. exists true. split; [exact Ef|]. split; [reflexivity|].
    intros _ x [<-|[]]. split; [cbn; lia|]. intros c [<-|[]]. cbn. now left. }
  assert (H2 : vhist exf (new_vgram exf 10 1) (firstn 2 mixed_ops) (firstn 4 mixed_calls) (on_stream exf v1 z1)).
  { change (firstn 2 mixed_ops) with (firstn 1 mixed_ops ++ [VCall (feed (rep 1180 [1]%Z))]).
    change (firstn 4 mixed_calls) with (firstn 3 mixed_calls ++ [feed (rep 1180 [1]%Z)]).
    apply (vh_step exf _ (firstn 1 mixed_ops) (firstn 3 mixed_calls) v1); [exact H1|]. cbn [vstep]. split; [exact Ea|]. split; reflexivity. }
  exists v1, (on_stream exf v1 z2). split; [exact H1|]. split; [exact E2|]. split.
  - change mixed_ops with (firstn 2 mixed_ops ++ [VCall SUpdate]).
    change mixed_calls with (firstn 4 mixed_calls ++ [SUpdate]).
    apply (vh_step exf _ (firstn 2 mixed_ops) (firstn 4 mixed_calls) (on_stream exf v1 z1)); [exact H2|]. cbn [vstep]. split; [exact Eu|]. split; reflexivity.
  - split; [exact F1|]. split; [exact E3|]. split; [exact E4|]. exists v3. exact Et.
Qed.
Lemma mixed_limits : normal exf 2000 (mixed_calls ++ [SParse [1; 1]%Z]) /\ roomy exf 10 mixed_calls /\ In SUpdate mixed_calls.
Proof.
  split; [|split; [|cbn; tauto]].
  - split.
    + intros e s Hi. unfold mixed_calls, feed in Hi. cbn [app In] in Hi.
      repeat (destruct Hi as [Hi|Hi]; [first [discriminate Hi|injection Hi as <- _; exact exenv_ok]|]). destruct Hi.
    + split; [lia|]. split; [|split; [vm_compute; discriminate|vm_compute; discriminate]].
      repeat constructor; vm_compute; discriminate.
  - split; [|split; [lia|vm_compute; discriminate]].
    intros e s Hi. unfold mixed_calls, feed in Hi. cbn [app In] in Hi.
    repeat (destruct Hi as [Hi|Hi]; [first [discriminate Hi|injection Hi as <- _; exact exenv_draws]|]). destruct Hi.
Qed.
Lemma mixed_refuted : exists ops calls v al, vhist exf (new_vgram exf 10 1) ops calls v /\ normal exf 2000 calls /\ roomy exf 10 calls /\
  vfitted v = true /\ s_alphabet exf (vs v) = Ok al /\ length (s_freqs exf (vs v)) <> length al.
Proof.
  destruct mixed_case as (v1 & v & _ & _ & H & Hf & Ha & Hq & _). destruct mixed_limits as (Hn & Hr & _).
  exists mixed_ops, mixed_calls, v, [[1]; [1; 1]]%Z. split; [exact H|]. split; [exact (normal_snoc _ _ _ _ Hn)|]. split; [exact Hr|]. split; [exact Hf|].
  split; [exact Ha|]. rewrite Hq. discriminate.
Qed.
