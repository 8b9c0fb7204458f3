(** Statements of PropsLoadMixed.v. *)
From Verif Require Import Base Spec FloatOps FloatLaws FloatIEEE FloatExample OrderProofs PropsStatLemmas DictProofs ModelDict Maps ModelCoder CoderProofs ModelStat ModelBuilder ModelStream ModelVGram
  SpecStat SpecBuilder BuilderProofs EnvExample BuilderRuns StreamRuns VGramRuns StreamProofs PropsStreamLemmas VGramProofs PropsVGramLemmas MixedProofs PropsMixedLemmas LoadMixed
  SpecStream SpecVGram SpecMixed SpecLoadMixed.

Section P.
  Context (fl : fops) (L : flaws fl).

  Lemma lstep_dict syms calls v op new v' : lstep fl syms calls v op new v' -> zdict (vs v) <> None -> zdict (vs v') <> None.
  Proof.
    intros Hv Hd. destruct op as [w xs|w xs|op]; cbn [lstep] in Hv.
    - destruct Hv as (ok & Hf & _ & _). unfold fit in Hf. destruct (vfitted v).
      + destruct (vcomputed v); [injection Hf as <- <-; exact Hd|].
        apply bind_ok in Hf as ([t z] & Hr & Hf). injection Hf as <- <-. cbn [vs]. now apply recompute_dict in Hr as ->.
      + apply bind_ok in Hf as ([[stop t] z] & Hr & Hf).
        pose proof (rounds_prefix fl w xs (Z.to_nat (viter v)) 0 (vs v) stop t z Hr) as G. cbn [Nat.add] in G.
        destruct G as [[-> Hs]|(-> & m & j & Hj & Hkt & Hkf & Hs)].
        * apply bind_ok in Hf as ([t2 z2] & Hr2 & Hf). injection Hf as <- <-. cbn [vs]. apply recompute_dict in Hr2 as ->.
          exact (proj1 (hist_dict fl _ _ _ Hs) Hd).
        * injection Hf as <- <-. cbn [vs on_stream]. exact (proj1 (hist_dict fl _ _ _ Hs) Hd).
    - destruct Hv as [[r Ht] ->]. unfold transform in Ht. apply bind_ok in Ht as ([r2 z] & Hl & Ht). injection Ht as <- <-. cbn [vs on_stream].
      now apply transform_dict in Hl as [-> _].
    - destruct Hv as (Hs & _ & ->). exact (step_keeps fl _ _ _ Hs Hd).
  Qed.
  Lemma lhist_dict syms v0 ops calls v : lhist fl syms v0 ops calls v -> zdict (vs v0) <> None -> zdict (vs v) <> None.
  Proof. induction 1 as [|ops calls v op new v' H IH Hs]; [easy|]. intro Hd. exact (lstep_dict _ _ _ _ _ _ Hs (IH Hd)). Qed.

  Section Loaded.
    Context (N : Z) (syms : list Z) (c : coder) (freqs : list Z) (ws : list seq) (size : Z) (mp : F fl) (fitted computed : bool) (v0 : vgram fl).
    Context (HN : (0 <= N <= 2 ^ 40)%Z) (HL : loadable fl N syms c freqs ws mp) (E0 : loaded_vgram fl c freqs ws size mp fitted computed = Ok v0).

    Lemma lv_stream : loaded_stream fl c freqs ws size mp = Ok (vs v0).
    Proof. pose proof E0 as E. unfold loaded_vgram in E. apply bind_ok in E as (z & Ez & E). now injection E as <-. Qed.
    Lemma lv_start : start_stream fl L (isort ws) syms (vs v0) (kmax + N) (Z.of_nat (length ws)) (2 ^ 50).
    Proof. exact (loaded_start fl L N syms c freqs ws size mp (vs v0) HN HL lv_stream). Qed.
    Lemma lv_size : (Z.of_nat (length ws) <= 2 ^ 49)%Z.
    Proof. exact (loaded_size fl N syms c freqs ws mp HL). Qed.
    Lemma T50 : (2 ^ 50 <= 2 ^ 50)%Z.
    Proof. lia. Qed.
    Lemma lv_dict ops calls v : lhist fl syms v0 ops calls v -> zdict (vs v) <> None.
    Proof. intro H. exact (lhist_dict _ _ _ _ _ H (loaded_dict fl L N syms c freqs ws size mp (vs v0) HN HL lv_stream)). Qed.
    Lemma lv_sim ops calls v : lhist fl syms v0 ops calls v -> normal fl N calls -> exists bops, msim fl (isort ws) syms (vs v0) N (2 ^ 50) calls (vs v) bops.
    Proof. exact (lhist_sim fl L (isort ws) syms (vs v0) _ N _ lv_start lv_size T50 v0 ops calls v eq_refl). Qed.

    Lemma loaded_mixed_parse ops calls v s : lhist fl syms v0 ops calls v -> normal fl N (calls ++ [SParse s]) -> (Z.of_nat (length s) <= 2 ^ 40)%Z ->
      exists ids z' al al', s_parse fl (vs v) s = Ok (ids, z') /\ s_alphabet fl (vs v) = Ok al /\ s_alphabet fl z' = Ok al' /\
        spells al' ids (restrict (syms ++ seen fl calls) s) /\ extends_by_symbols al al'.
    Proof.
      intros H Hn Hl. destruct (lv_sim ops calls v H (normal_snoc _ _ _ _ Hn)) as [bops S].
      exact (ms_parse fl L (isort ws) syms (vs v0) _ N _ lv_start lv_size T50 _ _ _ _ S Hn (lv_dict _ _ _ H) Hl).
    Qed.
    Lemma loaded_mixed_words ops calls v : lhist fl syms v0 ops calls v -> normal fl N calls ->
      exists al, s_alphabet fl (vs v) = Ok al /\ forall w, In w al -> w <> [] /\
        ((exists k, In k ws /\ w = map (fun i => nth (Z.to_nat i) syms 0%Z) k) \/ occurs (fed fl calls) w).
    Proof.
      intros H Hn. destruct (lv_sim ops calls v H Hn) as [bops S].
      destruct (ms_words fl L (isort ws) syms (vs v0) _ N _ lv_start lv_size _ _ _ S Hn (lv_dict _ _ _ H)) as (al & Ha & Hw).
      exists al. split; [exact Ha|]. intros w Hi. destruct (Hw w Hi) as [H1 [H2|H2]]; (split; [exact H1|]); [left|now right].
      apply in_map_iff in H2 as (k & <- & Hk). exists k. split; [now apply (proj1 (isort_in _ _)) in Hk|reflexivity].
    Qed.
    Lemma loaded_mixed_accept ops calls v e s : lhist fl syms v0 ops calls v -> normal fl N (calls ++ [SAccept e s]) ->
      roomy_loaded fl syms ws (calls ++ [SAccept e s]) ->
      exists z', s_accept fl e (vs v) s = Ok z' /\ s_freqs fl z' = s_freqs fl (vs v) /\
        lhist fl syms v0 (ops ++ [VCall (SAccept e s)]) (calls ++ [SAccept e s]) (on_stream fl v z').
    Proof.
      intros H Hn Hr. destruct (lv_sim ops calls v H (normal_snoc _ _ _ _ Hn)) as [bops S].
      destruct (loaded_safe fl L N syms c freqs ws size mp (vs v0) HN HL lv_stream) as (d0 & st0 & S0 & Ha & _).
      destruct (updated_safe fl L (isort ws) syms (vs v0) _ N _ lv_start lv_size (length ws) d0 st0 S0
        (loaded_closed fl N syms c freqs ws mp HL) (loaded_words fl N syms c freqs ws mp HL) Ha _ _ _ _ _ S Hn
        (loaded_room fl L N syms c freqs ws size mp (vs v0) HN HL lv_stream _ Hr)) as [z' E].
      exists z'. split; [exact E|]. split; [now apply (accept_keeps fl) in E|].
      apply (lh_step fl _ _ ops calls v); [exact H|]. cbn [lstep]. now split.
    Qed.
    Lemma loaded_mixed_update ops calls v : lhist fl syms v0 ops calls v -> normal fl N (calls ++ [SUpdate]) ->
      exists z', s_update fl (vs v) = Ok z' /\
        (z' = vs v \/ exists r al, s_freqs fl z' = s_freqs fl (vs v) ++ r /\ s_alphabet fl z' = Ok al /\ length al <= length r) /\
        lhist fl syms v0 (ops ++ [VCall SUpdate]) (calls ++ [SUpdate]) (on_stream fl v z').
    Proof.
      intros H Hn. destruct (lv_sim ops calls v H (normal_snoc _ _ _ _ Hn)) as [bops S].
      destruct (ms_update fl L (isort ws) syms (vs v0) _ N _ lv_start lv_size _ _ _ S Hn) as (z' & E & _ & G). exists z'. split; [exact E|]. split; [exact G|].
      apply (lh_step fl _ _ ops calls v); [exact H|]. cbn [lstep]. now split.
    Qed.
  End Loaded.

  Lemma loaded_mixed_freqs syms calls v op new v' : lstep fl syms calls v op new v' -> (forall w xs, op <> VFit w xs) ->
    exists r, s_freqs fl (vs v') = s_freqs fl (vs v) ++ r /\ (r = [] \/ op = VCall SUpdate).
  Proof. intros Hv Ho. apply (mixed_freqs fl calls v op new v'); [|exact Ho]. destruct op; [now destruct (Ho w xs)|exact Hv|exact Hv]. Qed.

  (** fit of an object loaded as fitted, with its frequencies computed, does nothing. *)
  Lemma loaded_mixed_done syms v0 : vfitted v0 = true -> vcomputed v0 = true -> forall ops calls v, lhist fl syms v0 ops calls v ->
    vfitted v = true /\ vcomputed v = true /\ forall w xs, fit fl w v xs = Ok (true, v).
  Proof.
    intros H1 H2 ops calls v H. assert (G : vfitted v = true /\ vcomputed v = true).
    { induction H as [|ops calls v op new v' H [I1 I2] Hv]; [easy|]. destruct op as [w xs|w xs|op]; cbn [lstep] in Hv.
      - destruct Hv as (ok & Hf & _). unfold fit in Hf. rewrite I1, I2 in Hf. now injection Hf as _ <-.
      - destruct Hv as [[r Ht] _]. apply transform_flags in Ht as (-> & -> & _). easy.
      - destruct Hv as (_ & -> & _). easy. }
    destruct G as [G1 G2]. split; [exact G1|]. split; [exact G2|]. intros w xs. unfold fit. now rewrite G1, G2.
  Qed.
  Lemma loaded_done syms c freqs ws size mp v0 : loaded_vgram fl c freqs ws size mp true true = Ok v0 -> forall ops calls v,
    lhist fl syms v0 ops calls v -> vfitted v = true /\ vcomputed v = true /\ forall w xs, fit fl w v xs = Ok (true, v).
  Proof.
    intro E. unfold loaded_vgram in E. apply bind_ok in E as (z & _ & E). injection E as <-. now apply loaded_mixed_done.
  Qed.
End P.

(** ** An execution on doubles *)
Definition file_coder : coder := mkCoder [(8, 1); (5, 0)]%Z [(0, 5); (1, 8)]%Z.
Definition file_object : outcome (vgram exf) := loaded_vgram exf file_coder [3; 2; 0]%Z [[0]; [1]; [0; 1]]%Z 100 (flit exf 2 1000) true false.
Definition more_look : option (list Z * list Z) * option (outcome (list seq) * list Z) * option (list (list nat)) :=
  match file_object with
  | Ok v0 =>
      match fit exf (listed [] 100) v0 [[5; 8; 5]; [8]]%Z with
      | Ok (true, v1) =>
          match s_accept exf exenv (vs v1) [8; 8; 5]%Z with
          | Ok z2 => match s_update exf z2 with
              | Ok z3 => (Some (s_freqs exf (vs v0), s_freqs exf (vs v1)), Some (s_alphabet exf z3, s_freqs exf z3),
                  match transform exf (listed [] 100) (on_stream exf v1 z3) [[5; 8; 9]; [8; 5]]%Z with Ok (r, _) => Some r | _ => None end)
              | _ => (None, None, None)
              end
          | _ => (None, None, None)
          end
      | _ => (None, None, None)
      end
  | _ => (None, None, None)
  end.
Lemma more_run : more_look = (Some ([3; 2; 0]%Z, [1; 1; 1]%Z), Some (Ok [[5]; [5; 8]; [8]]%Z, [1; 1; 1; 1; 0; 2]%Z), Some [[1]; [2; 0]]).
Proof. vm_compute. reflexivity. Qed.
Lemma more_look_ok a a' al fs r : more_look = (Some (a, a'), Some (al, fs), Some r) ->
  exists v0 v1 z2 z3 v4, file_object = Ok v0 /\ fit exf (listed [] 100) v0 [[5; 8; 5]; [8]]%Z = Ok (true, v1) /\
    s_accept exf exenv (vs v1) [8; 8; 5]%Z = Ok z2 /\ s_update exf z2 = Ok z3 /\ s_freqs exf (vs v0) = a /\ s_freqs exf (vs v1) = a' /\
    s_alphabet exf z3 = al /\ s_freqs exf z3 = fs /\ transform exf (listed [] 100) (on_stream exf v1 z3) [[5; 8; 9]; [8; 5]]%Z = Ok (r, v4).
Proof.
  unfold more_look. destruct file_object as [v0| | |]; try discriminate.
  destruct (fit exf (listed [] 100) v0 [[5; 8; 5]; [8]]%Z) as [[[|] v1]| | |] eqn:Ef; try discriminate.
  destruct (s_accept exf exenv (vs v1) [8; 8; 5]%Z) as [z2| | |] eqn:Ea; try discriminate.
  destruct (s_update exf z2) as [z3| | |] eqn:Eu; try discriminate.
  destruct (transform exf (listed [] 100) (on_stream exf v1 z3) [[5; 8; 9]; [8; 5]]%Z) as [[r' v4]| | |] eqn:Et; try discriminate.
  intros [= <- <- <- <- <-]. exists v0, v1, z2, z3, v4. easy.
Qed.
Definition more_ops : list (vop exf) := [VFit (listed [] 100) [[5; 8; 5]; [8]]%Z; VCall (feed [8; 8; 5]%Z); VCall SUpdate].
Definition more_calls : list (sop exf) := [SParse [5; 8; 5]%Z; SParse [8]%Z; feed [8; 8; 5]%Z; SUpdate].
Lemma more_case : exists v0 v, file_object = Ok v0 /\ s_freqs exf (vs v0) = [3; 2; 0]%Z /\ lhist exf [5; 8]%Z v0 more_ops more_calls v /\
  s_alphabet exf (vs v) = Ok [[5]; [5; 8]; [8]]%Z /\ s_freqs exf (vs v) = [1; 1; 1; 1; 0; 2]%Z /\
  exists v', transform exf (listed [] 100) v [[5; 8; 9]; [8; 5]]%Z = Ok ([[1]; [2; 0]], v').
Proof.
  destruct (more_look_ok _ _ _ _ _ more_run) as (v0 & v1 & z2 & z3 & v4 & E0 & Ef & Ea & Eu & F0 & F1 & Eal & Efs & Et).
  exists v0, (on_stream exf v1 z3). split; [exact E0|]. split; [exact F0|]. split.
  - assert (G : vfitted v0 = true /\ vcomputed v0 = false).
    { unfold file_object, loaded_vgram in E0. apply bind_ok in E0 as (z & _ & E0). now injection E0 as <-. }
    assert (H1 : lhist exf [5; 8]%Z v0 (firstn 1 more_ops) (firstn 2 more_calls) v1).
    { change (firstn 1 more_ops) with (([] : list (vop exf)) ++ [VFit (listed [] 100) [[5; 8; 5]; [8]]%Z]).
      change (firstn 2 more_calls) with (([] : list (sop exf)) ++ [SParse [5; 8; 5]%Z; SParse [8]%Z]).
      apply (lh_step exf _ _ [] [] v0); [constructor|]. cbn [lstep]. exists true. split; [exact Ef|]. split.
      - unfold fit_calls. destruct G as [-> ->]. reflexivity.
      - intros _ x [<-|[<-|[]]]; (split; [cbn; lia|]); intros c Hc; cbn in Hc; cbn; lia. }
    assert (H2 : lhist exf [5; 8]%Z v0 (firstn 2 more_ops) (firstn 3 more_calls) (on_stream exf v1 z2)).
    { change (firstn 2 more_ops) with (firstn 1 more_ops ++ [VCall (feed [8; 8; 5]%Z)]).
      change (firstn 3 more_calls) with (firstn 2 more_calls ++ [feed [8; 8; 5]%Z]).
      apply (lh_step exf _ _ _ _ v1); [exact H1|]. cbn [lstep]. split; [exact Ea|]. split; reflexivity. }
    change more_ops with (firstn 2 more_ops ++ [VCall SUpdate]). change more_calls with (firstn 3 more_calls ++ [SUpdate]).
    apply (lh_step exf _ _ _ _ (on_stream exf v1 z2)); [exact H2|]. cbn [lstep]. split; [exact Eu|]. split; reflexivity.
  - split; [exact Eal|]. split; [exact Efs|]. exists v4. exact Et.
Qed.
Lemma more_limits : loadable exf 10 [5; 8]%Z file_coder [3; 2; 0]%Z [[0]; [1]; [0; 1]]%Z (flit exf 2 1000) /\
  normal exf 10 (more_calls ++ [SParse [5; 8; 9]%Z]) /\ roomy_loaded exf [5; 8]%Z [[0]; [1]; [0; 1]]%Z more_calls.
Proof.
  split; [exact loadable_case|]. split.
  - split.
    + intros e s Hi. unfold more_calls, feed in Hi. cbn [app In] in Hi.
      repeat (destruct Hi as [Hi|Hi]; [first [discriminate Hi|injection Hi as <- _; exact exenv_ok]|]). destruct Hi.
    + split; [lia|]. split; [|split; [vm_compute; discriminate|vm_compute; discriminate]].
      repeat constructor; vm_compute; discriminate.
  - split; [|vm_compute; lia].
    intros e s Hi. unfold more_calls, feed in Hi. cbn [app In] in Hi.
    repeat (destruct Hi as [Hi|Hi]; [first [discriminate Hi|injection Hi as <- _; exact exenv_draws]|]). destruct Hi.
Qed.
Lemma more_refuted : exists v0 v al, file_object = Ok v0 /\ lhist exf [5; 8]%Z v0 more_ops more_calls v /\ normal exf 10 more_calls /\
  s_alphabet exf (vs v) = Ok al /\ length (s_freqs exf (vs v)) <> length al.
Proof.
  destruct more_case as (v0 & v & E0 & _ & H & Ha & Hf & _). destruct more_limits as (_ & Hn & _).
  exists v0, v, [[5]; [5; 8]; [8]]%Z. split; [exact E0|]. split; [exact H|]. split; [exact (normal_snoc _ _ _ _ Hn)|]. split; [exact Ha|].
  rewrite Hf. discriminate.
Qed.
