(** Proofs for C64: what a loaded stream forgets. *)
From Verif Require Import Base Spec FloatOps FloatLaws OrderProofs DictProofs GreedyProofs ModelDict ModelCoder Maps ModelStat
  ModelBuilder ModelStream SpecStat SpecBuilder SpecStream StatProofs RunProofs ReduceProofs LearnProofs BuilderProofs BuilderSafe BuilderOwn CoderProofs StreamProofs.

Definition all_single (ws : list seq) : Prop := Forall (fun w : seq => length w = 1) ws.
Lemma single_ext ws ws' : all_single ws -> extends_by_symbols ws ws' -> all_single ws'.
Proof.
  intros H [cs ->]. apply Forall_app. split; [exact H|]. apply Forall_forall. intros w Hw. apply in_map_iff in Hw as (c & <- & _). reflexivity.
Qed.
Lemma ones_le ws : ones ws <= length ws.
Proof. unfold ones. induction ws as [|w ws IH]; [easy|]. cbn. destruct (is_one w); cbn; lia. Qed.
Lemma ones_all ws : length ws <= ones ws -> all_single ws.
Proof.
  unfold ones. induction ws as [|w ws IH]; [constructor|]. cbn. pose proof (ones_le ws) as Hl. unfold ones in Hl. destruct (is_one w) eqn:E; cbn; intro H.
  - constructor; [now apply Nat.eqb_eq|]. apply IH. lia.
  - exfalso. lia.
Qed.

Section F.
  Context (fl : fops) (L : flaws fl).

  Section B.
    Context (ws0 : list seq) (a0 : nat) (b0 : builder fl) (B Size N : Z) (d00 : dict) (st00 : sstat fl).
    Context (I0 : binv fl L (fun w => In w ws0) [] B Size b0) (S0 : sinv fl L ws0 a0 [] [] b0 d00 d00 st00 []).
    Context (Hcl : symbol_closed ws0) (Hwl : Forall (fun w : seq => Z.of_nat (length w) <= 2 ^ 40)%Z ws0).
    Context (HB : (kmax + N <= B <= 2 ^ 52)%Z) (HSz : (Size <= 2 ^ 49)%Z) (Ha : bsize b0 = Z.of_nat a0) (Hs : length (bsymb b0) = a0).
    Context (Hw0 : heap_wf fl b0) (Hr0 : bres b0 <> RNull).

    Lemma forget_hist ops w b : whist fl b0 Live ops w b -> safe_ops fl ws0 b0 N ops ->
      heap_wf fl b /\ bres b <> RNull /\ a0 <= length (bsymb b) /\ snd w <> First /\
      (0 < fst (fst w) -> exists d, hget fl b (result_ptr fl b) = Ok d /\ all_single (seqs d)).
    Proof.
      induction 1 as [|ops w b op b' W IH Hst]; intro Hok; [cbn [fst snd]; repeat split; try easy; try apply Hw0; lia|].
      pose proof (safe_snoc fl ws0 a0 b0 B N HB _ _ Hok) as Hok0. destruct (IH Hok0) as (Hwf & Hr & Hsy & Hph & Hres). clear IH.
      assert (Hwf' : heap_wf fl b') by exact (heap_wf_step fl b op b' Hwf Hst).
      assert (Hsy' : a0 <= length (bsymb b')).
      { destruct op as [e s| |p s freqs total]; cbn [bstep] in Hst.
        - apply (accept_cases fl) in Hst as (d & ids & n & d1 & st1 & _ & _ & [[_ ->]|(_ & us & fs & mp & d' & st' & prob & best & turns & _ & _ & ->)]); cbn [parsed bsymb];
            [exact Hsy|rewrite app_length; lia].
        - destruct Hst as (fs & Hf). unfold result_freqs in Hf. apply bind_ok in Hf as (d2 & _ & Hf). destruct (bres b); injection Hf as _ <-; exact Hsy.
        - destruct Hst as (dd & o & n & d' & _ & _ & ->). exact Hsy. }
      assert (Hkeep : ~ reduced fl b b' -> 0 < fst (fst w) -> exists d, hget fl b' (result_ptr fl b') = Ok d /\ all_single (seqs d)).
      { intros Hnr Hi. destruct (Hres Hi) as (d & Hd & Hall). destruct (result_step fl b op b' Hst) as [[Hx _]|(_ & _ & Hx)]; [contradiction|].
        destruct (Hx Hr) as [_ ->]. destruct (heap_step fl b op b' _ d Hwf Hst Hd) as (d' & Hd' & Hext). exists d'. split; [exact Hd'|].
        now apply (single_ext (seqs d)). }
      assert (Hr' : bres b' <> RNull).
      { destruct (result_step fl b op b' Hst) as [[_ ->]|(_ & _ & Hx)]; [discriminate|now apply Hx]. }
      split; [exact Hwf'|]. split; [exact Hr'|]. split; [exact Hsy'|].
      destruct op as [e s| |p s freqs total]; cbn [window_step].
      2, 3: split; [exact Hph|apply Hkeep]; intros [Hu _]; unfold updated in Hu; cbn [bstep] in Hst.
      2:{ destruct Hst as (fs & Hf). unfold result_freqs in Hf. apply bind_ok in Hf as (d2 & _ & Hf). destruct (bres b); injection Hf as _ <-; cbn [bheap] in Hu; lia. }
      2:{ destruct Hst as (dd & o & n & d' & _ & _ & ->). unfold hput in Hu. cbn [bheap] in Hu. rewrite upd_length in Hu. lia. }
      destruct w as [[i j] ph]. cbn [fst snd window_next] in *. unfold is_updated. destruct (Nat.ltb_spec (length (bheap b)) (length (bheap b'))) as [Hu|Hu].
      2:{ destruct ph; try easy; cbn [fst snd]; (split; [easy|]); apply Hkeep; unfold reduced, updated; lia. }
      destruct (bpop b) eqn:Ep.
      { destruct ph; try easy; cbn [fst snd]; (split; [easy|]); apply Hkeep; intros [_ Hx]; congruence. }
      cbn [fst snd]. split; [easy|]. intros _.
      destruct (uhist_exists fl 0 b0 ops b) as [pre U]; [exact (window_bhist fl _ _ _ _ _ W)|].
      destruct (safe_hist fl L ws0 a0 b0 B Size N d00 st00 I0 S0 Hcl Hwl HB HSz ltac:(lia) ops pre b U Hok0) as (I & Hb & d & d0 & st0 & log & SI).
      destruct (safe_next fl L ws0 a0 b0 B Size N Hcl Hwl HB HSz ltac:(lia) pre ops b e s d d0 st0 log I SI Hb Hok) as (b1 & E & _ & Hc).
      cbn [bstep] in Hst. rewrite Hst in E. injection E as <-. destruct Hc as [[Hh _]|(_ & d' & st' & S' & Hsize)]; [lia|]. specialize (Hsize Ep).
      destruct (result_step fl b (BAccept e s) b' Hst) as [[_ Hrs]|[Hn _]]; [|exfalso; apply Hn; now split].
      exists d'. split; [unfold result_ptr; rewrite Hrs; apply S'|]. apply ones_all.
      rewrite (ones_distinct _ (ws0 ++ accepted fl ops ++ [s])); [unfold dsize, seq in *; lia| |exact (sv_sym _ _ _ _ _ _ _ _ _ _ _ S')].
      apply strict_nodup. exact (proj1 (fi_full _ _ _ _ _ (sv_full _ _ _ _ _ _ _ _ _ _ _ S'))).
    Qed.
  End B.

  (** A reduction leaves its mark on the window. *)
  Lemma swindow_more (z0 : stream fl) ph0 a w z1 : swhist fl z0 ph0 a w z1 -> 0 < fst (fst w) -> snd w <> First ->
    forall b z, shist fl z1 b z -> exists w', swhist fl z0 ph0 (a ++ b) w' z /\ 0 < fst (fst w') /\ snd w' <> First.
  Proof.
    intros W Hi Hp. induction 1 as [|b z op z' H IH Hst]; [exists w; now rewrite app_nil_r|].
    destruct IH as (w' & W' & Hi' & Hp'). rewrite app_assoc. eexists. split; [exact (sw_step fl z0 ph0 _ w' z op z' W' Hst)|].
    destruct op as [e s|s|]; cbn [swindow_step]; try easy. destruct w' as [[i j] ph]. cbn [fst snd] in *. unfold window_next.
    destruct (is_updated fl (zb z) (zb z')), (bpop (zb z)), ph; cbn [fst snd]; split; try easy; lia.
  Qed.
  Lemma swindow_reduced (z0 : stream fl) ph0 a z1 e s z2 b z : shist fl z0 a z1 -> s_accept fl e z1 s = Ok z2 -> reduced fl (zb z1) (zb z2) -> shist fl z2 b z ->
    exists w', swhist fl z0 ph0 (a ++ SAccept e s :: b) w' z /\ 0 < fst (fst w') /\ snd w' <> First.
  Proof.
    intros H Ha [Hu Hp] Hb. destruct (swindow_exists fl z0 ph0 a z1 H) as [w W].
    pose proof (sw_step fl z0 ph0 a w z1 (SAccept e s) z2 W Ha) as W2. cbn [swindow_step] in W2.
    replace (a ++ SAccept e s :: b) with ((a ++ [SAccept e s]) ++ b) by now rewrite <- app_assoc.
    destruct w as [[i j] ph]. unfold window_next, is_updated in W2. unfold updated in Hu. apply Nat.ltb_lt in Hu. rewrite Hu, Hp in W2.
    apply (swindow_more _ _ _ _ _ W2); [cbn; lia|easy|exact Hb].
  Qed.

  Lemma decw_length S w : length (decw S w) = length w.
  Proof. apply map_length. Qed.

  Section S.
    Context (ws0 : list seq) (syms0 : list Z) (z0 : stream fl) (B Size N T0 : Z).
    Context (Z0 : start_stream fl L ws0 syms0 z0 B Size T0) (HB : (B = kmax + N)%Z) (HSz : (Size <= 2 ^ 49)%Z).
    Context (a0 : nat) (d00 : dict) (st00 : sstat fl).
    Context (S0 : sinv fl L ws0 a0 [] [] (zb z0) d00 d00 st00 []) (Hcl : symbol_closed ws0).
    Context (Hwl : Forall (fun w : seq => Z.of_nat (length w) <= 2 ^ 40)%Z ws0).
    Context (Ha : bsize (zb z0) = Z.of_nat a0) (Hs : length (bsymb (zb z0)) = a0) (Hw0 : heap_wf fl (zb z0)) (Hr0 : bres (zb z0) <> RNull).

    Lemma forget_update ops w z z' al : swhist fl z0 Live ops w z -> 0 < fst (fst w) -> normal fl N (ops ++ [SUpdate]) -> has_room fl syms0 z0 ops ->
      s_update fl z = Ok z' -> s_alphabet fl z' = Ok al -> all_single al.
    Proof.
      intros W Hi Hn' Hr Hu Hal. pose proof (swindow_shist fl _ _ _ _ _ W) as H. pose proof (normal_snoc _ _ _ _ Hn') as Hn.
      destruct (sim_window fl L ws0 syms0 z0 B Size N T0 Z0 HB HSz _ ops w z W Hn) as (bops & SM & WB). pose proof Hn as (_ & (HN & _)).
      destruct (forget_hist ws0 a0 (zb z0) B Size N d00 st00 (ss_binv _ _ _ _ _ _ _ _ Z0) S0 Hcl Hwl (HBb B N HB 0 HN) HSz Ha Hs Hw0 Hr0 bops w (zb z) WB
        (sim_safe fl L ws0 syms0 z0 B Size N T0 Z0 0 ops z bops SM Hn Hr)) as (_ & _ & _ & _ & G). destruct (G Hi) as (d & Hd & Hall).
      destruct (sim_exists fl L ws0 syms0 z0 B Size N T0 Z0 HB HSz (ops ++ [SUpdate]) z') as [bops' S']; [now apply (sh_step fl z0 ops z)|exact Hn'|].
      assert (Hz : zdict z' = Some (result_ptr fl (zb z)) /\ hget fl (zb z') (result_ptr fl (zb z)) = Ok d).
      { assert (Hgo : forall fs b mp, result_freqs fl (zb z) (zfreqs z) = Ok (fs, b) ->
          z' = mkStream (zsize z) b (Some (result_ptr fl (zb z))) (zcoder z) fs (isum fs) mp ->
          zdict z' = Some (result_ptr fl (zb z)) /\ hget fl (zb z') (result_ptr fl (zb z)) = Ok d).
        { intros fs b mp Hf ->. cbn [zdict zb]. split; [easy|]. unfold result_freqs in Hf. apply bind_ok in Hf as (d2 & _ & Hf).
          destruct (bres (zb z)); injection Hf as _ <-; exact Hd. }
        unfold s_update in Hu. destruct (zdict z) as [q|] eqn:Eq.
        - destruct (Nat.eqb_spec q (result_ptr fl (zb z))) as [->|Hq]; [injection Hu as <-; now split|].
          apply bind_ok in Hu as ([fs b] & Hf & Hu). injection Hu as <-. exact (Hgo _ _ _ Hf eq_refl).
        - apply bind_ok in Hu as ([fs b] & Hf & Hu). injection Hu as <-. exact (Hgo _ _ _ Hf eq_refl). }
      destruct Hz as [Hz1 Hz2]. rewrite (alphabet_is fl L ws0 syms0 z0 B Size N T0 Z0 _ _ bops' _ d S' Hz1 Hz2) in Hal. injection Hal as <-.
      apply Forall_forall. intros v Hv. apply in_map_iff in Hv as (u & <- & Hu'). rewrite decw_length. exact (proj1 (Forall_forall _ _) Hall u Hu').
    Qed.
  End S.
End F.
