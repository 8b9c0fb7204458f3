(** Executions used for C83. *)
From Verif Require Import Base Spec FloatOps FloatLaws FloatIEEE FloatExample ModelDict Maps ModelCoder ModelStat ModelBuilder ModelStream DictProofs
  SpecStat SpecBuilder EnvExample BuilderRuns StreamRuns BuilderProofs ScheduleProofs SpecStream SpecSchedule.

(** Every history has its periods, one for each rebuild. *)
Lemma timed_exists fl (z0 : stream fl) ops z : shist fl z0 ops z ->
  exists ps n, timed fl z0 ops ps n z /\ length (bheap (zb z)) = length ps + length (bheap (zb z0)).
Proof.
  induction 1 as [|ops z op z' H (ps & n & IH & E) Hs]; [exists [], 0%Z; split; [constructor|easy]|].
  destruct op as [e s|s|].
  - cbn [sstep] in Hs. pose proof Hs as Ha. unfold s_accept in Ha. destruct (encode (zcoder z) s) as [cs c] eqn:Ec. apply bind_ok in Ha as (b' & Ha & Eb).
    apply (accept_cases fl) in Ha as (d0 & ids & m & d & st & Hd & Hp & Hc).
    assert (R : reads fl z s ids d st) by (exists d0, m; rewrite Ec; now split).
    assert (Hz : zb z' = b') by (now injection Eb as <-). clear Eb.
    destruct Hc as [[_ Hb]|(_ & ws & fs & mp & d' & st' & prob & bst & turns & _ & _ & Hb)].
    + assert (Hl : length (bheap (zb z')) = length (bheap (zb z))) by (rewrite Hz, Hb; unfold parsed; cbn [bheap]; apply upd_length).
      exists ps, (n + Z.of_nat (length ids))%Z. split; [|now rewrite Hl]. refine (tm_read fl z0 ops ps n z e s z' ids d st IH Hs R _).
      unfold rebuilds, is_updated. rewrite Hl. apply Nat.ltb_irrefl.
    + assert (Hl : length (bheap (zb z')) = S (length (bheap (zb z)))) by (rewrite Hz, Hb; cbn [bheap]; rewrite app_length, upd_length; cbn [length]; lia).
      eexists _, 0%Z. split; [refine (tm_rebuild fl z0 ops ps n z e s z' ids d st IH Hs R _)|].
      * unfold rebuilds, is_updated. rewrite Hl. apply Nat.ltb_lt. lia.
      * rewrite Hl, E, app_length. cbn [length]. lia.
  - exists ps, n. split; [now apply tm_other with (z := z)|]. destruct Hs as [ids Hs]. unfold s_parse in Hs. apply bind_ok in Hs as (da & _ & Hs).
    apply bind_ok in Hs as ([p d] & _ & Hs). apply bind_ok in Hs as ([[i m] d'] & _ & Hs). injection Hs as _ <-. unfold put_dict, hput. cbn [zb bheap]. now rewrite upd_length.
  - exists ps, n. split; [now apply tm_other with (z := z)|]. rewrite <- E. cbn [sstep] in Hs.
    assert (K : forall fs b, result_freqs fl (zb z) (zfreqs z) = Ok (fs, b) -> length (bheap b) = length (bheap (zb z))).
    { intros fs b Hf. unfold result_freqs in Hf. apply bind_ok in Hf as (d & _ & Hf). destruct (bres (zb z)); now injection Hf as _ <-. }
    unfold s_update in Hs. destruct (zdict z) as [q|]; [destruct (Nat.eqb q _); [now injection Hs as <-|]|];
      apply bind_ok in Hs as ([fs b] & Hf & Hs); injection Hs as <-; cbn [zb]; now apply K in Hf.
Qed.

(** A new stream: 1180 symbols 5 8 5 8 ..., then 1180 fives. *)
Definition schedule_ops : list (sop exf) := [feed (rep 590 [5; 8]%Z); feed (rep 1180 [5]%Z)].
Lemma run_schedule : (match run_s (new_stream exf 100) schedule_ops with Ok z => Some (length (bheap (zb z))) | _ => None end) = Some 3.
Proof. vm_compute. reflexivity. Qed.
