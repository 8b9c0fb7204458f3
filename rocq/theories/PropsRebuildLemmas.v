(** Lemmas for PropsRebuild.v. *)
From Verif Require Import ExpandProofs PropsStatLemmas Base Spec FloatOps FloatLaws FloatRebuild OrderProofs DictProofs ModelDict Maps ModelCoder ModelStat ModelBuilder ModelStream ModelVGram
  SpecStat SpecBuilder StatProofs ReduceProofs RunProofs BuilderProofs RebuildProofs StreamProofs PropsStreamLemmas VGramProofs PropsVGramLemmas PropsExtraLemmas SpecStream SpecVGram SpecRebuild.

Section L.
  Context (fl : fops) (L : flaws fl) (thr : Z) (Rl : rlaws fl L thr).
  Local Notation rmp := (rm fl L thr Rl).

  (** ** Counting rebuilds *)
  Lemma step_heap (z : stream fl) op z' : sstep fl z op z' ->
    length (bheap (zb z')) = if is_updated fl (zb z) (zb z') then S (length (bheap (zb z))) else length (bheap (zb z)).
  Proof.
    intro Hs. assert (G : length (bheap (zb z')) = length (bheap (zb z)) \/ length (bheap (zb z')) = S (length (bheap (zb z)))).
    { destruct op as [e s|s|]; cbn [sstep] in Hs.
      - unfold s_accept in Hs. destruct (encode (zcoder z) s) as [q c]. apply bind_ok in Hs as (b & Ha & Hs). injection Hs as <-. cbn [zb].
        apply (accept_cases fl) in Ha as (d & i & n & d1 & st1 & _ & _ & [[_ ->]|(_ & ws & fs & mp & d' & st' & prob & best & turns & _ & _ & ->)]);
          unfold parsed; cbn [bheap]; rewrite ?app_length, upd_length; cbn [length]; lia.
      - destruct Hs as [ids Hs]. unfold s_parse in Hs. apply bind_ok in Hs as (da & _ & Hs). apply bind_ok in Hs as ([p d] & _ & Hs).
        apply bind_ok in Hs as ([[i n] d'] & _ & Hs). injection Hs as _ <-. unfold put_dict, hput. cbn [zb bheap]. rewrite upd_length. now left.
      - assert (K : forall fs b, result_freqs fl (zb z) (zfreqs z) = Ok (fs, b) -> length (bheap b) = length (bheap (zb z))).
        { intros fs b Hf. unfold result_freqs in Hf. apply bind_ok in Hf as (d & _ & Hf). destruct (bres (zb z)); now injection Hf as _ <-. }
        unfold s_update in Hs. destruct (zdict z) as [q|]; [destruct (Nat.eqb q _); [injection Hs as <-; now left|]|];
          apply bind_ok in Hs as ([fs b] & Hf & Hs); injection Hs as <-; left; cbn [zb]; now apply K in Hf. }
    unfold is_updated. destruct (Nat.ltb_spec (length (bheap (zb z))) (length (bheap (zb z')))); lia.
  Qed.
  Lemma rebuilt_hist (z0 : stream fl) ops n z : rebuilt fl z0 ops n z -> shist fl z0 ops z.
  Proof. induction 1 as [|ops n z op z' H IH Hs]; [constructor|now apply (sh_step fl z0 ops z)]. Qed.
  Lemma rebuilt_exists (z0 : stream fl) ops z : shist fl z0 ops z -> exists n, rebuilt fl z0 ops n z.
  Proof. induction 1 as [|ops z op z' H [n IH] Hs]; [exists 0; constructor|eexists; now apply (rb_step fl z0 ops n z)]. Qed.
  Lemma rebuilt_heap (z0 : stream fl) ops n z : rebuilt fl z0 ops n z -> length (bheap (zb z)) = n + length (bheap (zb z0)).
  Proof. induction 1 as [|ops n z op z' H IH Hs]; [easy|]. rewrite (step_heap _ _ _ Hs). destruct (is_updated fl (zb z) (zb z')); lia. Qed.

  (** ** From the simulation *)
  Section Sim.
    Context (ws0 : list seq) (syms0 : list Z) (z0 : stream fl) (B Size N T0 : Z).
    Context (Z0 : start_stream fl L ws0 syms0 z0 B Size T0) (HB : (B = kmax + N)%Z) (HSz : (Size <= 2 ^ 49)%Z).
    Local Notation W0 := (fun w => In w ws0).
    Lemma sim_fine ops z bops : sim fl L ws0 syms0 z0 B Size N T0 ops z bops -> normal fl N ops -> fine fl W0 N bops.
    Proof.
      intros S (He & HN & Hf & Hh & _). split; [|split].
      - intros e s Hi. destruct (sm_env _ _ _ _ _ _ _ _ _ _ _ _ S e s Hi) as [s' Hs']. exact (He e s' Hs').
      - split; [exact HN|]. split; [|pose proof (sm_proc _ _ _ _ _ _ _ _ _ _ _ _ S); lia].
        rewrite (sm_acc _ _ _ _ _ _ _ _ _ _ _ _ S). apply Forall_map. eapply Forall_impl; [|exact Hf]. intros x Hx. unfold enc. now rewrite map_length.
      - exact (sm_known _ _ _ _ _ _ _ _ _ _ _ _ S).
    Qed.
    Lemma sim_symbols ops z bops : sim fl L ws0 syms0 z0 B Size N T0 ops z bops -> symbols_fed fl bops = Z.of_nat (length (seen fl ops)).
    Proof.
      intro S. unfold symbols_fed. rewrite (sm_acc _ _ _ _ _ _ _ _ _ _ _ _ S), enc_concat. unfold enc. now rewrite map_length.
    Qed.
    Lemma bounds ops : normal fl N ops -> (kmax + N <= B <= 2 ^ 52)%Z /\ (Size <= 2 ^ 50)%Z.
    Proof. intros (_ & HN & _). rewrite HB. unfold kmax. lia. Qed.

    Lemma count_sim ops n z : rested fl L thr Rl (zb z0) -> rebuilt fl z0 ops n z -> normal fl N ops ->
      (thr * Z.of_nat n <= Z.of_nat (length (seen fl ops)))%Z.
    Proof.
      intros R0 H Hn. pose proof (rebuilt_hist _ _ _ _ H) as Hs. destruct (bounds ops Hn) as [HB1 HS1].
      destruct (sim_exists fl L ws0 syms0 z0 B Size N T0 Z0 HB HSz ops z Hs Hn) as [bops S].
      pose proof (calm_hist fl L thr Rl W0 B Size N (zb z0) (ss_binv _ _ _ _ _ _ _ _ Z0) HB1 HS1 R0 bops (zb z)
        (sm_hist _ _ _ _ _ _ _ _ _ _ _ _ S) (sim_fine _ _ _ S Hn)) as C.
      destruct (ca_power _ _ _ _ _ _ _ C) as (P & HP & _ & Hle). rewrite (sim_symbols _ _ _ S), (rebuilt_heap _ _ _ _ H) in Hle.
      replace (n + length (bheap (zb z0)) - length (bheap (zb z0))) with n in Hle by lia. lia.
    Qed.
    Lemma nothing_sim ops z e : rested fl L thr Rl (zb z0) -> shist fl z0 ops z -> normal fl N ops -> s_accept fl e z [] = Ok z.
    Proof.
      intros R0 Hs Hn. destruct (bounds ops Hn) as [HB1 HS1].
      destruct (sim_exists fl L ws0 syms0 z0 B Size N T0 Z0 HB HSz ops z Hs Hn) as [bops S].
      unfold s_accept. cbn [encode].
      rewrite (accept_nothing fl L thr Rl W0 B Size N (zb z0) (ss_binv _ _ _ _ _ _ _ _ Z0) HB1 HS1 bops (zb z) e R0
        (sm_hist _ _ _ _ _ _ _ _ _ _ _ _ S) (sim_fine _ _ _ S Hn)). cbn [bind]. now destruct z.
    Qed.
    (** Words of a stream that started with an empty dictionary, expanding. *)
    Lemma short_sim ops n z al w : short fl 0 (zb z0) -> rebuilt fl z0 ops n z -> normal fl N ops -> s_alphabet fl z = Ok al -> In w al ->
      length w <= 2 ^ Nat.div2 (S n).
    Proof.
      intros R0 H Hn Hal Hw. pose proof (rebuilt_hist _ _ _ _ H) as Hs. destruct (bounds ops Hn) as [HB1 HS1].
      destruct (sim_exists fl L ws0 syms0 z0 B Size N T0 Z0 HB HSz ops z Hs Hn) as [bops S].
      destruct (short_hist fl L W0 B Size N (zb z0) (ss_binv _ _ _ _ _ _ _ _ Z0) HB1 HS1 R0 bops (zb z)
        (sm_hist _ _ _ _ _ _ _ _ _ _ _ _ S) (sim_fine _ _ _ S Hn)) as [_ Sh].
      rewrite (rebuilt_heap _ _ _ _ H) in Sh. replace (n + length (bheap (zb z0)) - length (bheap (zb z0))) with n in Sh by lia.
      pose proof Hal as Ht. unfold s_alphabet, the_dict in Ht. destruct (zdict z) as [p|] eqn:Ep; [|discriminate Ht].
      apply bind_ok in Ht as ([p' d] & Hd & _). apply bind_ok in Hd as (d1 & Hd & _).
      rewrite (alphabet_is fl L ws0 syms0 z0 B Size N T0 Z0 ops z bops p d1 S Ep Hd) in Hal. injection Hal as <-.
      apply in_map_iff in Hw as (v & <- & Hv). unfold decw. rewrite map_length. destruct (hget_in fl _ _ _ Hd) as [Hin _].
      exact (proj1 (Forall_forall _ _) (sh_words _ _ _ Sh) d1 Hin v Hv).
    Qed.
    (** Loaded with -1. *)
    Lemma eager_sim ops z e s z' : eager fl L thr Rl (zb z0) -> shist fl z0 ops z -> normal fl N (ops ++ [SAccept e s]) -> s_accept fl e z s = Ok z' ->
      updated fl (zb z) (zb z') /\ bpop (zb z') = negb (bpop (zb z)).
    Proof.
      intros R0 Hs Hn Ha. pose proof (normal_snoc fl _ _ _ Hn) as Hn0. destruct (bounds ops Hn0) as [HB1 HS1].
      destruct (sim_exists fl L ws0 syms0 z0 B Size N T0 Z0 HB HSz ops z Hs Hn0) as [bops S].
      pose proof (sim_fine _ _ _ S Hn0) as Hf.
      pose proof (eager_hist fl L thr Rl W0 B Size N (zb z0) (ss_binv _ _ _ _ _ _ _ _ Z0) HB1 HS1 R0 bops (zb z) (sm_hist _ _ _ _ _ _ _ _ _ _ _ _ S) Hf) as Eg.
      unfold s_accept in Ha. destruct (like_encode s _ _ (symbols_nodup fl L ws0 syms0 z0 B Size T0 Z0 ops) (sm_coder _ _ _ _ _ _ _ _ _ _ _ _ S)) as (c' & Ec & _).
      rewrite Ec in Ha. apply bind_ok in Ha as (b' & Ha & E). injection E as <-. cbn [zb].
      destruct Hf as (F1 & (F2 & F3 & F4) & F5). pose proof Hn as (He & _ & Hfd & Hh & _). rewrite fed_snoc in Hfd. rewrite handled_snoc in Hh. cbn [op_fed op_handled] in *.
      apply Forall_app in Hfd as [_ Hfd]. inversion_clear Hfd as [|? ? Hls _].
      assert (Hl : length (enc (CoderProofs.adds (symbols_of fl syms0 ops) s) s) = length s) by (unfold enc; apply map_length).
      assert (Hf' : fine fl W0 N (bops ++ [BAccept e (enc (CoderProofs.adds (symbols_of fl syms0 ops) s) s)])).
      { split; [|split].
        - intros e1 s1 Hi. apply in_app_or in Hi as [Hi|[Hi|[]]]; [now apply (F1 e1 s1)|]. injection Hi as <- _. apply (He e s), in_or_app. right. now left.
        - split; [exact F2|]. rewrite accepted_snoc, processed_snoc. cbn [op_accepted op_length]. split.
          + apply Forall_app. split; [exact F3|]. constructor; [|constructor]. now rewrite Hl.
          + rewrite Hl. pose proof (sm_proc _ _ _ _ _ _ _ _ _ _ _ _ S). lia.
        - apply shared_known_snoc; [exact F5|]. intros; discriminate. }
      destruct (eager_updates fl L thr Rl W0 B Size N (zb z0) (ss_binv _ _ _ _ _ _ _ _ Z0) HB1 HS1 bops (zb z) e _ b'
        (sm_hist _ _ _ _ _ _ _ _ _ _ _ _ S) Hf' Eg Ha) as (H1 & _ & H3). now split.
    Qed.

    (** ** The minimum probability that update puts into the stream *)
    Lemma calm_minp ops z : rested fl L thr Rl (zb z0) -> shist fl z0 ops z -> normal fl N ops ->
      rmp (minp (bcur (zb z))) /\ forall q, zdict z = Some q -> q < length (bheap (zb z)).
    Proof.
      intros R0 Hs Hn. destruct (bounds ops Hn) as [HB1 HS1].
      destruct (sim_exists fl L ws0 syms0 z0 B Size N T0 Z0 HB HSz ops z Hs Hn) as [bops S].
      split; [|exact (sm_dict _ _ _ _ _ _ _ _ _ _ _ _ S)].
      exact (ca_minp _ _ _ _ _ _ _ (calm_hist fl L thr Rl W0 B Size N (zb z0) (ss_binv _ _ _ _ _ _ _ _ Z0) HB1 HS1 R0 bops (zb z)
        (sm_hist _ _ _ _ _ _ _ _ _ _ _ _ S) (sim_fine _ _ _ S Hn))).
    Qed.
    Record noted (k n : nat) (z : stream fl) : Prop := {
      no_pop : bpop (zb z) = Nat.even n;
      no_null : bres (zb z) = RNull <-> n < k;
      no_own : forall p st, bres (zb z) = ROwn p st -> rmp (minp st);
      no_unset : forall q, zdict z = Some q -> bres (zb z) = RNull -> zminp z = Some (fofZ fl (-1));
      no_set : forall q, zdict z = Some q -> bres (zb z) <> RNull -> q = result_ptr fl (zb z) -> exists m, zminp z = Some m /\ rmp m
    }.
    Lemma parse_minp d (st : sstat fl) s ids m d' st' : stat_parse fl d st s [] = Ok (ids, m, d', st') -> minp st' = minp st.
    Proof.
      intro H. unfold stat_parse in H. apply bind_ok in H as ([[o n'] d1] & Hp & H). apply bind_ok in H as (st2 & Hf & H).
      injection H as <- _ <- <-. cbn [minp]. now apply (fold_inv fl) in Hf as (_ & _ & _ & _ & _ & E & _).
    Qed.
    Lemma even_odd n : Nat.even (S n) = negb (Nat.even n).
    Proof. now rewrite Nat.even_succ, <- Nat.negb_even. Qed.
    Lemma noted_step k n z op z' : k = 0 \/ k = 2 -> noted k n z -> rmp (minp (bcur (zb z))) ->
      (forall q, zdict z = Some q -> q < length (bheap (zb z))) -> sstep fl z op z' ->
      noted k (if is_updated fl (zb z) (zb z') then S n else n) z'.
    Proof.
      intros Hk [H1 H2 H3 H4 H5] Hc Hq Hs. destruct op as [e s|s|]; cbn [sstep] in Hs.
      - unfold s_accept in Hs. destruct (encode (zcoder z) s) as [codes c]. apply bind_ok in Hs as (b' & Ha & Hs). injection Hs as <-. cbn [zb].
        apply (accept_cases fl) in Ha as (d & ids & m & d1 & st1 & Hd & Hp & [[_ ->]|(_ & ws & fs & mp & d' & st' & prob & best & turns & _ & _ & ->)]).
        + assert (E : is_updated fl (zb z) (parsed fl (zb z) d1 st1) = false) by (unfold is_updated, parsed; cbn [bheap]; rewrite upd_length; apply Nat.ltb_irrefl).
          rewrite E. split; cbn [zb zdict zminp]; unfold parsed, result_ptr; cbn [bpop bres bptr]; assumption.
        + set (b' := mkBuilder _ _ _ _ _ _ _ _ _ _).
          assert (E : is_updated fl (zb z) b' = true) by (unfold is_updated, b'; cbn [bheap]; rewrite app_length, upd_length; cbn [length]; apply Nat.ltb_lt; lia).
          rewrite E. clear E. apply parse_minp in Hp. unfold b'. split; cbn [zb zdict zminp]; unfold next_res, result_ptr; cbn [bpop bres bptr].
          * now rewrite even_odd, H1.
          * destruct (bpop (zb z)).
            -- assert (Hev : Nat.even n = true) by now symmetry. apply Nat.even_spec in Hev as [j ->].
               assert (Hkk : 2 * j < k <-> S (2 * j) < k) by lia. rewrite <- Hkk, <- H2. destruct (bres (zb z)); easy.
            -- assert (Hn0 : n <> 0) by (intros ->; discriminate H1). split; [discriminate|lia].
          * intros p st. destruct (bpop (zb z)); [|discriminate]. destruct (bres (zb z)) as [| |p0 st0] eqn:Er; [discriminate| |].
            -- intros [= <- <-]. now rewrite Hp.
            -- intros [= <- <-]. now apply (H3 p0 st0).
          * intros q Eq Hr. apply (H4 q Eq). destruct (bpop (zb z)); [|discriminate Hr]. now destruct (bres (zb z)).
          * intros q Eq Hr Ep. destruct (bpop (zb z)).
            -- apply (H5 q Eq); unfold result_ptr; destruct (bres (zb z)); easy.
            -- specialize (Hq q Eq). lia.
      - destruct Hs as [ids Hs]. unfold s_parse in Hs. apply bind_ok in Hs as (da & _ & Hs). apply bind_ok in Hs as ([p d] & _ & Hs).
        apply bind_ok in Hs as ([[i m] d'] & _ & Hs). injection Hs as _ <-. unfold put_dict.
        assert (E : is_updated fl (zb z) (hput fl (zb z) p d') = false) by (unfold is_updated, hput; cbn [bheap]; rewrite upd_length; apply Nat.ltb_irrefl).
        cbn [zb]. rewrite E. split; cbn [zb zdict zminp]; unfold hput, result_ptr; cbn [bpop bres bptr]; assumption.
      - assert (G : forall fs b, result_freqs fl (zb z) (zfreqs z) = Ok (fs, b) ->
          noted k (if is_updated fl (zb z) b then S n else n)
            (mkStream (zsize z) b (Some (result_ptr fl (zb z))) (zcoder z) fs (isum fs) (Some (get_min_probability fl b)))).
        { intros fs b Hf. unfold result_freqs in Hf. apply bind_ok in Hf as (d & _ & Hf).
          assert (E : is_updated fl (zb z) b = false) by (unfold is_updated; destruct (bres (zb z)); injection Hf as _ <-; cbn [bheap]; apply Nat.ltb_irrefl).
          rewrite E. clear E. destruct (bres (zb z)) as [| |p0 st0] eqn:Er; injection Hf as _ <-;
            (split; cbn [zb zdict zminp bpop bres bcur bptr get_min_probability grow_freqs minp]; [exact H1|rewrite ?Er; first [exact H2|split; [discriminate|intro X; apply H2 in X; discriminate X]]|..]); unfold get_min_probability; cbn [bres bcur]; rewrite ?Er.
          all: try (intros; discriminate). all: try (intros; congruence).
          - intros q _ _ _. exists (minp (bcur (zb z))). split; [reflexivity|exact Hc].
          - intros p st [= <- <-]. cbn [minp grow_freqs]. now apply (H3 p0 st0).
          - intros q _ _ _. exists (minp st0). split; [reflexivity|]. now apply (H3 p0 st0). }
        unfold s_update in Hs. destruct (zdict z) as [q|] eqn:Eq; [destruct (Nat.eqb q _)|].
        + injection Hs as <-. unfold is_updated. rewrite Nat.ltb_irrefl. now split; rewrite ?Eq.
        + apply bind_ok in Hs as ([fs b] & Hf & Hs). injection Hs as <-. now apply G.
        + apply bind_ok in Hs as ([fs b] & Hf & Hs). injection Hs as <-. now apply G.
    Qed.
    Lemma noted_hist k ops n z : k = 0 \/ k = 2 -> rested fl L thr Rl (zb z0) -> noted k 0 z0 -> rebuilt fl z0 ops n z -> normal fl N ops -> noted k n z.
    Proof.
      intros Hk R0 N0. induction 1 as [|ops n z op z' H IH Hs]; intro Hn; [exact N0|]. pose proof (normal_snoc fl _ _ _ Hn) as Hn0.
      destruct (calm_minp ops z R0 (rebuilt_hist _ _ _ _ H) Hn0) as [Hm Hq]. apply (noted_step k n z op z'); auto.
    Qed.
    Lemma update_notes k n z z' : noted k n z -> rmp (minp (bcur (zb z))) -> s_update fl z = Ok z' ->
      exists m, zminp z' = Some m /\ (n < k -> m = fofZ fl (-1)) /\ (k <= n -> rmp m).
    Proof.
      intros [H1 H2 H3 H4 H5] Hc Hs.
      assert (G : forall fs b, result_freqs fl (zb z) (zfreqs z) = Ok (fs, b) ->
        exists m, Some (get_min_probability fl b) = Some m /\ (n < k -> m = fofZ fl (-1)) /\ (k <= n -> rmp m)).
      { intros fs b Hf. unfold result_freqs in Hf. apply bind_ok in Hf as (d & _ & Hf). eexists. split; [reflexivity|].
        unfold get_min_probability. destruct (bres (zb z)) as [| |p0 st0] eqn:Er; injection Hf as _ <-; cbn [bres bcur grow_freqs minp]; rewrite ?Er.
        - assert (n < k) by now apply H2. split; [easy|lia].
        - split; [|intros _; exact Hc]. intro Hn. apply H2 in Hn. discriminate Hn.
        - split; [|intros _; now apply (H3 p0 st0)]. intro Hn. apply H2 in Hn. discriminate Hn. }
      unfold s_update in Hs. destruct (zdict z) as [q|] eqn:Eq; [destruct (Nat.eqb_spec q (result_ptr fl (zb z))) as [Ep|Ep]|].
      - injection Hs as <-. destruct (Nat.lt_ge_cases n k) as [Hlt|Hge].
        + exists (fofZ fl (-1)). split; [apply (H4 q eq_refl); now apply H2|]. split; [easy|lia].
        + destruct (H5 q eq_refl) as (m & Em & Hm); [intro Hr; apply H2 in Hr; lia|exact Ep|]. exists m. split; [exact Em|]. split; [lia|easy].
      - apply bind_ok in Hs as ([fs b] & Hf & Hs). injection Hs as <-. cbn [zminp]. now apply (G fs b).
      - apply bind_ok in Hs as ([fs b] & Hf & Hs). injection Hs as <-. cbn [zminp]. now apply (G fs b).
    Qed.
    Lemma saved_sim k ops n z z' : k = 0 \/ k = 2 -> rested fl L thr Rl (zb z0) -> noted k 0 z0 -> rebuilt fl z0 ops n z -> normal fl N ops -> s_update fl z = Ok z' ->
      exists m, zminp z' = Some m /\ (n < k -> m = fofZ fl (-1)) /\ (k <= n -> rmp m).
    Proof.
      intros Hk R0 N0 H Hn Hu. apply (update_notes k n z); [now apply (noted_hist k ops)| |exact Hu].
      exact (proj1 (calm_minp ops z R0 (rebuilt_hist _ _ _ _ H) Hn)).
    Qed.

    (** ** Words that stay until the second rebuild *)
    Definition holds (z : stream fl) (p : nat) : Prop := exists d, nth_error (bheap (zb z)) p = Some d /\ incl ws0 (seqs d).
    Record lasting (n : nat) (z : stream fl) : Prop := {
      la_pop : bpop (zb z) = Nat.even n;
      la_res : (n = 0 /\ bres (zb z) = RSame /\ bptr (zb z) = 0) \/ (exists st, bres (zb z) = ROwn 0 st) \/ 2 <= n;
      la_dict : zdict z = Some 0 \/ zdict z = Some 1 \/ 2 <= n;
      la_holds : holds z 0 /\ holds z 1
    }.
    Lemma upd_holds (h : list dict) q d' p d : nth_error h p = Some d -> incl ws0 (seqs d) -> (q = p -> incl ws0 (seqs d')) ->
      exists d2, nth_error (upd h q d') p = Some d2 /\ incl ws0 (seqs d2).
    Proof.
      intros H1 H2 H3. destruct (Nat.eq_dec q p) as [->|Hn].
      - exists d'. split; [apply upd_same; now apply nth_some_lt in H1|now apply H3].
      - exists d. split; [now rewrite upd_other|exact H2].
    Qed.
    Lemma parse_grows d s freqs total o m d' : wf_dict d -> parse_weighted fl d s freqs total [] = Ok (o, m, d') -> incl ws0 (seqs d) -> incl ws0 (seqs d').
    Proof.
      intros Hwf Hp Hi. destruct (parse_new _ _ _ _ _ _ _ _ _ Hwf Hp) as (_ & (cs & E) & _). rewrite E. intros w Hw. apply in_or_app. left. now apply Hi.
    Qed.
    Lemma lasting_step n z op z' : Forall wf_dict (bheap (zb z)) -> lasting n z -> sstep fl z op z' ->
      lasting (if is_updated fl (zb z) (zb z') then S n else n) z'.
    Proof.
      intros Hw [H1 H2 H3 [(d0 & E0 & I0) (d1 & E1 & I1)]] Hs. destruct op as [e s|s|]; cbn [sstep] in Hs.
      - unfold s_accept in Hs. destruct (encode (zcoder z) s) as [codes c]. apply bind_ok in Hs as (b' & Ha & Hs). injection Hs as <-. cbn [zb].
        apply (accept_cases fl) in Ha as (d & ids & m & dn & st1 & Hd & Hp & Hc). unfold stat_parse in Hp.
        apply bind_ok in Hp as ([[o q] d2] & Hpw & Hp). apply bind_ok in Hp as (st2 & _ & Hp). injection Hp as _ _ -> _.
        destruct (hget_in fl _ _ _ Hd) as [Hin _]. pose proof (proj1 (Forall_forall _ _) Hw d Hin) as Hwf. apply vget_ok in Hd.
        assert (K : forall p dp, nth_error (bheap (zb z)) p = Some dp -> incl ws0 (seqs dp) -> exists dq, nth_error (upd (bheap (zb z)) (bptr (zb z)) dn) p = Some dq /\ incl ws0 (seqs dq)).
        { intros p dp Ep Ip. apply (upd_holds _ _ _ p dp Ep Ip). intros <-. unfold hget in Hd. rewrite Hd in Ep. injection Ep as <-. now apply (parse_grows d _ _ _ _ _ _ Hwf Hpw). }
        destruct (K 0 d0 E0 I0) as (e0 & F0 & J0). destruct (K 1 d1 E1 I1) as (e1 & F1 & J1).
        destruct Hc as [[_ ->]|(_ & ws & fs & mp & d' & st' & prob & best & turns & _ & _ & ->)].
        + assert (E : is_updated fl (zb z) (parsed fl (zb z) dn st1) = false) by (unfold is_updated, parsed; cbn [bheap]; rewrite upd_length; apply Nat.ltb_irrefl).
          rewrite E. split; unfold holds, parsed; cbn [zb zdict bpop bres bptr bheap]; try assumption. split; [now exists e0|now exists e1].
        + set (b' := mkBuilder _ _ _ _ _ _ _ _ _ _).
          assert (E : is_updated fl (zb z) b' = true) by (unfold is_updated, b'; cbn [bheap]; rewrite app_length, upd_length; cbn [length]; apply Nat.ltb_lt; lia).
          rewrite E. clear E. unfold b'. split; unfold holds; cbn [zb zdict bpop bres bptr bheap].
          * now rewrite even_odd, H1.
          * destruct H2 as [(-> & Hr & Hb)|[[st Hr]|Hn]]; [| |right; right; lia].
            -- cbn in H1. right. left. exists st1. unfold next_res. now rewrite H1, Hr, Hb.
            -- destruct n as [|n]; [|right; right; lia]. cbn in H1. right. left. exists st. unfold next_res. now rewrite H1, Hr.
          * destruct H3 as [H3|[H3|H3]]; [now left|right; now left|right; right; lia].
          * split; [exists e0|exists e1]; (split; [|assumption]); rewrite nth_error_app1; auto; now apply nth_some_lt in F0, F1.
      - destruct Hs as [ids Hs]. unfold s_parse in Hs. apply bind_ok in Hs as (da & _ & Hs). apply bind_ok in Hs as ([p d] & Ht & Hs).
        apply bind_ok in Hs as ([[i m] d'] & Hpw & Hs). injection Hs as _ <-. unfold put_dict.
        assert (E : is_updated fl (zb z) (hput fl (zb z) p d') = false) by (unfold is_updated, hput; cbn [bheap]; rewrite upd_length; apply Nat.ltb_irrefl).
        unfold the_dict in Ht. destruct (zdict z) as [p'|] eqn:Ep; [|discriminate Ht]. apply bind_ok in Ht as (d2 & Hd & Ht). injection Ht as -> ->.
        destruct (hget_in fl _ _ _ Hd) as [Hin _]. pose proof (proj1 (Forall_forall _ _) Hw d Hin) as Hwf. apply vget_ok in Hd.
        cbn [zb]. rewrite E. split; unfold holds, hput; cbn [zb zdict bpop bres bptr bheap]; rewrite ?Ep; try assumption.
        assert (K : forall r dp, nth_error (bheap (zb z)) r = Some dp -> incl ws0 (seqs dp) -> exists dq, nth_error (upd (bheap (zb z)) p d') r = Some dq /\ incl ws0 (seqs dq)).
        { intros r dp Er Ip. apply (upd_holds _ _ _ r dp Er Ip). intros <-. rewrite Hd in Er. injection Er as <-. now apply (parse_grows d _ _ _ _ _ _ Hwf Hpw). }
        split; [now apply (K 0 d0)|now apply (K 1 d1)].
      - assert (G : forall fs b, result_freqs fl (zb z) (zfreqs z) = Ok (fs, b) ->
          lasting (if is_updated fl (zb z) b then S n else n)
            (mkStream (zsize z) b (Some (result_ptr fl (zb z))) (zcoder z) fs (isum fs) (Some (get_min_probability fl b)))).
        { intros fs b Hf. unfold result_freqs in Hf. apply bind_ok in Hf as (d & _ & Hf).
          assert (E : is_updated fl (zb z) b = false) by (unfold is_updated; destruct (bres (zb z)); injection Hf as _ <-; cbn [bheap]; apply Nat.ltb_irrefl).
          rewrite E. clear E. assert (Hh : bheap b = bheap (zb z) /\ bpop b = bpop (zb z) /\ bptr b = bptr (zb z)) by (destruct (bres (zb z)); now injection Hf as _ <-).
          destruct Hh as (Eh & Epo & Ept). split; unfold holds; cbn [zb zdict]; rewrite ?Eh, ?Epo, ?Ept; [exact H1| | |split; [now exists d0|now exists d1]].
          - destruct H2 as [(-> & Hr & Hb)|[[st Hr]|Hn]]; [| |right; right; lia]; rewrite Hr in Hf; injection Hf as _ <-; cbn [bres].
            + left. now rewrite ?Hr.
            + right. left. now eexists.
          - destruct H2 as [(-> & Hr & Hb)|[[st Hr]|Hn]]; [| |right; right; lia]; unfold result_ptr; rewrite Hr, ?Hb; now left. }
        unfold s_update in Hs. destruct (zdict z) as [q|] eqn:Eq; [destruct (Nat.eqb q _)|].
        + injection Hs as <-. unfold is_updated. rewrite Nat.ltb_irrefl. split; rewrite ?Eq; try assumption. split; [now exists d0|now exists d1].
        + apply bind_ok in Hs as ([fs b] & Hf & Hs). injection Hs as <-. now apply G.
        + apply bind_ok in Hs as ([fs b] & Hf & Hs). injection Hs as <-. now apply G.
    Qed.
    Lemma heap_wf ops z : shist fl z0 ops z -> normal fl N ops -> Forall wf_dict (bheap (zb z)).
    Proof.
      intros Hs Hn. destruct (sim_exists fl L ws0 syms0 z0 B Size N T0 Z0 HB HSz ops z Hs Hn) as [bops S].
      eapply Forall_impl; [|exact (bi_heap _ _ _ _ _ _ _ (sm_binv _ _ _ _ _ _ _ _ _ _ _ _ S))]. now intros d (Hwf & _).
    Qed.
    Lemma lasting_hist ops n z : lasting 0 z0 -> rebuilt fl z0 ops n z -> normal fl N ops -> lasting n z.
    Proof.
      intros N0. induction 1 as [|ops n z op z' H IH Hs]; intro Hn; [exact N0|]. pose proof (normal_snoc fl _ _ _ Hn) as Hn0.
      apply (lasting_step n z op z'); auto. exact (heap_wf ops z (rebuilt_hist _ _ _ _ H) Hn0).
    Qed.
    Lemma kept_sim ops n z al : lasting 0 z0 -> rebuilt fl z0 ops n z -> normal fl N ops -> n < 2 -> s_alphabet fl z = Ok al ->
      incl (map (decw syms0) ws0) al.
    Proof.
      intros N0 H Hn Hlt Hal. pose proof (lasting_hist ops n z N0 H Hn) as [_ _ Hd [(d0 & E0 & I0) (d1 & E1 & I1)]].
      destruct (sim_exists fl L ws0 syms0 z0 B Size N T0 Z0 HB HSz ops z (rebuilt_hist _ _ _ _ H) Hn) as [bops S].
      assert (K : exists p d, zdict z = Some p /\ hget fl (zb z) p = Ok d /\ incl ws0 (seqs d)).
      { destruct Hd as [Hd|[Hd|Hd]]; [exists 0, d0|exists 1, d1|lia]; (split; [exact Hd|]); (split; [now apply vget_some|assumption]). }
      destruct K as (p & d & Ep & Hg & Hi). rewrite (alphabet_is fl L ws0 syms0 z0 B Size N T0 Z0 ops z bops p d S Ep Hg) in Hal. injection Hal as <-.
      intros v Hv. apply in_map_iff in Hv as (w & <- & Hw). apply in_map_iff. exists w. split; [|now apply Hi].
      unfold symbols_of. destruct (CoderProofs.adds_ext (seen fl ops) syms0) as [r ->]. unfold decw. apply map_ext_in. intros c Hc.
      pose proof (ss_range _ _ _ _ _ _ _ _ Z0 w Hw c Hc). rewrite app_nth1; [easy|lia].
    Qed.
  End Sim.

  (** ** New streams *)
  Lemma fresh_rested size : rested fl L thr Rl (zb (new_stream fl size)).
  Proof. split; [exact (rp_start _ _ _ Rl)|]. split; [exact (rm_start _ _ _ Rl)|]. now split. Qed.
  Lemma fresh_short size : short fl 0 (zb (new_stream fl size)).
  Proof. split; [reflexivity|]. constructor; [|constructor]. intros w []. Qed.
  Lemma fresh_noted size : noted 2 0 (new_stream fl size).
  Proof. split; cbn; try easy. split; [lia|easy]. Qed.
  Lemma fresh_count size N ops n z : rebuilt fl (new_stream fl size) ops n z -> normal fl N ops -> (thr * Z.of_nat n <= Z.of_nat (length (seen fl ops)))%Z.
  Proof.
    intros H Hn. exact (count_sim [] [] _ _ 0 N 0 (fresh_start fl L size N (normal_N fl _ _ Hn)) eq_refl size0 ops n z (fresh_rested size) H Hn).
  Qed.
  Lemma fresh_length size N ops z al w k : shist fl (new_stream fl size) ops z -> normal fl N ops -> s_alphabet fl z = Ok al -> In w al -> 2 ^ k < length w ->
    (thr * (2 * Z.of_nat k + 1) <= Z.of_nat (length (seen fl ops)))%Z.
  Proof.
    intros H Hn Hal Hw Hk. destruct (rebuilt_exists _ _ _ H) as [n Hr]. pose proof (fresh_count size N ops n z Hr Hn) as Hc.
    pose proof (short_sim [] [] _ _ 0 N 0 (fresh_start fl L size N (normal_N fl _ _ Hn)) eq_refl size0 ops n z al w (fresh_short size) Hr Hn Hal Hw) as Hl.
    assert (Hd : k < Nat.div2 (S n)) by (apply (Nat.pow_lt_mono_r_iff 2); lia).
    assert (Hn2 : 2 * k + 1 <= n). { pose proof (Nat.div2_odd (S n)) as E. destruct (Nat.odd (S n)); cbn [Nat.b2n] in E; lia. }
    pose proof (thr_pos _ _ _ Rl). nia.
  Qed.
  Lemma fresh_saved_minp size N ops n z z' : rebuilt fl (new_stream fl size) ops n z -> normal fl N ops -> s_update fl z = Ok z' ->
    exists m, zminp z' = Some m /\ (n < 2 -> m = fofZ fl (-1)) /\ (2 <= n -> rmp m).
  Proof.
    intros H Hn Hu. exact (saved_sim [] [] _ _ 0 N 0 (fresh_start fl L size N (normal_N fl _ _ Hn)) eq_refl size0 2 ops n z z' (or_intror eq_refl)
      (fresh_rested size) (fresh_noted size) H Hn Hu).
  Qed.
  Lemma fresh_early_minp size N ops z z' : shist fl (new_stream fl size) ops z -> normal fl N ops -> (Z.of_nat (length (seen fl ops)) < 2 * thr)%Z ->
    s_update fl z = Ok z' -> zminp z' = Some (fofZ fl (-1)).
  Proof.
    intros H Hn Hl Hu. destruct (rebuilt_exists _ _ _ H) as [n Hr]. pose proof (fresh_count size N ops n z Hr Hn) as Hc. pose proof (thr_pos _ _ _ Rl).
    destruct (fresh_saved_minp size N ops n z z' Hr Hn Hu) as (m & Em & Hm & _). rewrite Em. f_equal. apply Hm. nia.
  Qed.
  Lemma fresh_nothing size N ops z e : shist fl (new_stream fl size) ops z -> normal fl N ops -> s_accept fl e z [] = Ok z.
  Proof.
    intros H Hn. exact (nothing_sim [] [] _ _ 0 N 0 (fresh_start fl L size N (normal_N fl _ _ Hn)) eq_refl size0 ops z e (fresh_rested size) H Hn).
  Qed.

  (** ** Fitting *)
  Lemma seen_app a b : seen fl (a ++ b) = seen fl a ++ seen fl b.
  Proof. unfold seen, fed. now rewrite flat_map_app, concat_app. Qed.
  Lemma draws_seen w xs M ks : (forall x : seq, In x xs -> (Z.of_nat (length x) <= M)%Z) -> (0 <= M)%Z ->
    (Z.of_nat (length (seen fl (map (draw fl w xs) ks))) <= Z.of_nat (length ks) * M)%Z.
  Proof.
    intros Hx HM. induction ks as [|k ks IH]; [cbn; lia|]. cbn [map]. unfold seen, fed in *. cbn [flat_map draw op_fed app concat]. rewrite app_length.
    assert (Hd : (Z.of_nat (length (drawn fl w xs k)) <= M)%Z).
    { unfold drawn. destruct (nth_in_or_default (Z.to_nat (w_rand w k mod Z.of_nat (length xs))) xs []) as [Hi| ->]; [now apply Hx|cbn; lia]. }
    cbn [length]. unfold seq in *. lia.
  Qed.
  Lemma sampling_seen w xs M n : (forall x : seq, In x xs -> (Z.of_nat (length x) <= M)%Z) -> (0 <= M)%Z ->
    (Z.of_nat (length (seen fl (sampling fl w xs n))) <= Z.of_nat n * Z.of_nat (length xs) * M)%Z.
  Proof.
    intros Hx HM. unfold sampling. rewrite <- (seq_length n 0) at 2. induction (List.seq 0 n) as [|i l IH]; [cbn; lia|].
    cbn [flat_map]. rewrite seen_app, app_length. unfold round at 1. rewrite seen_app, app_length.
    pose proof (draws_seen w xs M (List.seq (i * length xs) (length xs)) Hx HM) as Hd. rewrite seq_length in Hd.
    assert (E : length (seen fl [SUpdate]) = 0) by reflexivity. rewrite E. cbn [length]. unfold seq in *. lia.
  Qed.
  Lemma fit_length size N w iter xs ops al M v' : good_fit fl size N [] w (new_vgram fl size iter) xs ops al ->
    (forall x : seq, In x xs -> (Z.of_nat (length x) <= M)%Z) -> (0 <= M)%Z -> fit fl w (new_vgram fl size iter) xs = Ok (true, v') ->
    s_alphabet fl (vs v') = Ok al /\ forall u k, In u al -> 2 ^ k < length u -> (thr * (2 * Z.of_nat k + 1) <= iter * Z.of_nat (length xs) * M)%Z.
  Proof.
    intros G Hx HM Hf. destruct (fit_counts fl L _ _ _ _ _ _ _ _ G) as (v1 & E1 & _ & Ha & _). rewrite Hf in E1. injection E1 as <-. split; [exact Ha|].
    destruct G as (_ & Hit & -> & _ & _ & Hn & _ & (z & H & Hal) & _). cbn [viter new_vgram app] in *. intros u k Hu Hk.
    pose proof (fresh_length size N _ z al u k H Hn Hal Hu Hk) as Hl. pose proof (sampling_seen w xs M (Z.to_nat iter) Hx HM) as Hs. rewrite Z2Nat.id in Hs by lia. lia.
  Qed.

  (** ** Loaded streams *)
  Lemma shist_split z0 a b z : shist fl z0 (a ++ b) z -> exists z1, shist fl z0 a z1 /\ shist fl z1 b z.
  Proof.
    revert z. induction b as [|op b IH] using rev_ind; intros z H; [rewrite app_nil_r in H; exists z; split; [exact H|constructor]|].
    rewrite app_assoc in H. inversion H as [E|ops z2 op' z' H2 Hs E]; [now destruct (a ++ b)|].
    apply app_inj_tail in E as [-> ->]. subst z'. destruct (IH _ H2) as (z1 & H3 & H4). exists z1. split; [exact H3|]. now apply (sh_step fl z1 b z2).
  Qed.
  Lemma shist_one z0 op z : shist fl z0 [op] z -> sstep fl z0 op z.
  Proof.
    intro H. inversion H as [|ops z2 op' z' H2 Hs E]. assert (E' : ops = [] /\ op' = op) by (apply (app_inj_tail ops [] op' op); exact E). destruct E' as [-> ->].
    inversion H2 as [E2|? ? ? ? ? ? E2]; [now subst|]. exfalso. symmetry in E2. now apply app_cons_not_nil in E2.
  Qed.
  Section Loaded.
    Context (N : Z) (syms : list Z) (c : coder) (freqs : list Z) (ws : list seq) (size : Z) (mp : F fl) (z0 : stream fl).
    Context (HN : (0 <= N <= 2 ^ 40)%Z) (HL : loadable fl N syms c freqs ws mp) (E0 : loaded_stream fl c freqs ws size mp = Ok z0).
    Let Z0 := loaded_start fl L N syms c freqs ws size mp z0 HN HL E0.
    Let S0 := loaded_size fl N syms c freqs ws mp HL.
    Lemma loaded_rested : rmp mp -> rested fl L thr Rl (zb z0).
    Proof.
      intro Hm. destruct (loaded_parts fl L N syms c freqs ws size mp z0 HN HL E0) as (d & d' & st & _ & _ & _ & Em & -> & _). cbn [zb].
      destruct (mk_stat_ok fl (isort ws) mp (Some freqs)) as (d2 & st2 & E2 & _ & _ & _ & _ & _ & H1 & _ & _ & H2 & H3). rewrite Em in E2. injection E2 as <- <-.
      split; [exact (rp_start _ _ _ Rl)|]. cbn [bcur]. rewrite H1, H2, H3. split; [exact Hm|]. now split.
    Qed.
    Lemma loaded_eager : mp = fofZ fl (-1) -> eager fl L thr Rl (zb z0).
    Proof.
      intro Hm. destruct (loaded_parts fl L N syms c freqs ws size mp z0 HN HL E0) as (d & d' & st & _ & _ & _ & Em & -> & _). cbn [zb].
      destruct (mk_stat_ok fl (isort ws) mp (Some freqs)) as (d2 & st2 & E2 & _ & _ & _ & _ & _ & _ & _ & _ & H2 & _). rewrite Em in E2. injection E2 as <- <-.
      split; [exact (rp_start _ _ _ Rl)|]. cbn [bcur]. now rewrite H2.
    Qed.
    Lemma loaded_noted : noted 0 0 z0.
    Proof.
      destruct (loaded_parts fl L N syms c freqs ws size mp z0 HN HL E0) as (d & d' & st & _ & _ & _ & _ & -> & _).
      split; unfold result_ptr; cbn; try easy. intros q [= <-] _ E. discriminate E.
    Qed.
    Lemma loaded_lasting : lasting (isort ws) 0 z0.
    Proof.
      destruct (loaded_parts fl L N syms c freqs ws size mp z0 HN HL E0) as (d & d' & st & _ & Hs & _ & Em & -> & _).
      destruct (mk_stat_ok fl (isort ws) mp (Some freqs)) as (d2 & st2 & E2 & _ & Hd2 & _). rewrite Em in E2. injection E2 as <- <-.
      split; cbn [zb bpop bres bptr zdict]; [reflexivity|now left|right; now left|]. split.
      - exists d'. split; [reflexivity|]. rewrite Hd2. intros w Hw. now apply isort_in.
      - exists d. split; [reflexivity|]. rewrite Hs. apply incl_refl.
    Qed.
    Lemma loaded_count ops n z : rmp mp -> rebuilt fl z0 ops n z -> normal fl N ops -> (thr * Z.of_nat n <= Z.of_nat (length (seen fl ops)))%Z.
    Proof. intros Hm H Hn. exact (count_sim _ _ _ _ _ N _ Z0 eq_refl S0 ops n z (loaded_rested Hm) H Hn). Qed.
    Lemma loaded_nothing ops z e : rmp mp -> shist fl z0 ops z -> normal fl N ops -> s_accept fl e z [] = Ok z.
    Proof. intros Hm H Hn. exact (nothing_sim _ _ _ _ _ N _ Z0 eq_refl S0 ops z e (loaded_rested Hm) H Hn). Qed.
    Lemma loaded_saved_minp ops z z' : rmp mp -> shist fl z0 ops z -> normal fl N ops -> s_update fl z = Ok z' -> exists m, zminp z' = Some m /\ rmp m.
    Proof.
      intros Hm H Hn Hu. destruct (rebuilt_exists _ _ _ H) as [n Hr].
      destruct (saved_sim _ _ _ _ _ N _ Z0 eq_refl S0 0 ops n z z' (or_introl eq_refl) (loaded_rested Hm) loaded_noted Hr Hn Hu) as (m & Em & _ & Hg).
      exists m. split; [exact Em|]. apply Hg. lia.
    Qed.
    (** The words that alphabet() shows at first. *)
    Lemma loaded_shows : s_alphabet fl z0 = Ok (map (decw syms) (isort ws)).
    Proof.
      destruct (loaded_parts fl L N syms c freqs ws size mp z0 HN HL E0) as (d & d' & st & _ & Hs & _ & _ & Ez & _).
      assert (Hn : normal fl N []). { split; [intros e s []|]. split; [exact HN|]. split; [constructor|]. cbn. lia. }
      destruct (sim_exists fl L _ _ _ _ _ N _ Z0 eq_refl S0 [] z0 (sh_nil _ _) Hn) as [bops S].
      rewrite (alphabet_is fl L _ _ _ _ _ N _ Z0 [] z0 bops 1 d S); [|now rewrite Ez|now rewrite Ez]. now rewrite Hs.
    Qed.
    Lemma loaded_kept ops z al0 al : rmp mp -> shist fl z0 ops z -> normal fl N ops -> (Z.of_nat (length (seen fl ops)) < 2 * thr)%Z ->
      s_alphabet fl z0 = Ok al0 -> s_alphabet fl z = Ok al -> incl al0 al.
    Proof.
      intros Hm H Hn Hl Ha0 Ha. rewrite loaded_shows in Ha0. injection Ha0 as <-. destruct (rebuilt_exists _ _ _ H) as [n Hr].
      pose proof (loaded_count ops n z Hm Hr Hn) as Hc. pose proof (thr_pos _ _ _ Rl).
      apply (kept_sim _ _ _ _ _ N _ Z0 eq_refl S0 ops n z al loaded_lasting Hr Hn); [nia|exact Ha].
    Qed.
    Lemma loaded_always ops z e s z' : mp = fofZ fl (-1) -> shist fl z0 ops z -> normal fl N (ops ++ [SAccept e s]) -> s_accept fl e z s = Ok z' ->
      updated fl (zb z) (zb z') /\ bpop (zb z') = negb (bpop (zb z)).
    Proof. intros Hm H Hn Ha. exact (eager_sim _ _ _ _ _ N _ Z0 eq_refl S0 ops z e s z' (loaded_eager Hm) H Hn Ha). Qed.
    Lemma loaded_flips ops z : mp = fofZ fl (-1) -> shist fl z0 ops z -> normal fl N ops -> bpop (zb z) = Nat.even (length (fed fl ops)).
    Proof.
      intro Hm. induction 1 as [|ops z op z' H IH Hs]; intro Hn.
      - destruct (loaded_parts fl L N syms c freqs ws size mp z0 HN HL E0) as (d & d' & st & _ & _ & _ & _ & -> & _). reflexivity.
      - specialize (IH (normal_snoc fl _ _ _ Hn)). rewrite fed_snoc, app_length. destruct op as [e s|s|]; cbn [op_fed length].
        + destruct (loaded_always ops z e s z' Hm H Hn Hs) as [_ ->]. rewrite IH, Nat.add_1_r. now rewrite even_odd.
        + rewrite Nat.add_0_r, <- IH. destruct Hs as [ids Hs]. unfold s_parse in Hs. apply bind_ok in Hs as (da & _ & Hs). apply bind_ok in Hs as ([p d] & _ & Hs).
          apply bind_ok in Hs as ([[i m] d'] & _ & Hs). now injection Hs as _ <-.
        + rewrite Nat.add_0_r, <- IH. cbn [sstep] in Hs.
          assert (K : forall fs b, result_freqs fl (zb z) (zfreqs z) = Ok (fs, b) -> bpop b = bpop (zb z)).
          { intros fs b Hf. unfold result_freqs in Hf. apply bind_ok in Hf as (d & _ & Hf). destruct (bres (zb z)); now injection Hf as _ <-. }
          unfold s_update in Hs. destruct (zdict z) as [q|]; [destruct (Nat.eqb q _); [now injection Hs as <-|]|];
            apply bind_ok in Hs as ([fs b] & Hf & Hs); injection Hs as <-; cbn [zb]; now apply (K fs).
    Qed.
    Lemma second_accept : forall ops : list (sop fl), 2 <= length (fed fl ops) -> exists a e s b, ops = a ++ SAccept e s :: b /\ length (fed fl a) = 1.
    Proof.
      induction ops as [|op ops IH] using rev_ind; [cbn; lia|]. rewrite fed_snoc, app_length. intro Hl.
      destruct (le_lt_dec 2 (length (fed fl ops))) as [Hg|Hg].
      - destruct (IH Hg) as (a & e & s & b & -> & Ha). exists a, e, s, (b ++ [op]). split; [now rewrite <- app_assoc|exact Ha].
      - destruct op as [e s|s|]; cbn [op_fed length] in Hl; try lia. exists ops, e, s, []. split; [easy|lia].
    Qed.
    Lemma loaded_broken ops z z' al : mp = fofZ fl (-1) -> shist fl z0 ops z -> 2 <= length (fed fl ops) -> normal fl N (ops ++ [SUpdate]) -> roomy_loaded fl syms ws ops ->
      s_update fl z = Ok z' -> s_alphabet fl z' = Ok al -> Forall (fun w : seq => length w = 1) al.
    Proof.
      intros Hm H H2 Hn Hr Hu Hal. destruct (second_accept ops H2) as (a & e & s & b & -> & Ha).
      assert (Hn' : normal fl N (a ++ [SAccept e s])).
      { assert (P : forall x y, normal fl N (x ++ y) -> normal fl N x).
        { intros x y. induction y as [|o y IH] using rev_ind; [now rewrite app_nil_r|]. rewrite app_assoc. intro Hx. apply IH. exact (normal_snoc fl _ _ _ Hx). }
        apply (P _ (b ++ [SUpdate])). rewrite <- app_assoc in *. exact Hn. }
      destruct (shist_split z0 a (SAccept e s :: b) z H) as (z1 & H1 & H3). destruct (shist_split z1 [SAccept e s] b z H3) as (z2 & H4 & H5). apply shist_one in H4.
      cbn [sstep] in H4. destruct (loaded_always a z1 e s z2 Hm H1 Hn' H4) as [Hup _].
      apply (loaded_forgets fl L N syms c freqs ws size mp z0 HN HL E0 a z1 e s z2 b z z' al H1 H4); try assumption.
      - split; [exact Hup|]. rewrite (loaded_flips a z1 Hm H1 (normal_snoc fl _ _ _ Hn')), Ha. reflexivity.
      - rewrite <- app_assoc in Hn. exact Hn.
    Qed.
  End Loaded.
End L.
