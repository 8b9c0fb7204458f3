(** Proofs for C86: a text object is an integer object fed with numbered tokens. *)
From Verif Require Import Base Spec FloatOps Maps ModelDict ModelCoder ModelTok ModelStat ModelBuilder ModelStream ModelVGram ModelString
  SpecTok SpecStat SpecBuilder DictProofs TokProofs StreamProofs StringProofs PropsStringLemmas TextPersist RenameProofs SharedProofs
  SpecStream SpecVGram SpecExtra SpecString SpecOwn.
Local Open Scope Z_scope.

Section Own.
  Context (k : tok_kind) (num : text -> Z) (Hnum : numbering k num).

  (** A tokenizer that has seen nothing but texts. *)
  Definition pure (T : tokenizer) : Prop :=
    tok_ok T /\ tkind T = k /\ forall w i, mfind seq_eqb (tfwd T) w = Some i -> exists s, token_in k [s] w.
  Lemma pure_new : pure (new_tok k).
  Proof. split; [apply tok_ok_new|]. split; [reflexivity|]. intros w i H. discriminate H. Qed.
  Lemma pure_all xs T ids T' : pure T -> tok_transform_all true T xs = Ok (ids, T') -> pure T'.
  Proof.
    intros (H1 & H2 & H3) E. destruct (all_keep xs _ _ _ H1 E) as (K1 & K2 & K3). split; [exact K1|]. split; [congruence|].
    intros w i Hw. destruct (transform_all_only xs _ _ _ H1 E w i Hw) as [G|(s & ws & _ & G1 & G2)]; [exact (H3 w i G)|].
    exists s, s, ws. rewrite <- H2. split; [now left|easy].
  Qed.

  (** ** The renaming from the ids of [T] to the numbers *)
  Definition span (T : tokenizer) : Z := fold_right (fun p m => Z.max (Z.abs (num (snd p)) + 1) m) 0 (tbwd T).
  Definition nren (T : tokenizer) (x : Z) : Z :=
    match mfind Z.eqb (tbwd T) x with Some w => num w | None => if x <? 0 then x - span T else x + span T end.
  Lemma span_in T x w : mfind Z.eqb (tbwd T) x = Some w -> Z.abs (num w) < span T.
  Proof.
    unfold span. induction (tbwd T) as [|[y u] m IH]; cbn [mfind fold_right snd]; [discriminate|].
    destruct (Z.eqb x y); [intros [= <-]; lia|]. intro H. specialize (IH H). lia.
  Qed.
  Lemma span_nonneg T : 0 <= span T.
  Proof. unfold span. induction (tbwd T) as [|p m IH]; cbn [fold_right]; lia. Qed.
  Lemma nren_inj T : pure T -> forall x y, nren T x = nren T y -> x = y.
  Proof.
    intros (H1 & H2 & H3) x y E. pose proof (span_nonneg T) as Hs. unfold nren in E. destruct H1 as (_ & H1 & H4).
    assert (N : forall z, mfind Z.eqb (tbwd T) z = None -> z < 0 \/ 0 <= z) by (intros; lia).
    destruct (mfind Z.eqb (tbwd T) x) as [w|] eqn:Ex, (mfind Z.eqb (tbwd T) y) as [u|] eqn:Ey.
    - pose proof (proj2 (H1 w x) Ex) as Hw. pose proof (proj2 (H1 u y) Ey) as Hu.
      destruct (H3 _ _ Hw) as (s & Is). destruct (H3 _ _ Hu) as (s' & Is'). assert (w = u) as -> by exact (Hnum s s' w u Is Is' E). congruence.
    - pose proof (span_in _ _ _ Ex). destruct (Z.ltb_spec y 0); lia.
    - pose proof (span_in _ _ _ Ey). destruct (Z.ltb_spec x 0); lia.
    - destruct (Z.ltb_spec x 0), (Z.ltb_spec y 0); lia.
  Qed.
  Lemma nren_word T w x : tok_ok T -> mfind seq_eqb (tfwd T) w = Some x -> nren T x = num w.
  Proof. intros (_ & H1 & _) Hx. unfold nren. apply H1 in Hx. now rewrite Hx. Qed.
  Lemma nren_coded T ws ids : tok_ok T -> coded T ws ids -> map (nren T) ids = map num ws.
  Proof. intros HT H. induction H as [|w i ws ids Hw H IH]; [reflexivity|]. cbn [map]. rewrite IH, (nren_word T w i HT Hw). reflexivity. Qed.

  Lemma known_words T ids : tok_ok T -> Forall (known T) ids -> exists ws, coded T ws ids /\ tok_decode T ids = concat ws.
  Proof.
    intros HT H. induction H as [|i ids [w Hw] H (ws & IH1 & IH2)]; [exists []; split; constructor|]. exists (w :: ws). split; [constructor; [exact Hw|exact IH1]|].
    cbn [tok_decode concat]. destruct HT as (_ & HT & _). apply HT in Hw. now rewrite Hw, IH2.
  Qed.
  Lemma known_all T l : tok_ok T -> Forall (Forall (known T)) l ->
    exists ws, Forall2 (coded T) ws l /\ tok_decode_all T l = map (@concat Z) ws.
  Proof.
    intros HT H. unfold tok_decode_all. induction H as [|v l Hv H (ws & IH1 & IH2)]; [exists []; split; constructor|].
    destruct (known_words T v HT Hv) as (us & U1 & U2). exists (us :: ws). split; [constructor; [exact U1|exact IH1]|]. cbn [map]. now rewrite U2, IH2.
  Qed.
  Lemma coded_all_map T T1 ws l : tok_ok T1 -> tok_ext T T1 -> Forall2 (coded T) ws l -> map (map (nren T1)) l = map (map num) ws.
  Proof.
    intros HT X H. induction H as [|us v ws l Hu H IH]; [reflexivity|]. cbn [map]. rewrite IH. f_equal. apply nren_coded; [exact HT|]. exact (coded_ext _ _ _ _ X Hu).
  Qed.

  (** ** A batch of texts *)
  Lemma batch xs T ids T' qs T1 : pure T -> tok_transform_all true T xs = Ok (ids, T') -> Forall2 (numbers k num) xs qs -> tok_ok T1 -> tok_ext T' T1 ->
    qs = map (map (nren T1)) ids /\ Forall (Forall (known T')) ids.
  Proof.
    intros (H1 & H2 & H3) E Hq HT1 X. destruct (transform_all_coded xs _ _ _ H1 E) as (_ & _ & Hc). rewrite H2 in Hc. clear E.
    revert qs Hq. induction Hc as [|s v xs ids (ws & C1 & C2) Hc IH]; intros qs Hq; inversion Hq as [|? q ? qs' (ws' & D1 & ->) Hq']; subst; [split; constructor|].
    destruct (IH _ Hq') as [-> I2]. rewrite (tokens_fun _ _ _ _ D1 C1). cbn [map]. split.
    - f_equal. symmetry. apply nren_coded; [exact HT1|]. exact (coded_ext _ _ _ _ X C2).
    - constructor; [exact (coded_known _ _ _ C2)|exact I2].
  Qed.

  Section Fl.
    Context (fl : fops).

    (** ** StringVGram and IntVGram *)
    Definition vpair (v : tvgram fl) (v' : vgram fl) : Prop :=
      pure (tvtok v) /\ zsyms fl (known (tvtok v)) (vs (tv v)) /\
      forall T1, pure T1 -> tok_ext (tvtok v) T1 -> vren (nren T1) fl (tv v) v'.
    Lemma vpair_new size iter : vpair (new_tvgram_with fl size iter (new_tok k)) (new_vgram fl size iter).
    Proof. split; [exact pure_new|]. split; [intros c x H; discriminate H|]. intros T1 _ _. apply vren_new. Qed.

    Lemma zsyms_ext T T' z : tok_ext T T' -> zsyms fl (known T) z -> zsyms fl (known T') z.
    Proof. intros X. apply (csyms_ext T T' _ X). Qed.

    Lemma vpair_fit w v v' xs qs ids T' : vpair v v' -> Forall2 (numbers k num) xs qs -> tok_transform_all true (tvtok v) xs = Ok (ids, T') ->
      alike (fun a b => vpair a (snd b)) (tv_fit fl true w v xs) (fit fl w v' qs).
    Proof.
      intros (HP & HS & HR) Hq E. pose proof (pure_all _ _ _ _ HP E) as HP'. destruct (all_keep xs _ _ _ (proj1 HP) E) as (_ & X & _).
      destruct (batch xs _ _ _ qs T' HP E Hq (proj1 HP') (tok_ext_refl _)) as [Eq Hk]. unfold tv_fit. rewrite E. cbn [bind].
      pose proof (vren_fit (nren T') (nren_inj T' HP') fl w (tv v) v' ids (HR T' HP' X)) as A. rewrite <- Eq in A.
      destruct (fit fl w (tv v) ids) as [[dn y]| | |] eqn:E1, (fit fl w v' qs) as [[dn' y']| | |] eqn:E2; cbn in A |- *; try easy.
      split; [exact HP'|]. split; [exact (zsyms_fit fl _ w _ _ _ _ Hk (zsyms_ext _ _ _ X HS) E1)|]. cbn [tvtok tv]. intros T1 H1 X1.
      destruct (batch xs _ _ _ qs T1 HP E Hq (proj1 H1) X1) as [Eq1 _].
      pose proof (vren_fit (nren T1) (nren_inj T1 H1) fl w (tv v) v' ids (HR T1 H1 (tok_ext_trans _ _ _ X X1))) as B. rewrite <- Eq1, E1, E2 in B. apply B.
    Qed.

    Lemma alphabet_words T z z' T1 : pure T -> zsyms fl (known T) z -> pure T1 -> tok_ext T T1 -> zren (nren T1) fl z z' ->
      alike (fun l al => exists ws, Forall2 (coded T) ws l /\ al = map (map num) ws) (s_alphabet fl z) (s_alphabet fl z').
    Proof.
      intros HP HS H1 X R. pose proof (zren_alphabet (nren T1) fl z z' R) as A.
      assert (D : forall l, s_alphabet fl z = Ok l -> Forall (Forall (known T)) l).
      { intros l E. unfold s_alphabet in E. apply bind_ok in E as ([p d] & _ & E). exact (csyms_decode_all _ _ HS _ _ E). }
      destruct (s_alphabet fl z) as [l| | |], (s_alphabet fl z') as [l'| | |]; cbn in A |- *; try easy. subst l'.
      destruct (known_all T l (proj1 HP) (D l eq_refl)) as (ws & W1 & W2). exists ws. split; [exact W1|]. exact (coded_all_map T T1 ws l (proj1 H1) X W1).
    Qed.
    Lemma decode_coded T ws v : tok_ok T -> coded T ws v -> tok_decode T v = concat ws.
    Proof.
      intros (_ & HT & _) H. induction H as [|w i ws v Hw H IH]; [reflexivity|]. cbn [tok_decode concat]. apply HT in Hw. now rewrite Hw, IH.
    Qed.
    Lemma decode_all_coded T ws l : tok_ok T -> Forall2 (coded T) ws l -> tok_decode_all T l = map (@concat Z) ws.
    Proof. intros HT H. unfold tok_decode_all. induction H as [|us v ws l Hu H IH]; [reflexivity|]. cbn [map]. now rewrite IH, (decode_coded T us v HT Hu). Qed.
    Lemma same_alphabet T z z' T1 : pure T -> zsyms fl (known T) z -> pure T1 -> tok_ext T T1 -> zren (nren T1) fl z z' ->
      alike (same_words num) (al <- s_alphabet fl z ;; Ok (tok_decode_all T al)) (s_alphabet fl z').
    Proof.
      intros HP HS H1 X R. pose proof (alphabet_words T z z' T1 HP HS H1 X R) as A.
      destruct (s_alphabet fl z) as [l| | |], (s_alphabet fl z') as [l'| | |]; cbn in A |- *; try easy.
      destruct A as (ws & W & ->). exists ws. split; [|reflexivity]. exact (decode_all_coded T ws l (proj1 HP) W).
    Qed.

    (** One string of transform. *)
    Lemma decoded_words (T : tokenizer) ws l : pure T -> Forall2 (coded T) ws l -> ~ In [] (map (map num) ws) -> forall ids out, decoded T l ids [] = Ok out ->
      exists pieces, texts_at num (map (map num) ws) ids pieces /\ spaced out pieces.
    Proof.
      intros HP Hw Hne.
      assert (G : forall ids acc out, decoded T l ids acc = Ok out -> exists us vs, Forall2 (fun i w => nth_error (map (map num) ws) i = Some (map num w)) ids us /\
        Forall2 (word_at l) ids vs /\ map (tok_decode T) vs = map (@concat Z) us /\ ~ In [] (map (@concat Z) us)).
      { induction ids as [|i ids IH]; intros acc out H; cbn [decoded] in H; [exists [], []; repeat split; try constructor; easy|].
        apply bind_ok in H as (v & Hv & H). unfold vget, seq in Hv. unfold seq in *. destruct (nth_error l i) as [v0|] eqn:En; [|discriminate Hv]. injection Hv as ->.
        destruct (IH _ _ H) as (us & vs & U1 & U2 & U3 & U4).
        assert (exists u, nth_error ws i = Some u /\ coded T u v) as (u & Eu & Cu).
        { clear -Hw En. revert i En. induction Hw as [|a b ws l Hab Hw IHw]; intros [|i] En; cbn in En; try discriminate.
          - injection En as <-. exists a. now split.
          - destruct (IHw i En) as (u & E & C). now exists u. }
        exists (u :: us), (v :: vs). split; [constructor; [rewrite nth_error_map, Eu; reflexivity|exact U1]|]. split; [constructor; [exact En|exact U2]|].
        cbn [map]. split; [rewrite U3, (decode_coded T u v (proj1 HP) Cu); reflexivity|]. intros [E|E]; [|exact (U4 E)].
        destruct u as [|t u]; [apply Hne; apply (nth_error_In (map (map num) ws) i); rewrite nth_error_map, Eu; reflexivity|].
        inversion Cu as [|? j ? ? Hj]; subst. destruct HP as (_ & _ & HP). destruct (HP _ _ Hj) as (s & Hs). apply (token_nonempty _ _ _ Hs).
        cbn [concat] in E. now apply app_eq_nil in E as [-> _]. }
      intros ids out H. destruct (G ids [] out H) as (us & vs & U1 & U2 & U3 & U4). exists (map (@concat Z) us). split; [exists us; split; [exact U1|reflexivity]|].
      split; [exact U4|]. rewrite <- U3 in U4 |- *. rewrite (decoded_join T l ids vs U2 U4) in H. now injection H as <-.
    Qed.
    Lemma decoded_all_words (T : tokenizer) ws l : pure T -> Forall2 (coded T) ws l -> ~ In [] (map (map num) ws) -> forall r outs, decoded_all T l r = Ok outs ->
      Forall2 (fun ids out => exists pieces, texts_at num (map (map num) ws) ids pieces /\ spaced out pieces) r outs.
    Proof.
      intros HP Hw Hne. induction r as [|ids r IH]; intros outs H; cbn [decoded_all] in H; [injection H as <-; constructor|].
      apply bind_ok in H as (s & Hs & H). apply bind_ok in H as (t & Ht & H). injection H as <-. constructor; [exact (decoded_words T ws l HP Hw Hne ids s Hs)|exact (IH t Ht)].
    Qed.

    Lemma vpair_transform w v v' xs qs r v1 : vpair v v' -> Forall2 (numbers k num) xs qs -> tv_transform fl true w v xs = Ok (r, v1) ->
      exists r' v1' al, transform fl w v' qs = Ok (r', v1') /\ vpair v1 v1' /\ s_alphabet fl (vs v1') = Ok al /\
        (~ In [] al -> Forall2 (fun ids out => exists pieces, texts_at num al ids pieces /\ spaced out pieces) r' r).
    Proof.
      intros (HP & HS & HR) Hq H. unfold tv_transform in H. apply bind_ok in H as ([ids T'] & E & H). apply bind_ok in H as ([l y] & E1 & H).
      apply bind_ok in H as (a & Ea & H). apply bind_ok in H as (outs & Eo & H). injection H as <- <-.
      pose proof (pure_all _ _ _ _ HP E) as HP'. destruct (all_keep xs _ _ _ (proj1 HP) E) as (_ & X & _).
      destruct (batch xs _ _ _ qs T' HP E Hq (proj1 HP') (tok_ext_refl _)) as [Eq Hk].
      pose proof (vren_transform (nren T') fl w (tv v) v' ids (HR T' HP' X)) as A. rewrite <- Eq, E1 in A.
      destruct (transform fl w v' qs) as [[l' y']| | |] eqn:E2; cbn in A; try easy. destruct A as [-> A].
      assert (HS' : zsyms fl (known T') (vs y)) by exact (zsyms_transform fl _ w _ _ _ _ (zsyms_ext _ _ _ X HS) E1).
      pose proof (alphabet_words T' _ _ T' HP' HS' HP' (tok_ext_refl _) (proj1 A)) as B. rewrite Ea in B.
      destruct (s_alphabet fl (vs y')) as [al| | |] eqn:E3; cbn in B; try easy. destruct B as (ws & W & ->).
      exists l, y', (map (map num) ws). split; [reflexivity|]. split; [split; [exact HP'|]; split; [exact HS'|]|split; [exact E3|]].
      - cbn [tvtok tv]. intros T1 H1 X1. destruct (batch xs _ _ _ qs T1 HP E Hq (proj1 H1) X1) as [Eq1 _].
        pose proof (vren_transform (nren T1) fl w (tv v) v' ids (HR T1 H1 (tok_ext_trans _ _ _ X X1))) as B. rewrite <- Eq1, E1, E2 in B. apply B.
      - intro Hne. exact (decoded_all_words T' ws a HP' W Hne l outs Eo).
    Qed.

    Lemma own_life size iter cs v : tvlife fl (new_tvgram_with fl size iter (new_tok k)) cs v -> forall calls, Forall2 (own_call fl k num) cs calls ->
      exists v', vlife fl (new_vgram fl size iter) calls v' /\ vpair v v'.
    Proof.
      intro H. induction H as [|cs v c v1 H IH Hs]; intros calls Hc; [inversion Hc; subst; exists (new_vgram fl size iter); split; [constructor|apply vpair_new]|].
      apply Forall2_app_inv_l in Hc as (c1 & c2 & Hc1 & Hc2 & ->). inversion Hc2 as [|? c' ? ? Ho Hn]; subst. inversion Hn; subst.
      destruct (IH c1 Hc1) as (v' & L & P). destruct c as [w xs|w xs], c' as [w' qs|w' qs|op]; cbn [own_call] in Ho; try easy; destruct Ho as [-> Hq]; cbn [tvstep] in Hs.
      - assert (exists ids T', tok_transform_all true (tvtok v) xs = Ok (ids, T')) as (ids & T' & E).
        { unfold tv_fit in Hs. apply bind_ok in Hs as ([ids T'] & E & _). now exists ids, T'. }
        pose proof (vpair_fit w v v' xs qs ids T' P Hq E) as A. rewrite Hs in A. destruct (fit fl w v' qs) as [[dn y]| | |] eqn:E2; cbn in A; try easy.
        exists y. split; [|exact A]. apply (vl_step fl _ _ _ _ _ L). cbn. now exists dn.
      - destruct Hs as [r Hs]. destruct (vpair_transform w v v' xs qs r v1 P Hq Hs) as (r' & y & al & E & P' & _). exists y. split; [|exact P'].
        apply (vl_step fl _ _ _ _ _ L). cbn. now exists r'.
    Qed.

    Lemma own_vgram size iter cs v calls : tvlife fl (new_tvgram_with fl size iter (new_tok k)) cs v -> Forall2 (own_call fl k num) cs calls ->
      exists v', vlife fl (new_vgram fl size iter) calls v' /\ tv_freqs fl v = s_freqs fl (vs v') /\ vfitted (tv v) = vfitted v' /\
        alike (same_words num) (tv_alphabet fl v) (s_alphabet fl (vs v')) /\
        (forall w xs qs, Forall (readable k) xs -> Forall2 (numbers k num) xs qs ->
           alike (fun a b => vfitted (tv a) = vfitted (snd b) /\ tv_freqs fl a = s_freqs fl (vs (snd b)) /\
             alike (same_words num) (tv_alphabet fl a) (s_alphabet fl (vs (snd b)))) (tv_fit fl true w v xs) (fit fl w v' qs)) /\
        (forall w xs qs r v1, Forall2 (numbers k num) xs qs -> tv_transform fl true w v xs = Ok (r, v1) ->
           exists r' v1' al, transform fl w v' qs = Ok (r', v1') /\ s_alphabet fl (vs v1') = Ok al /\
             (~ In [] al -> Forall2 (fun ids out => exists pieces, texts_at num al ids pieces /\ spaced out pieces) r' r)).
    Proof.
      intros H Hc. destruct (own_life size iter cs v H calls Hc) as (v' & L & P). exists v'. split; [exact L|].
      assert (G : forall a b, vpair a b -> vfitted (tv a) = vfitted b /\ tv_freqs fl a = s_freqs fl (vs b) /\ alike (same_words num) (tv_alphabet fl a) (s_alphabet fl (vs b))).
      { intros a b (HP & HS & HR). pose proof (HR _ HP (tok_ext_refl _)) as R. split; [symmetry; apply R|]. split; [symmetry; apply R|].
        exact (same_alphabet _ _ _ _ HP HS HP (tok_ext_refl _) (proj1 R)). }
      destruct (G v v' P) as (G1 & G2 & G3). split; [exact G2|]. split; [exact G1|]. split; [exact G3|]. split.
      - intros w xs qs Hr Hq. destruct (transform_all_total xs (tvtok v) (proj1 (proj1 P))) as (ids & T' & E).
        { intros s Hs. rewrite (proj1 (proj2 (proj1 P))). rewrite Forall_forall in Hr. now apply Hr. }
        pose proof (vpair_fit w v v' xs qs ids T' P Hq E) as A.
        destruct (tv_fit fl true w v xs) as [a| | |], (fit fl w v' qs) as [b| | |]; cbn in A |- *; try easy. now apply G.
      - intros w xs qs r v1 Hq Ht. destruct (vpair_transform w v v' xs qs r v1 P Hq Ht) as (r' & y & al & E & _ & E2 & E3). now exists r', y, al.
    Qed.

    (** ** StringStreamVGram and IntStreamVGram *)
    Definition zpair (z : tstream fl) (z' : stream fl) : Prop :=
      pure (ttok z) /\ zsyms fl (known (ttok z)) (tst z) /\ forall T1, pure T1 -> tok_ext (ttok z) T1 -> zren (nren T1) fl (tst z) z'.

    Lemma one s T ids T' : tok_transform true T s = Ok (ids, T') -> tok_transform_all true T [s] = Ok ([ids], T').
    Proof. intro E. unfold tok_transform_all. cbn [mapM]. rewrite E. reflexivity. Qed.
    Lemma batch1 s T ids T' q T1 : pure T -> tok_transform true T s = Ok (ids, T') -> numbers k num s q -> tok_ok T1 -> tok_ext T' T1 ->
      q = map (nren T1) ids /\ Forall (known T') ids.
    Proof.
      intros HP E Hq HT X. destruct (batch [s] T [ids] T' [q] T1 HP (one _ _ _ _ E)) as [A B]; [constructor; [exact Hq|constructor]|exact HT|exact X|].
      cbn in A. injection A as ->. split; [reflexivity|]. now inversion B.
    Qed.
    Lemma zpair_accept e z z' s q ids T' : zpair z z' -> numbers k num s q -> tok_transform true (ttok z) s = Ok (ids, T') ->
      alike zpair (t_accept fl true e z s) (s_accept fl e z' q).
    Proof.
      intros (HP & HS & HR) Hq E. pose proof (pure_all _ _ _ _ HP (one _ _ _ _ E)) as HP'. destruct (transform_keep _ _ _ _ (proj1 HP) E) as (_ & X & _).
      destruct (batch1 s _ _ _ q T' HP E Hq (proj1 HP') (tok_ext_refl _)) as [Eq Hk]. unfold t_accept. rewrite E. cbn [bind].
      pose proof (zren_accept (nren T') (nren_inj T' HP') fl e (tst z) z' ids (HR T' HP' X)) as A. rewrite <- Eq in A.
      destruct (s_accept fl e (tst z) ids) as [y| | |] eqn:E1, (s_accept fl e z' q) as [y'| | |] eqn:E2; cbn in A |- *; try easy.
      split; [exact HP'|]. split; [exact (zsyms_accept fl _ e _ _ _ (zsyms_ext _ _ _ X HS) Hk E1)|]. cbn [ttok tst]. intros T1 H1 X1.
      destruct (batch1 s _ _ _ q T1 HP E Hq (proj1 H1) X1) as [Eq1 _].
      pose proof (zren_accept (nren T1) (nren_inj T1 H1) fl e (tst z) z' ids (HR T1 H1 (tok_ext_trans _ _ _ X X1))) as B. rewrite <- Eq1, E1, E2 in B. exact B.
    Qed.
    Lemma zpair_update z z' : zpair z z' -> alike zpair (t_update fl z) (s_update fl z').
    Proof.
      intros (HP & HS & HR). unfold t_update. pose proof (zren_update (nren (ttok z)) fl _ _ (HR _ HP (tok_ext_refl _))) as A.
      destruct (s_update fl (tst z)) as [y| | |] eqn:E1, (s_update fl z') as [y'| | |] eqn:E2; cbn in A |- *; try easy.
      split; [exact HP|]. split; [exact (zsyms_update fl _ _ _ HS E1)|]. cbn [ttok tst]. intros T1 H1 X1.
      pose proof (zren_update (nren T1) fl _ _ (HR T1 H1 X1)) as B. rewrite E1, E2 in B. exact B.
    Qed.
    Lemma decode_all_nth c ws l : decode_all c ws = Ok l -> forall i w, nth_error ws i = Some w -> exists v, nth_error l i = Some v /\ decode c w = Ok v.
    Proof.
      revert l. induction ws as [|u ws IH]; intros l H i w Hi; [now destruct i|]. cbn [decode_all] in H.
      apply bind_ok in H as (v & Ev & H). apply bind_ok in H as (r & Er & H). injection H as <-.
      destruct i as [|i]; cbn in Hi |- *; [injection Hi as <-; now exists v|]. exact (IH r Er i w Hi).
    Qed.
    Lemma token_words_at z T al : forall ids l, token_words fl z T ids = Ok l -> s_alphabet fl z = Ok al ->
      Forall2 (fun i p => exists v, nth_error al i = Some v /\ p = tok_decode T v) ids l.
    Proof.
      induction ids as [|i ids IH]; intros l H Ha; cbn [token_words] in H; [injection H as <-; constructor|].
      apply bind_ok in H as ([p d] & Ed & H). apply bind_ok in H as (raw & Er & H). apply bind_ok in H as (v & Ev & H). apply bind_ok in H as (r & Hr & H). injection H as <-.
      constructor; [|now apply IH]. unfold s_alphabet in Ha. rewrite Ed in Ha. cbn [bind] in Ha. unfold vget in Er.
      destruct (nth_error (seqs d) i) as [raw'|] eqn:En; [|discriminate]. injection Er as ->.
      destruct (decode_all_nth _ _ _ Ha i raw En) as (v' & N & D). exists v'. split; [exact N|]. congruence.
    Qed.
    Lemma zpair_parse z z' s q l z1 : zpair z z' -> numbers k num s q -> t_parse fl true z s = Ok (l, z1) ->
      exists ids z1', s_parse fl z' q = Ok (ids, z1') /\ zpair z1 z1' /\ forall al, s_alphabet fl z1' = Ok al -> texts_at num al ids l.
    Proof.
      intros (HP & HS & HR) Hq H. unfold t_parse in H. apply bind_ok in H as ([ids T'] & E & H). apply bind_ok in H as ([r y] & E1 & H).
      apply bind_ok in H as (l' & El & H). injection H as <- <-.
      pose proof (pure_all _ _ _ _ HP (one _ _ _ _ E)) as HP'. destruct (transform_keep _ _ _ _ (proj1 HP) E) as (_ & X & _).
      destruct (batch1 s _ _ _ q T' HP E Hq (proj1 HP') (tok_ext_refl _)) as [Eq Hk].
      pose proof (zren_parse (nren T') fl (tst z) z' ids (HR T' HP' X)) as A. rewrite <- Eq, E1 in A.
      destruct (s_parse fl z' q) as [[r' y']| | |] eqn:E2; cbn in A; try easy. destruct A as [-> A].
      assert (HS' : zsyms fl (known T') y) by exact (zsyms_parse fl _ _ _ _ _ (zsyms_ext _ _ _ X HS) E1).
      exists r, y'. split; [reflexivity|]. split; [split; [exact HP'|]; split; [exact HS'|]|].
      - cbn [ttok tst]. intros T1 H1 X1. destruct (batch1 s _ _ _ q T1 HP E Hq (proj1 H1) X1) as [Eq1 _].
        pose proof (zren_parse (nren T1) fl (tst z) z' ids (HR T1 H1 (tok_ext_trans _ _ _ X X1))) as B. rewrite <- Eq1, E1, E2 in B. apply B.
      - intros al Ha. pose proof (alphabet_words T' y y' T' HP' HS' HP' (tok_ext_refl _) A) as B. rewrite Ha in B.
        destruct (s_alphabet fl y) as [al0| | |] eqn:E3; cbn in B; try easy. destruct B as (ws & W & ->).
        pose proof (token_words_at y T' al0 r l' El E3) as G. clear -G W HP'.
        enough (exists us, Forall2 (fun i w => nth_error (map (map num) ws) i = Some (map num w)) r us /\ l' = map (@concat Z) us) by assumption.
        induction G as [|i p r l' (v & Ev & ->) G (us & U1 & ->)]; [exists []; split; constructor|].
        assert (exists u, nth_error ws i = Some u /\ coded T' u v) as (u & Eu & Cu).
        { clear -W Ev. revert i Ev. induction W as [|a b ws l Hab Hw IHw]; intros [|i] En; cbn in En; try discriminate.
          - injection En as <-. exists a. now split.
          - destruct (IHw i En) as (u & E & C). now exists u. }
        exists (u :: us). split; [constructor; [rewrite nth_error_map, Eu; reflexivity|exact U1]|]. cbn [map]. now rewrite (decode_coded T' u v (proj1 HP') Cu).
    Qed.

    Lemma own_hist z0 z0' ops z : zpair z0 z0' -> thist fl z0 ops z -> forall iops, Forall2 (own_op fl k num) ops iops ->
      exists z', shist fl z0' iops z' /\ zpair z z'.
    Proof.
      intros P0 H. induction H as [|ops z op z1 H IH Hs]; intros iops Hc; [inversion Hc; subst; exists z0'; split; [constructor|exact P0]|].
      apply Forall2_app_inv_l in Hc as (c1 & c2 & Hc1 & Hc2 & ->). inversion Hc2 as [|? c' ? ? Ho Hn]; subst. inversion Hn; subst.
      destruct (IH c1 Hc1) as (z' & L & P). destruct op as [e s|s|], c' as [e' q|q|]; cbn [own_op] in Ho; try easy; cbn [tstep] in Hs.
      - destruct Ho as [-> Hq]. assert (exists ids T', tok_transform true (ttok z) s = Ok (ids, T')) as (ids & T' & E).
        { unfold t_accept in Hs. apply bind_ok in Hs as ([ids T'] & E & _). now exists ids, T'. }
        pose proof (zpair_accept e z z' s q ids T' P Hq E) as A. rewrite Hs in A. destruct (s_accept fl e z' q) as [y| | |] eqn:E2; cbn in A; try easy.
        exists y. split; [|exact A]. apply (sh_step fl _ _ _ (SAccept e q) _ L). exact E2.
      - destruct Hs as [l Hs]. destruct (zpair_parse z z' s q l z1 P Ho Hs) as (ids & y & E & P' & _). exists y. split; [|exact P'].
        apply (sh_step fl _ _ _ (SParse q) _ L). cbn. now exists ids.
      - pose proof (zpair_update z z' P) as A. rewrite Hs in A. destruct (s_update fl z') as [y| | |] eqn:E2; cbn in A; try easy.
        exists y. split; [|exact A]. apply (sh_step fl _ _ _ SUpdate _ L). exact E2.
    Qed.
  End Fl.
End Own.

Lemma own_stream fl size inner words num : numbering (if words : bool then WordTok else CharTok) num ->
  forall z0 ops z iops, new_tstream fl size inner words = Ok z0 -> thist fl z0 ops z -> Forall2 (own_op fl (if words then WordTok else CharTok) num) ops iops ->
  exists z', shist fl (new_stream fl size) iops z' /\ t_freqs fl z = s_freqs fl z' /\ alike (same_words num) (t_alphabet fl z) (s_alphabet fl z') /\
    (forall e s q, readable (if words then WordTok else CharTok) s -> numbers (if words then WordTok else CharTok) num s q ->
       alike (fun _ _ => True) (t_accept fl true e z s) (s_accept fl e z' q)) /\
    alike (fun _ _ => True) (t_update fl z) (s_update fl z') /\
    (forall s q pieces z1, numbers (if words then WordTok else CharTok) num s q -> t_parse fl true z s = Ok (pieces, z1) ->
       exists ids z1', s_parse fl z' q = Ok (ids, z1') /\ forall al, s_alphabet fl z1' = Ok al -> texts_at num al ids pieces).
Proof.
  intros Hnum z0 ops z iops H0 H Hi. set (k := if words then WordTok else CharTok) in *.
  assert (P0 : zpair k num fl z0 (new_stream fl size)).
  { unfold new_tstream, check_args in H0. cbn [twords tinner] in H0. destruct (words && inner); [discriminate|]. injection H0 as <-. cbn [ttok tst].
    split; [apply pure_new|]. split; [intros c x E; discriminate E|]. intros T1 _ _. apply zren_new. }
  destruct (own_hist k num Hnum fl _ _ _ _ P0 H iops Hi) as (z' & L & P). exists z'. pose proof P as (HP & HS & HR).
  pose proof (HR _ HP (tok_ext_refl _)) as R. split; [exact L|]. split; [symmetry; apply R|]. split; [exact (same_alphabet k num fl _ _ _ _ HP HS HP (tok_ext_refl _) R)|].
  split; [|split].
  - intros e s q Hr Hq. destruct (transform_total (ttok z) s (proj1 HP)) as (ids & T' & E); [now rewrite (proj1 (proj2 HP))|].
    pose proof (zpair_accept k num Hnum fl e z z' s q ids T' P Hq E) as A. destruct (t_accept fl true e z s), (s_accept fl e z' q); cbn in A |- *; easy.
  - pose proof (zpair_update k num fl z z' P) as A. destruct (t_update fl z), (s_update fl z'); cbn in A |- *; easy.
  - intros s q pieces z1 Hq Hp. destruct (zpair_parse k num Hnum fl z z' s q pieces z1 P Hq Hp) as (ids & y & E & _ & G). now exists ids, y.
Qed.

(** ** Texts with the same tokens *)
Lemma same_transform T s s' ws : tokens_of (tkind T) s ws -> tokens_of (tkind T) s' ws -> readable (tkind T) s -> readable (tkind T) s' ->
  tok_transform true T s = tok_transform true T s'.
Proof.
  intros H H' R R'. unfold tok_transform. destruct (readable_norm _ _ R) as (n & Hn). destruct (readable_norm _ _ R') as (n' & Hn'). rewrite Hn, Hn'. cbn [bind].
  pose proof (tokens_norm _ _ _ Hn) as A. pose proof (tokens_norm _ _ _ Hn') as A'. rewrite (tokens_fun _ _ _ _ A H), (tokens_fun _ _ _ _ A' H'). reflexivity.
Qed.
Lemma same_transform_all k xs xs' : Forall2 (fun s s' => readable k s /\ readable k s' /\ exists ws, tokens_of k s ws /\ tokens_of k s' ws) xs xs' ->
  forall T, tok_ok T -> tkind T = k -> tok_transform_all true T xs = tok_transform_all true T xs'.
Proof.
  unfold tok_transform_all. induction 1 as [|s s' xs xs' (R & R' & ws & H1 & H2) H IH]; intros T HT Hk; [reflexivity|]. cbn [mapM]. subst k.
  rewrite (same_transform T s s' ws H1 H2 R R'). destruct (tok_transform true T s') as [[ids T']| | |] eqn:E; cbn [bind]; try reflexivity.
  destruct (transform_keep _ _ _ _ HT E) as (K1 & _ & K2). now rewrite (IH T' K1 K2).
Qed.
