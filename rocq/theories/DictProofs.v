(** Dictionary construction and lookup. *)
From Verif Require Import Base Spec FloatOps ModelDict OrderProofs.

(** ** Generic facts *)
Lemma bind_ok {A B} (m : outcome A) (f : A -> outcome B) b :
  bind m f = Ok b -> exists a, m = Ok a /\ f a = Ok b.
Proof. destruct m; simpl; try easy. intro H. now exists a. Qed.

Lemma vget_ok {A} (l : list A) i a : vget l i = Ok a <-> nth_error l i = Some a.
Proof. unfold vget. destruct (nth_error l i); split; congruence. Qed.
Lemma vget_some {A} (l : list A) i a : nth_error l i = Some a -> vget l i = Ok a.
Proof. apply vget_ok. Qed.
Lemma nth_lt {A} (l : list A) i : i < length l -> exists a, nth_error l i = Some a.
Proof.
  intro H. destruct (nth_error l i) eqn:E; [now exists a|].
  apply nth_error_None in E. lia.
Qed.
Lemma nth_some_lt {A} (l : list A) i a : nth_error l i = Some a -> i < length l.
Proof. intro H. apply nth_error_Some. congruence. Qed.

Lemma upd_length {A} (l : list A) i a : length (upd l i a) = length l.
Proof. revert i; induction l as [|x l IH]; intros [|i]; simpl; auto. Qed.
Lemma upd_same {A} (l : list A) i a : i < length l -> nth_error (upd l i a) i = Some a.
Proof. revert i; induction l as [|x l IH]; intros [|i]; simpl; intro H; try lia; auto. apply IH. lia. Qed.
Lemma upd_other {A} (l : list A) i j a : i <> j -> nth_error (upd l i a) j = nth_error l j.
Proof. revert i j; induction l as [|x l IH]; intros [|i] [|j]; simpl; intro H; try easy. apply IH. lia. Qed.
Lemma vset_ok {A} (l : list A) i a : i < length l -> vset l i a = Ok (upd l i a).
Proof. unfold vset. intro H. apply Nat.ltb_lt in H. now rewrite H. Qed.

(** ** mismatch *)
Lemma mismatch_ok p q : lex_le p q -> mismatch_is_end p q = Ok (prefixb p q).
Proof.
  rewrite <- lex_ltb_false.
  revert q; induction p as [|a p IH]; intros [|b q]; simpl; try easy.
  destruct (Z.eqb_spec a b) as [->|Hne]; simpl; [|easy].
  rewrite Z.ltb_irrefl. apply IH.
Qed.

(** ** Parent links *)
(** [par] is right for index [i]: it is the last earlier index whose word is a prefix. *)
Definition parent_ok (ws : list seq) (i : nat) (par : option nat) : Prop :=
  forall w, nth_error ws i = Some w ->
  match par with
  | Some j => j < i /\ (exists v, nth_error ws j = Some v /\ prefix v w) /\
              forall k v, j < k < i -> nth_error ws k = Some v -> ~ prefix v w
  | None => forall k v, k < i -> nth_error ws k = Some v -> ~ prefix v w
  end.

Section Init.
  Variable s : list seq.
  Hypothesis Hs : sorted s.

  (** The stack before word [i] is processed: the earlier words that are prefixes of word i-1,
      in decreasing order of index. *)
  Definition stack_inv (i : nat) (st : list (seq * nat)) : Prop :=
    (forall p j, In (p, j) st -> j < i /\ nth_error s j = Some p) /\
    (forall p j q, In (p, j) st -> nth_error s (i - 1) = Some q -> prefix p q) /\
    (forall p j q, j < i -> nth_error s j = Some p -> nth_error s (i - 1) = Some q ->
       prefix p q -> In (p, j) st) /\
    StronglySorted (fun a b => snd b < snd a) st.

  Lemma init_pop_spec i cur st :
    nth_error s i = Some cur -> stack_inv i st ->
    exists par st', init_pop st cur = Ok (par, st') /\
      parent_ok s i par /\ stack_inv (S i) ((cur, i) :: st').
  Proof.
    intros Hcur (Hin & Hpre & Hall & Hsort).
    (* every earlier prefix of cur is on the stack *)
    assert (Hcover : forall k v, k < i -> nth_error s k = Some v -> prefix v cur -> In (v, k) st).
    { intros k v Hk Hv Hp.
      destruct (nth_lt s (i - 1)) as [q Hq]. { apply nth_some_lt in Hcur. lia. }
      apply (Hall v k q); try easy.
      apply (prefix_between v q cur); try easy.
      - apply (sorted_nth s k (i - 1) v q); try easy. lia.
      - apply (sorted_nth s (i - 1) i q cur); try easy. lia. }
    (* popping *)
    assert (Hgen : forall st2, (forall p j, In (p, j) st2 -> In (p, j) st) ->
      StronglySorted (fun a b => snd b < snd a) st2 ->
      (forall k v, k < i -> nth_error s k = Some v -> prefix v cur -> In (v, k) st2) ->
      exists par st', init_pop st2 cur = Ok (par, st') /\ parent_ok s i par /\
        stack_inv (S i) ((cur, i) :: st')).
    { induction st2 as [|[p j] st2 IH]; intros Hsub Hsrt Hcov.
      - exists None, []. split; [easy|]. split.
        + intros w Hw. rewrite Hcur in Hw. injection Hw as <-. intros k v Hk Hv Hp.
          now apply (Hcov k v Hk Hv Hp).
        + split; [|split; [|split]].
          * intros p j [[= <- <-]|[]]. split; [lia|easy].
          * intros p j q [[= <- <-]|[]] Hq. simpl in Hq. rewrite Nat.sub_0_r, Hcur in Hq.
            injection Hq as <-. apply prefix_refl.
          * intros p j q Hj Hp Hq Hpq. simpl in Hq. rewrite Nat.sub_0_r, Hcur in Hq.
            injection Hq as <-. destruct (Nat.eq_dec j i) as [->|Hne].
            -- rewrite Hcur in Hp. injection Hp as <-. now left.
            -- exfalso. apply (Hcov j p); try easy. lia.
          * repeat constructor.
      - simpl.
        destruct (Hin p j (Hsub p j (or_introl eq_refl))) as [Hj Hpj].
        rewrite mismatch_ok; [|apply (sorted_nth s j i p cur); try easy; lia].
        simpl. destruct (prefixb p cur) eqn:Epre.
        + apply prefixb_spec in Epre.
          inversion Hsrt as [|? ? Hsrt2 Hfor]; subst. rewrite Forall_forall in Hfor.
          exists (Some j), ((p, j) :: st2). split; [easy|]. split.
          * intros w Hw. rewrite Hcur in Hw. injection Hw as <-.
            split; [easy|]. split; [now exists p|].
            intros k v [Hk1 Hk2] Hv Hp. destruct (Hcov k v Hk2 Hv Hp) as [[= <- <-]|Hk].
            -- lia.
            -- apply Hfor in Hk. simpl in Hk. lia.
          * split; [|split; [|split]].
            -- intros p' j' [[= <- <-]|Hp']; [split; [lia|easy]|].
               destruct (Hin p' j' (Hsub _ _ Hp')). split; [lia|easy].
            -- intros p' j' q Hp' Hq. simpl in Hq. rewrite Nat.sub_0_r, Hcur in Hq.
               injection Hq as <-. destruct Hp' as [[= <- <-]|Hp']; [apply prefix_refl|].
               destruct Hp' as [[= <- <-]|Hp']; [easy|].
               assert (Hlt : j' < j) by (apply (Hfor (p', j')); easy).
               destruct (nth_lt s (i - 1)) as [q Hq]. { apply nth_some_lt in Hcur. lia. }
               assert (Hp'q : prefix p' q) by (apply (Hpre p' j' q); [apply Hsub; now right|easy]).
               assert (Hpq : prefix p q) by (apply (Hpre p j q); [apply Hsub; now left|easy]).
               apply (prefix_trans p' p cur); [|easy].
               apply (prefix_comparable_le p' p q); try easy.
               destruct (Hin p' j' (Hsub _ _ (or_intror Hp'))) as [_ Hp'j'].
               apply (sorted_nth s j' j p' p); try easy. lia.
            -- intros p' j' q Hj' Hp' Hq Hpq. simpl in Hq. rewrite Nat.sub_0_r, Hcur in Hq.
               injection Hq as <-. destruct (Nat.eq_dec j' i) as [->|Hne].
               ++ rewrite Hcur in Hp'. injection Hp' as <-. now left.
               ++ right. apply Hcov; try easy. lia.
            -- constructor; [easy|]. constructor; [simpl; easy|].
               rewrite Forall_forall. intros [p' j'] Hp'. simpl.
               apply Hfor in Hp'. simpl in Hp'. lia.
        + apply IH.
          * intros p' j' Hp'. apply Hsub. now right.
          * now inversion Hsrt.
          * intros k v Hk Hv Hp. destruct (Hcov k v Hk Hv Hp) as [[= <- <-]|H]; [|easy].
            apply prefixb_spec in Hp. congruence. }
    now apply Hgen.
  Qed.

  Lemma init_loop_spec : forall rest i st,
    (forall k, nth_error rest k = nth_error s (i + k)) ->
    stack_inv i st ->
    exists ps, init_loop i rest st = Ok ps /\ length ps = length rest /\
      forall k par, nth_error ps k = Some par -> parent_ok s (i + k) par.
  Proof.
    induction rest as [|cur rest IH]; intros i st Hrest Hst; cbn [init_loop].
    - exists []. split; [easy|]. split; [easy|]. now intros [|k].
    - assert (Hcur : nth_error s i = Some cur).
      { specialize (Hrest 0). rewrite Nat.add_0_r in Hrest. now rewrite <- Hrest. }
      destruct (init_pop_spec i cur st Hcur Hst) as (par & st' & -> & Hpar & Hinv).
      cbn [bind]. destruct (IH (S i) ((cur, i) :: st')) as (ps & -> & Hlen & Hps).
      + intro k. specialize (Hrest (S k)). simpl in Hrest. rewrite Hrest. f_equal. lia.
      + easy.
      + cbn [bind]. exists (par :: ps). split; [easy|]. split; [simpl; lia|].
        intros [|k] par' Hk; simpl in Hk.
        * injection Hk as <-. now rewrite Nat.add_0_r.
        * apply Hps in Hk. now replace (i + S k) with (S i + k) by lia.
  Qed.
End Init.

(** A dictionary whose parent links are prefixes with smaller index: enough for safety. *)
Definition wf_dict (d : dict) : Prop :=
  length (parents d) = length (seqs d) /\
  forall i j, nth_error (parents d) i = Some (Some j) ->
    j < i /\ exists v w, nth_error (seqs d) j = Some v /\ nth_error (seqs d) i = Some w /\ prefix v w.

(** All parent links are the right ones. *)
Definition links_ok (d : dict) : Prop :=
  length (parents d) = length (seqs d) /\
  forall i par, nth_error (parents d) i = Some par -> parent_ok (seqs d) i par.

(** A dictionary in good order: strictly sorted with the right links. *)
Definition full_dict (d : dict) : Prop := strictly_sorted (seqs d) /\ links_ok d.

Lemma links_wf d : links_ok d -> wf_dict d.
Proof.
  intros [Hlen Hl]. split; [easy|]. intros i j Hij.
  destruct (nth_lt (seqs d) i) as [w Hw]. { rewrite <- Hlen. now apply nth_some_lt in Hij. }
  apply Hl in Hij. destruct (Hij w Hw) as (Hj & (v & Hv & Hp) & _).
  split; [easy|]. now exists v, w.
Qed.
Lemma full_wf d : full_dict d -> wf_dict d.
Proof. intros [_ H]. now apply links_wf. Qed.

Lemma mk_dict_spec ws :
  exists d, mk_dict ws = Ok d /\ seqs d = isort ws /\ links_ok d.
Proof.
  unfold mk_dict.
  destruct (init_loop_spec (isort ws) (isort_sorted ws) (isort ws) 0 []) as (ps & -> & Hlen & Hps).
  - easy.
  - repeat split; try easy. constructor.
  - cbn [bind]. exists (mkDict (isort ws) ps). split; [easy|]. split; [easy|].
    split; [easy|]. intros i par H. now apply Hps in H.
Qed.

Lemma mk_dict_full ws : NoDup ws -> exists d, mk_dict ws = Ok d /\ seqs d = isort ws /\ full_dict d.
Proof.
  intro Hn. destruct (mk_dict_spec ws) as (d & H & Hs & Hl). exists d.
  split; [easy|]. split; [easy|]. split; [|easy]. rewrite Hs. now apply isort_strict.
Qed.

(** ** lower_bound *)
Lemma div2_lt n : 0 < n -> Nat.div2 n < n.
Proof. intro H. apply Nat.lt_div2. lia. Qed.

Lemma lower_bound_loop_spec l v : forall fuel first len,
  len <= fuel -> first + len <= length l ->
  (forall i, S i = first -> exists w, nth_error l i = Some w /\ lex_ltb w v = true) ->
  exists r, lower_bound_loop fuel first len l v = Ok r /\ r <= length l /\
    (forall i, S i = r -> exists w, nth_error l i = Some w /\ lex_ltb w v = true) /\
    (sorted l ->
     (forall i w, i < first -> nth_error l i = Some w -> lex_ltb w v = true) ->
     (forall i w, first + len <= i -> nth_error l i = Some w -> lex_ltb w v = false) ->
     (forall i w, i < r -> nth_error l i = Some w -> lex_ltb w v = true) /\
     (forall i w, r <= i -> nth_error l i = Some w -> lex_ltb w v = false)).
Proof.
  induction fuel as [|fuel IH]; intros first len Hfuel Hlen Hpred.
  - assert (len = 0) by lia. subst len. simpl. exists first.
    repeat split; try easy; try lia.
    intros i w Hi Hw. apply (H1 i w); [lia|easy].
  - cbn [lower_bound_loop]. destruct (Nat.eqb_spec len 0) as [->|Hne].
    + exists first. repeat split; try easy; try lia.
      intros i w Hi Hw. apply (H1 i w); [lia|easy].
    + set (half := Nat.div2 len).
      assert (Hhalf : half < len) by (apply div2_lt; lia).
      destruct (nth_lt l (first + half)) as [m Hm]; [lia|].
      rewrite (vget_some _ _ _ Hm). cbn [bind].
      destruct (lex_ltb m v) eqn:E.
      * destruct (IH (first + half + 1) (len - half - 1)) as (r & Hr & Hrl & Hrp & Hrs); try lia.
        { intros i Hi. exists m. split; [|easy]. replace i with (first + half) by lia. easy. }
        exists r. split; [easy|]. split; [easy|]. split; [easy|].
        intros Hsrt Hlo Hhi. apply Hrs; try easy.
        -- intros i w Hi Hw. destruct (lt_dec i first) as [Hlt|Hge]; [now apply (Hlo i w)|].
           apply lex_ltb_spec. apply lex_ltb_spec in E.
           apply (lex_le_lt_trans w m v); [|easy].
           apply (sorted_nth l i (first + half) w m); try easy. lia.
        -- intros i w Hi Hw. apply (Hhi i w); [lia|easy].
      * destruct (IH first half) as (r & Hr & Hrl & Hrp & Hrs); try lia; try easy.
        exists r. split; [easy|]. split; [easy|]. split; [easy|].
        intros Hsrt Hlo Hhi. apply Hrs; try easy.
        intros i w Hi Hw. apply lex_ltb_false. apply lex_ltb_false in E.
        apply (lex_le_trans v m w); [easy|].
        apply (sorted_nth l (first + half) i m w); easy.
Qed.

Lemma lower_bound_spec l v :
  exists r, lower_bound l v = Ok r /\ r <= length l /\
    (forall i, S i = r -> exists w, nth_error l i = Some w /\ lex_ltb w v = true) /\
    (sorted l ->
     (forall i w, i < r -> nth_error l i = Some w -> lex_ltb w v = true) /\
     (forall i w, r <= i -> nth_error l i = Some w -> lex_ltb w v = false)).
Proof.
  destruct (lower_bound_loop_spec l v (length l) 0 (length l)) as (r & H1 & H2 & H3 & H4); try lia.
  exists r. split; [easy|]. split; [easy|]. split; [easy|].
  intro Hs. apply H4; try easy; try lia.
  intros i w Hi Hw. apply nth_some_lt in Hw. lia.
Qed.

(** ** The parent chain *)
(** On any well-formed dictionary: safe, terminating, sound. *)
Lemma up_chain_sound d ex q : wf_dict d -> forall fuel start,
  (forall i, start = Some i -> S i < fuel /\ exists w, nth_error (seqs d) i = Some w /\ lex_le w q) ->
  0 < fuel ->
  exists r, up_chain fuel d ex q start = Ok r /\
    forall i, r = Some i -> exists w, nth_error (seqs d) i = Some w /\ prefix w q /\ allowed ex i = true.
Proof.
  intros [Hlen Hpar]. induction fuel as [|fuel IH]; intros start Hstart Hf; [lia|].
  cbn [up_chain]. destruct start as [i|].
  - destruct (Hstart i eq_refl) as (Hif & w & Hw & Hle).
    assert (Hi : i < dsize d) by (unfold dsize; now apply nth_some_lt in Hw).
    apply Nat.ltb_lt in Hi. rewrite Hi. apply Nat.ltb_lt in Hi.
    unfold get. rewrite (vget_some _ _ _ Hw). cbn [bind].
    rewrite (mismatch_ok w q Hle). cbn [bind].
    destruct (prefixb w q && allowed ex i) eqn:E.
    + exists (Some i). split; [easy|]. intros j [= <-]. apply andb_true_iff in E as [E1 E2].
      apply prefixb_spec in E1. now exists w.
    + destruct (nth_lt (parents d) i) as [p Hp]. { unfold dsize in Hi. lia. }
      unfold parent. rewrite (vget_some _ _ _ Hp). cbn [bind].
      destruct fuel as [|fuel].
      { lia. }
      apply IH; [|lia]. intros j ->. destruct (Hpar i j Hp) as (Hj & v & w' & Hv & Hw' & Hvw).
      split; [lia|]. exists v. split; [easy|]. rewrite Hw in Hw'. injection Hw' as <-.
      apply (lex_le_trans v w q); [now apply prefix_le|easy].
  - now exists None.
Qed.

Lemma up_chain_complete d ex q : full_dict d -> forall fuel start,
  (forall i, start = Some i -> S i < fuel /\ exists w, nth_error (seqs d) i = Some w /\ lex_le w q) ->
  0 < fuel ->
  (* nothing of interest above the start *)
  (forall k v, nth_error (seqs d) k = Some v -> prefix v q -> allowed ex k = true ->
     exists i, start = Some i /\ k <= i) ->
  match up_chain fuel d ex q start with
  | Ok (Some i) => longest_prefix (seqs d) (fun k => allowed ex k = true) q i
  | Ok None => no_prefix (seqs d) (fun k => allowed ex k = true) q
  | _ => False
  end.
Proof.
  intros [Hsrt [Hlen Hpar]]. induction fuel as [|fuel IH]; intros start Hstart Hf Habove; [lia|].
  cbn [up_chain]. destruct start as [i|].
  - destruct (Hstart i eq_refl) as (Hif & w & Hw & Hle).
    assert (Hi : i < dsize d) by (unfold dsize; now apply nth_some_lt in Hw).
    apply Nat.ltb_lt in Hi. rewrite Hi. apply Nat.ltb_lt in Hi.
    unfold get. rewrite (vget_some _ _ _ Hw). cbn [bind].
    rewrite (mismatch_ok w q Hle). cbn [bind].
    destruct (prefixb w q && allowed ex i) eqn:E.
    + apply andb_true_iff in E as [E1 E2]. apply prefixb_spec in E1.
      exists w. repeat split; try easy.
      intros j v Hv Hp Ha. destruct (Habove j v Hv Hp Ha) as (i' & [= <-] & Hji).
      apply prefix_length. apply (prefix_comparable_le v w q); try easy.
      apply (sorted_nth (seqs d) j i v w); try easy. now apply strict_sorted.
    + destruct (nth_lt (parents d) i) as [p Hp]. { unfold dsize in Hi. lia. }
      unfold parent. rewrite (vget_some _ _ _ Hp). cbn [bind].
      destruct fuel as [|fuel]; [lia|].
      pose proof (Hpar i p Hp w Hw) as Hpok.
      apply IH; [|lia|].
      * intros j ->. destruct Hpok as (Hj & (v & Hv & Hvw) & _).
        split; [lia|]. exists v. split; [easy|].
        apply (lex_le_trans v w q); [now apply prefix_le|easy].
      * intros k v Hv Hvq Ha. destruct (Habove k v Hv Hvq Ha) as (i' & [= <-] & Hki).
        assert (Hne : k <> i).
        { intros ->. rewrite Hw in Hv. injection Hv as <-. rewrite Ha, andb_true_r in E.
          apply prefixb_spec in Hvq. congruence. }
        assert (Hvw : prefix v w).
        { apply (prefix_between v w q); try easy.
          apply (sorted_nth (seqs d) k i v w); try easy. now apply strict_sorted. }
        destruct p as [j|].
        -- exists j. split; [easy|]. destruct Hpok as (Hj & _ & Hmax).
           destruct (le_lt_dec k j) as [Hle'|Hgt]; [easy|].
           exfalso. apply (Hmax k v); try easy. lia.
        -- exfalso. apply (Hpok k v); try easy. lia.
  - intros k v Hv Hp Ha. destruct (Habove k v Hv Hp Ha) as (i' & H & _). discriminate.
Qed.

(** ** search *)
(** The learning step. *)
Definition learn (d : dict) (c : Z) : dict := mkDict (seqs d ++ [[c]]) (parents d ++ [None]).

(** On every well-formed dictionary. *)
Lemma search_sound d q ex : wf_dict d -> (ex = None -> q <> []) ->
  exists r d', search d q ex = Ok (r, d') /\
    (d' = d \/ (ex = None /\ exists c q', q = c :: q' /\ d' = learn d c /\ r = Some (dsize d))) /\
    (ex = None -> r <> None) /\
    forall i, r = Some i -> exists w, nth_error (seqs d') i = Some w /\ prefix w q /\ allowed ex i = true.
Proof.
  intros Hwf Hq. unfold search.
  destruct (lower_bound_spec (seqs d) q) as (r & -> & Hrl & Hpred & _). cbn [bind].
  assert (Hhit : exists b, (if Nat.ltb r (dsize d)
          then (w <- get d r ;; Ok (seq_eqb w q && allowed ex r)) else Ok false) = Ok b /\
     (b = true -> nth_error (seqs d) r = Some q /\ allowed ex r = true)).
  { destruct (Nat.ltb_spec r (dsize d)) as [Hlt|Hge].
    - destruct (nth_lt (seqs d) r Hlt) as [w Hw]. unfold get. rewrite (vget_some _ _ _ Hw). cbn [bind].
      exists (seq_eqb w q && allowed ex r). split; [easy|]. intro H.
      apply andb_true_iff in H as [H1 H2]. apply seq_eqb_spec in H1. now subst.
    - exists false. now split. }
  destruct Hhit as (b & -> & Hb). cbn [bind]. destruct b.
  - exists (Some r), d. destruct (Hb eq_refl) as [Hb1 Hb2]. repeat split; try easy; auto.
    intros i [= <-]. exists q. repeat split; try easy. apply prefix_refl.
  - destruct (up_chain_sound d ex q Hwf (S (dsize d)) (pred_index r)) as (u & -> & Hu).
    + intros i Hi. destruct r as [|r]; [easy|]. injection Hi as <-.
      destruct (Hpred r eq_refl) as (w & Hw & Hlt).
      split; [unfold dsize; apply nth_some_lt in Hw; lia|]. exists w. split; [easy|].
      right. now apply lex_ltb_spec.
    + lia.
    + cbn [bind]. destruct u as [i|].
      * exists (Some i), d. repeat split; try easy; auto.
      * destruct ex as [l|].
        -- exists None, d. repeat split; try easy; auto.
        -- destruct q as [|c q]; [now destruct Hq|]. unfold vget. cbn [nth_error bind].
           exists (Some (dsize d)), (learn d c). repeat split; try easy.
           ++ right. split; [easy|]. now exists c, q.
           ++ intros i [= <-]. exists [c]. unfold learn, dsize. cbn [seqs].
              rewrite nth_error_app2, Nat.sub_diag by lia. repeat split; try easy. now exists q.
Qed.

(** On a dictionary in good order: exact. *)
Lemma search_full d q ex : full_dict d -> (ex = None -> q <> []) ->
  match search d q ex with
  | Ok (Some i, d') =>
      (d' = d /\ longest_prefix (seqs d) (fun k => allowed ex k = true) q i) \/
      (ex = None /\ no_prefix (seqs d) (fun _ => True) q /\ i = dsize d /\
       exists c q', q = c :: q' /\ d' = learn d c)
  | Ok (None, d') => d' = d /\ ex <> None /\ no_prefix (seqs d) (fun k => allowed ex k = true) q
  | _ => False
  end.
Proof.
  intros Hfull Hq. pose proof Hfull as [Hsrt Hlinks]. unfold search.
  destruct (lower_bound_spec (seqs d) q) as (r & -> & Hrl & Hpred & Hbound). cbn [bind].
  destruct (Hbound (strict_sorted _ Hsrt)) as [Hlo Hhi].
  assert (Hhit : exists b, (if Nat.ltb r (dsize d)
          then (w <- get d r ;; Ok (seq_eqb w q && allowed ex r)) else Ok false) = Ok b /\
     (b = true -> nth_error (seqs d) r = Some q /\ allowed ex r = true) /\
     (b = false -> nth_error (seqs d) r = Some q -> allowed ex r = false)).
  { destruct (Nat.ltb_spec r (dsize d)) as [Hlt|Hge].
    - destruct (nth_lt (seqs d) r Hlt) as [w Hw]. unfold get. rewrite (vget_some _ _ _ Hw). cbn [bind].
      exists (seq_eqb w q && allowed ex r). split; [easy|]. split; intro H.
      + apply andb_true_iff in H as [H1 H2]. apply seq_eqb_spec in H1. now subst.
      + rewrite Hw. intros [= ->]. now rewrite seq_eqb_refl in H.
    - exists false. split; [easy|]. split; [easy|]. intros _ H. apply nth_some_lt in H.
      unfold dsize in Hge. lia. }
  destruct Hhit as (b & -> & Hb1 & Hb2). cbn [bind]. destruct b.
  - left. split; [easy|]. destruct (Hb1 eq_refl) as [Hr Ha]. exists q. repeat split; try easy.
    + apply prefix_refl.
    + intros j v _ Hp _. now apply prefix_length.
  - pose proof (up_chain_complete d ex q Hfull (S (dsize d)) (pred_index r)) as Hc.
    assert (Hres : match up_chain (S (dsize d)) d ex q (pred_index r) with
      | Ok (Some i) => longest_prefix (seqs d) (fun k => allowed ex k = true) q i
      | Ok None => no_prefix (seqs d) (fun k => allowed ex k = true) q
      | _ => False end).
    { apply Hc.
      - intros i Hi. destruct r as [|r]; [easy|]. injection Hi as <-.
        destruct (Hpred r eq_refl) as (w & Hw & Hlt).
        split; [unfold dsize; apply nth_some_lt in Hw; lia|]. exists w. split; [easy|].
        right. now apply lex_ltb_spec.
      - lia.
      - intros k v Hv Hp Ha.
        assert (Hk : k < r).
        { destruct (lt_dec k r) as [Hlt|Hge]; [easy|]. exfalso.
          assert (Hvq : v = q).
          { apply lex_le_antisym; [now apply prefix_le|].
            apply lex_ltb_false. apply (Hhi k v); [lia|easy]. }
          subst v. destruct (lt_eq_lt_dec k r) as [[H|H]|H]; [lia| |].
          - subst k. rewrite (Hb2 eq_refl Hv) in Ha. discriminate.
          - destruct (nth_lt (seqs d) r) as [w Hw]. { apply nth_some_lt in Hv. lia. }
            pose proof (strict_nth _ r k w q Hsrt Hw Hv H) as Hlt.
            assert (lex_ltb w q = false) by (apply (Hhi r w); easy).
            apply lex_ltb_spec in Hlt. congruence. }
        destruct r as [|r]; [lia|]. exists r. split; [easy|lia]. }
    destruct (up_chain (S (dsize d)) d ex q (pred_index r)) as [[i|]| | |]; try easy; cbn [bind].
    + left. now split.
    + destruct ex as [l|].
      * split; [easy|]. split; [easy|]. exact Hres.
      * destruct q as [|c q]; [now destruct Hq|]. unfold vget. cbn [nth_error bind].
        right. split; [easy|]. split.
        { intros j v Hv Hp _. now apply (Hres j v). }
        split; [easy|]. now exists c, q.
Qed.

(** Learning keeps dictionaries well formed, and in good order when the symbol comes last. *)
Lemma learn_wf d c : wf_dict d -> wf_dict (learn d c).
Proof.
  intros [Hlen Hpar]. split; [unfold learn; cbn; rewrite !app_length; simpl; lia|].
  intros i j H. unfold learn in *. cbn [seqs parents] in *.
  destruct (lt_dec i (length (parents d))) as [Hlt|Hge].
  - rewrite nth_error_app1 in H by easy. destruct (Hpar i j H) as (Hj & v & w & Hv & Hw & Hp).
    split; [easy|]. exists v, w. rewrite !nth_error_app1; [easy| |].
    + now apply nth_some_lt in Hw.
    + now apply nth_some_lt in Hv.
  - rewrite nth_error_app2 in H by lia.
    destruct (i - length (parents d)) as [|k]; simpl in H; [easy|]. now destruct k.
Qed.

Lemma learn_full d c : full_dict d ->
  (forall w, In w (seqs d) -> lex_lt w [c]) ->
  (forall j v, nth_error (seqs d) j = Some v -> ~ prefix v [c]) ->
  full_dict (learn d c).
Proof.
  intros [Hsrt [Hlen Hpar]] Hlt Hno. split.
  - now apply strict_app_last.
  - split; [unfold learn; cbn; rewrite !app_length; simpl; lia|].
    intros i par H. unfold learn in *. cbn [seqs parents] in *.
    destruct (lt_dec i (length (parents d))) as [Hi|Hge].
    + rewrite nth_error_app1 in H by easy. intros w Hw.
      rewrite nth_error_app1 in Hw by lia. pose proof (Hpar i par H w Hw) as Hp.
      destruct par as [j|].
      * destruct Hp as (Hj & (v & Hv & Hvw) & Hmax). split; [easy|]. split.
        -- exists v. split; [|easy]. rewrite nth_error_app1; [easy|lia].
        -- intros k u Hk Hu. rewrite nth_error_app1 in Hu by lia. now apply (Hmax k u).
      * intros k u Hk Hu. rewrite nth_error_app1 in Hu by lia. now apply (Hp k u).
    + rewrite nth_error_app2 in H by lia.
      destruct (i - length (parents d)) as [|k] eqn:Ei; simpl in H; [|now destruct k].
      injection H as <-. intros w Hw k u Hk Hu.
      assert (i = length (seqs d)) by lia. subst i.
      rewrite nth_error_app2, Nat.sub_diag in Hw by lia. injection Hw as <-.
      rewrite nth_error_app1 in Hu by lia. now apply (Hno k u).
Qed.
