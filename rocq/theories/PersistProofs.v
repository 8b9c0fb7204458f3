(** PersistProofs: what the files hold and what is read back from them. *)
From Coq Require Import Ascii String Permutation Sorted.
From Verif Require Import Base Spec FloatOps FloatLaws ModelDict ModelCoder ModelTok Maps ModelStat ModelBuilder ModelStream ModelVGram ModelString ModelJson ModelPersist
  OrderProofs DictProofs CoderProofs ExpandProofs TokProofs StreamProofs JsonProofs JsonRoundTrip SpecTok SpecJson SpecStream SpecPersist.
Local Open Scope Z_scope.
Local Open Scope list_scope.

Lemma wrap32_id z : int32 z -> wrap32 z = z.
Proof. unfold int32, wrap32. intro H. rewrite Z.mod_small by lia. lia. Qed.

(** ** A dictionary is determined by its words *)
Lemma parent_unique ws i a b : (i < length ws)%nat -> parent_ok ws i a -> parent_ok ws i b -> a = b.
Proof.
  intros Hi Ha Hb. destruct (nth_lt ws i Hi) as [w Hw]. specialize (Ha w Hw). specialize (Hb w Hw). destruct a as [j|], b as [k|]; try easy.
  - destruct Ha as (A1 & (v & A2 & A3) & A4), Hb as (B1 & (u & B2 & B3) & B4). f_equal. destruct (Nat.lt_trichotomy j k) as [H|[H|H]]; [|exact H|].
    + exfalso. now apply (A4 k u).
    + exfalso. now apply (B4 j v).
  - destruct Ha as (A1 & (v & A2 & A3) & _). exfalso. now apply (Hb j v).
  - destruct Hb as (B1 & (v & B2 & B3) & _). exfalso. now apply (Ha k v).
Qed.
Lemma mk_dict_same d : full_dict d -> mk_dict (seqs d) = Ok d.
Proof.
  intros [Hs [Hl Hp]]. destruct (mk_dict_spec (seqs d)) as (d' & E & Es & Hl' & Hp'). rewrite E. f_equal.
  rewrite isort_id in Es by (now apply strict_sorted). destruct d as [ws ps], d' as [ws' ps']. cbn [seqs parents] in *. subst ws'. f_equal.
  apply nth_ext with None None; [congruence|]. intros i Hi. apply (parent_unique ws i); [congruence| |].
  - apply Hp'. now apply nth_error_nth'.
  - apply Hp. apply nth_error_nth'. congruence.
Qed.

Lemma map_fst_combine {A B} (l : list A) (m : list B) : length l = length m -> map fst (combine l m) = l.
Proof. revert m. induction l as [|a l IH]; intros [|b m] H; try easy. cbn. f_equal. apply IH. now injection H. Qed.
Lemma map_snd_combine {A B} (l : list A) (m : list B) : length l = length m -> map snd (combine l m) = m.
Proof. revert m. induction l as [|a l IH]; intros [|b m] H; try easy. cbn. f_equal. apply IH. now injection H. Qed.
Lemma nth_firstn_lt {A} (l : list A) n i : (i < n)%nat -> nth_error (firstn n l) i = nth_error l i.
Proof. revert l i. induction n as [|n IH]; intros [|a l] [|i] H; cbn; try easy; try lia. apply IH. lia. Qed.

Lemma nodup_left {A} (a b : list A) : NoDup (a ++ b) -> NoDup a.
Proof.
  induction a as [|x a IH]; cbn [app]; intro H; [constructor|]. inversion H as [|? ? Hx Ha]; subst. constructor; [|now apply IH].
  intro Hi. apply Hx. apply in_app_iff. now left.
Qed.

(** ** The codes in order *)
Definition code_lt (a b : Z * Z) : Prop := snd a < snd b.
Lemma ins_code_perm p l : Permutation (ins_code p l) (p :: l).
Proof.
  induction l as [|q l IH]; [reflexivity|]. cbn [ins_code]. destruct (Z.ltb (snd q) (snd p)); [|reflexivity].
  rewrite IH. apply perm_swap.
Qed.
Lemma sort_codes_perm l : Permutation (sort_codes l) l.
Proof. induction l as [|p l IH]; [constructor|]. cbn [sort_codes fold_right]. fold (sort_codes l). now rewrite ins_code_perm, IH. Qed.
Lemma ins_code_sorted p l : StronglySorted code_lt l -> (forall q, In q l -> snd q <> snd p) -> StronglySorted code_lt (ins_code p l).
Proof.
  induction 1 as [|q l Hl IH Hq]; intros Hn; [repeat constructor|]. cbn [ins_code]. destruct (Z.ltb_spec (snd q) (snd p)) as [Hlt|Hge].
  - constructor; [apply IH; intros; apply Hn; now right|]. apply Forall_forall. intros r Hr. apply (Permutation_in _ (ins_code_perm p l)) in Hr.
    destruct Hr as [<-|Hr]; [exact Hlt|]. now apply (proj1 (Forall_forall _ _) Hq).
  - assert (Hpq : code_lt p q) by (pose proof (Hn q (or_introl eq_refl)); unfold code_lt; lia). constructor; [now constructor|].
    constructor; [exact Hpq|]. apply Forall_forall. intros r Hr. apply (proj1 (Forall_forall _ _) Hq) in Hr. unfold code_lt in *. lia.
Qed.
Lemma sort_codes_sorted l : NoDup (map snd l) -> StronglySorted code_lt (sort_codes l).
Proof.
  induction l as [|p l IH]; intro Hn; [constructor|]. inversion Hn as [|? ? Hp Hn']; subst. cbn [sort_codes fold_right]. fold (sort_codes l).
  apply ins_code_sorted; [now apply IH|]. intros q Hq E. apply Hp. apply (Permutation_in _ (sort_codes_perm l)) in Hq. rewrite <- E. now apply in_map.
Qed.
Lemma sorted_codes_unique l l' : StronglySorted code_lt l -> StronglySorted code_lt l' -> Permutation l l' -> l = l'.
Proof.
  intro H. revert l'. induction H as [|p l Hl IH Hp]; intros l' H' HP; [now apply Permutation_nil in HP|].
  destruct H' as [|q l' Hl' Hq]; [apply Permutation_sym, Permutation_nil in HP; discriminate|]. rewrite Forall_forall in Hp, Hq.
  assert (E : p = q).
  { assert (A : In p (q :: l')) by (apply (Permutation_in _ HP); now left). assert (B : In q (p :: l)) by (apply (Permutation_in _ (Permutation_sym HP)); now left).
    destruct A as [A|A]; [congruence|]. destruct B as [B|B]; [congruence|]. specialize (Hp q B). specialize (Hq p A). unfold code_lt in *. lia. }
  subst q. f_equal. apply IH; [exact Hl'|]. now apply Permutation_cons_inv in HP.
Qed.
Lemma combine_sorted S k : StronglySorted code_lt (combine S (codes k (length S))).
Proof.
  revert k. induction S as [|x S IH]; intro k; [constructor|]. cbn. constructor; [apply (IH (Datatypes.S k))|]. apply Forall_forall. intros [a b] H.
  apply in_combine_r in H. apply (in_codes b (Datatypes.S k) (length S)) in H. unfold code_lt. cbn [snd]. lia.
Qed.
Lemma mfind_in (m : list (Z * Z)) x c : mfind Z.eqb m x = Some c -> In (x, c) m.
Proof. apply (mfind_some_in Z.eqb Zeqb_iff). Qed.
Lemma combine_nth_codes (S : list Z) : forall k x c, In (x, c) (combine S (codes k (length S))) -> exists i, nth_error S i = Some x /\ c = Z.of_nat (k + i).
Proof.
  induction S as [|y S IH]; intros k x c H; [easy|]. cbn in H. destruct H as [[= <- <-]|H].
  - exists 0%nat. split; [easy|]. f_equal. lia.
  - destruct (IH (Datatypes.S k) x c H) as (i & H1 & ->). exists (Datatypes.S i). split; [easy|]. f_equal. lia.
Qed.
Lemma like_sorted S c : NoDup S -> coder_like S c -> sort_codes (fwd c) = combine S (codes 0 (length S)).
Proof.
  intros Hn H. assert (HP : Permutation (combine S (codes 0 (length S))) (fwd c)).
  { apply NoDup_Permutation_bis.
    - apply (NoDup_map_inv fst). rewrite map_fst_combine; [exact Hn|now rewrite codes_length].
    - rewrite combine_length, codes_length, (cl_len _ _ H). lia.
    - intros [x k] Hx. apply combine_nth_codes in Hx as (i & Hi & ->). cbn [Nat.add]. apply mfind_in.
      rewrite (cl_in _ _ H x) by (now apply nth_error_In in Hi). now rewrite (pos_of_unique _ _ _ Hn Hi). }
  apply sorted_codes_unique; [|apply combine_sorted|].
  - apply sort_codes_sorted. apply (Permutation_NoDup (Permutation_map snd HP)). rewrite map_snd_combine by (now rewrite codes_length). apply codes_nodup.
  - rewrite sort_codes_perm. now apply Permutation_sym.
Qed.

(** ** Loops that append *)
Lemma append_ok {A B} (f : A -> outcome B) l : forall acc r, foldM (fun m i => w <- f i ;; Ok (m ++ [w])) l acc = Ok r ->
  exists ws, Forall2 (fun i w => f i = Ok w) l ws /\ r = acc ++ ws.
Proof.
  induction l as [|i l IH]; intros acc r H; cbn [foldM] in H.
  - injection H as <-. exists []. split; [constructor|now rewrite app_nil_r].
  - apply bind_ok in H as (m & H1 & H). apply bind_ok in H1 as (w & H1 & [= <-]). destruct (IH _ _ H) as (ws & H2 & ->).
    exists (w :: ws). split; [now constructor|]. now rewrite <- app_assoc.
Qed.
Lemma append_total {A B} (f : A -> outcome B) l ws : Forall2 (fun i w => f i = Ok w) l ws -> forall acc,
  foldM (fun m i => w <- f i ;; Ok (m ++ [w])) l acc = Ok (acc ++ ws).
Proof.
  induction 1 as [|i w l ws H1 H2 IH]; intro acc; cbn [foldM]; [now rewrite app_nil_r|]. rewrite H1. cbn [bind]. rewrite IH. now rewrite <- app_assoc.
Qed.

Section P.
  Context (fl : fops) (io : float_io (F fl)).
  Notation json := (json (F fl)).

  (** One saved word. *)
  Record entry := mkEntry { en_freq : Z; en_vec : seq; en_text : option text }.
  Definition entry_json (e : entry) : json :=
    JObj ((txt "freq"%string, JInt (en_freq e)) ::
          match en_text e with Some t => [(txt "text"%string, JStr t)] | None => [] end ++ [(txt "vec"%string, JArr (map JInt (en_vec e)))]).
  Definition text_of (tok : option tokenizer) (c : coder) (e : entry) : Prop :=
    match tok with None => en_text e = None | Some tk => exists v, decode c (en_vec e) = Ok v /\ en_text e = Some (tok_decode tk v) end.
  Lemma word_json_ok tok z d i j : word_json fl tok z d i = Ok j ->
    exists e, j = entry_json e /\ nth_error (seqs d) i = Some (en_vec e) /\ nth_error (zfreqs z) i = Some (en_freq e) /\ text_of tok (zcoder z) e.
  Proof.
    unfold word_json, get, vget, s_freqs. intro H. destruct (nth_error (seqs d) i) as [w|] eqn:Ew; [|discriminate H]. cbn [bind] in H.
    destruct (nth_error (zfreqs z) i) as [f|] eqn:Ef; [|discriminate H]. cbn [bind] in H. destruct tok as [tk|].
    - apply bind_ok in H as (v & Hv & [= <-]). exists (mkEntry f w (Some (tok_decode tk v))). cbn. repeat split. exists v. now split.
    - injection H as <-. exists (mkEntry f w None). cbn. repeat split.
  Qed.
  Lemma word_json_of tok z d i e : nth_error (seqs d) i = Some (en_vec e) -> nth_error (zfreqs z) i = Some (en_freq e) -> text_of tok (zcoder z) e ->
    word_json fl tok z d i = Ok (entry_json e).
  Proof.
    intros H1 H2 H3. unfold word_json, get, vget, s_freqs. rewrite H1. cbn [bind]. rewrite H2. cbn [bind]. destruct tok as [tk|]; cbn [text_of] in H3.
    - destruct H3 as (v & Hv & E). rewrite Hv. cbn [bind]. unfold entry_json. rewrite E. reflexivity.
    - unfold entry_json. rewrite H3. reflexivity.
  Qed.

  Definition entries_of (tok : option tokenizer) (z : stream fl) (d : dict) (es : list entry) : Prop :=
    map en_vec es = seqs d /\ map en_freq es = firstn (dsize d) (zfreqs z) /\ (dsize d <= length (zfreqs z))%nat /\ Forall (text_of tok (zcoder z)) es.
  Lemma seq_entries tok z d : forall n k ws, Forall2 (fun i w => word_json fl tok z d i = Ok w) (List.seq k n) ws ->
    exists es, ws = map entry_json es /\ length es = n /\ (forall i e, nth_error es i = Some e ->
      nth_error (seqs d) (k + i) = Some (en_vec e) /\ nth_error (zfreqs z) (k + i) = Some (en_freq e) /\ text_of tok (zcoder z) e).
  Proof.
    induction n as [|n IH]; intros k ws H; cbn [List.seq] in H; inversion H as [|? w ? ws' Hw Hr]; subst.
    - exists []. split; [easy|]. split; [easy|]. intros [|i] e; discriminate.
    - destruct (word_json_ok _ _ _ _ _ Hw) as (e & -> & H1 & H2 & H3). destruct (IH _ _ Hr) as (es & -> & <- & H4). exists (e :: es).
      split; [easy|]. split; [easy|]. intros [|i] e' He; cbn in He.
      + injection He as <-. rewrite Nat.add_0_r. easy.
      + rewrite Nat.add_succ_r. exact (H4 i e' He).
  Qed.
  Lemma nth_map {A B} (f : A -> B) l i : nth_error (map f l) i = option_map f (nth_error l i).
  Proof. revert i. induction l as [|a l IH]; intros [|i]; cbn; auto. Qed.
  Lemma nth_eq {A} (l l' : list A) : (forall i, nth_error l i = nth_error l' i) -> l = l'.
  Proof.
    revert l'. induction l as [|a l IH]; intros [|b l'] H; [easy|discriminate (H 0%nat)|discriminate (H 0%nat)|].
    pose proof (H 0%nat) as H0. cbn in H0. injection H0 as <-. f_equal. apply IH. intro i. exact (H (S i)).
  Qed.
  Lemma alphabet_saved tok z a : alphabet_to_json fl tok z = Ok a ->
    exists p d es, the_dict fl z = Ok (p, d) /\ a = pushed fl (map entry_json es) /\ entries_of tok z d es.
  Proof.
    unfold alphabet_to_json. intro H. apply bind_ok in H as ([p d] & Hd & H). apply bind_ok in H as (ws & H & [= <-]).
    apply append_ok in H as (ws' & H & E). cbn [app] in E. subst ws'. destruct (seq_entries _ _ _ _ _ _ H) as (es & -> & Hl & He). cbn [Nat.add] in He.
    exists p, d, es. split; [exact Hd|]. split; [easy|]. unfold entries_of.
    assert (Hle : (dsize d <= length (zfreqs z))%nat).
    { destruct (dsize d) as [|n] eqn:En; [lia|]. destruct (nth_lt es n) as [e Hn]; [lia|]. destruct (He n e Hn) as (_ & Hf & _). apply nth_some_lt in Hf. lia. }
    split; [|split; [|split; [exact Hle|]]].
    - apply nth_eq. intro i. rewrite nth_map. destruct (nth_error es i) as [e|] eqn:E; cbn [option_map].
      + now destruct (He i e E) as (-> & _).
      + apply nth_error_None in E. symmetry. apply nth_error_None. unfold dsize in Hl. lia.
    - apply nth_eq. intro i. rewrite nth_map. destruct (nth_error es i) as [e|] eqn:E; cbn [option_map].
      + destruct (He i e E) as (_ & Hf & _). pose proof (nth_some_lt _ _ _ E). rewrite nth_firstn_lt by lia. now rewrite Hf.
      + apply nth_error_None in E. symmetry. apply nth_error_None. rewrite firstn_length. lia.
    - apply Forall_forall. intros e Hi. apply In_nth_error in Hi as (i & Hi). now destruct (He i e Hi) as (_ & _ & H3).
  Qed.
  Lemma alphabet_of tok z p d es : the_dict fl z = Ok (p, d) -> entries_of tok z d es -> alphabet_to_json fl tok z = Ok (pushed fl (map entry_json es)).
  Proof.
    intros Hd (H1 & H2 & H3 & H4). unfold alphabet_to_json. rewrite Hd. cbn [bind].
    rewrite (append_total (word_json fl tok z d) _ (map entry_json es)); [easy|].
    assert (Hl : dsize d = length es) by (unfold dsize; now rewrite <- H1, map_length).
    assert (G : forall n k r, Forall (text_of tok (zcoder z)) r -> length r = n -> (forall i e, nth_error r i = Some e ->
       nth_error (seqs d) (k + i) = Some (en_vec e) /\ nth_error (zfreqs z) (k + i) = Some (en_freq e)) ->
       Forall2 (fun i w => word_json fl tok z d i = Ok w) (List.seq k n) (map entry_json r)).
    { induction n as [|n IH]; intros k r Ht Hr He; destruct r as [|e r]; try discriminate Hr; [constructor|]. cbn [List.seq map]. inversion Ht; subst. constructor.
      - destruct (He 0%nat e eq_refl) as [A B]. rewrite Nat.add_0_r in A, B. now apply word_json_of.
      - apply IH; [easy|now injection Hr|]. intros i e' Hi. rewrite Nat.add_succ_comm. exact (He (S i) e' Hi). }
    apply G; [exact H4|easy|]. cbn [Nat.add]. intros i e Hi. split.
    - rewrite <- H1, nth_map, Hi. easy.
    - pose proof (nth_some_lt _ _ _ Hi). rewrite <- (nth_firstn_lt (zfreqs z) (dsize d) i) by lia. rewrite <- H2, nth_map, Hi. easy.
  Qed.
  Lemma entries_exist tok z d : (dsize d <= length (zfreqs z))%nat ->
    (forall tk, tok = Some tk -> forall w, In w (seqs d) -> exists v, decode (zcoder z) w = Ok v) -> exists es, entries_of tok z d es.
  Proof.
    unfold entries_of, dsize. intros Hl Hd. set (c := zcoder z) in *. generalize dependent (zfreqs z). intro fs. revert fs.
    induction (seqs d) as [|w ws IH]; intros fs Hl; [exists []; cbn; repeat split; [lia|constructor]|]. destruct fs as [|f fs]; [cbn in Hl; lia|].
    destruct (IH (fun tk E w' Hw => Hd tk E w' (or_intror Hw)) fs) as (es & H1 & H2 & H3 & H4); [cbn in Hl; lia|].
    assert (Ht : exists tx, text_of tok c (mkEntry f w tx)).
    { destruct tok as [tk|]; [|now exists None]. destruct (Hd tk eq_refl w (or_introl eq_refl)) as (v & Hv). exists (Some (tok_decode tk v)). now exists v. }
    destruct Ht as (tx & Ht). exists (mkEntry f w tx :: es). cbn [map en_vec en_freq length firstn]. rewrite H1, H2. repeat split; [lia|now constructor].
  Qed.

  (** ** The whole file *)
  Definition full_obj (a c m : json) (size : Z) (ex : option (bool * bool)) : list (text * json) :=
    (txt "alphabet"%string, a) :: (txt "coder"%string, c) ::
    match ex with Some (f, g) => [(txt "fitted"%string, JBool f); (txt "freqs_computed"%string, JBool g)] | None => [] end ++
    [(txt "min_prob"%string, m); (txt "size"%string, JInt size)].
  (** The four save functions in one: [ex] are the flags of a fitted model. *)
  Definition save_any (lax : bool) (tok : option tokenizer) (ex : option (bool * bool)) (z : stream fl) : outcome text :=
    o <- base_info fl lax tok z ;;
    write_to_file fl io (match ex with
                         | Some (f, g) => oset (oset o (txt "fitted"%string) (JBool f)) (txt "freqs_computed"%string) (JBool g)
                         | None => o
                         end).
  Lemma save_stream_any lax z : save_stream fl io lax z = save_any lax None None z.
  Proof. reflexivity. Qed.
  Lemma save_tstream_any lax z : save_tstream fl io lax z = save_any lax (Some (ttok z)) None (tst z).
  Proof. reflexivity. Qed.
  Lemma save_tvgram_any lax v : save_tvgram fl io lax v = save_any lax (Some (tvtok v)) (Some (vfitted (tv v), vcomputed (tv v))) (vs (tv v)).
  Proof. reflexivity. Qed.
  Definition coder_json (c : coder) : json := pushed fl (map (fun p => JInt (fst p)) (sort_codes (fwd c))).
  Definition minp_json (z : stream fl) : json := match zminp z with Some x => JFloat x | None => JNull end.
  (** What the file says: a number that cannot be written is null. *)
  Definition minp_written (z : stream fl) : json :=
    match zminp z with Some x => match io_show io x with Some _ => JFloat x | None => JNull end | None => JNull end.
  Lemma save_any_eq tok ex z : save_any true tok ex z =
    (a <- alphabet_to_json fl tok z ;; t <- dump io 0 (JObj (full_obj a (coder_json (zcoder z)) (minp_json z) (zsize z) ex)) ;; Ok (t ++ [10])).
  Proof.
    unfold save_any, base_info, coder_to_json, code_map. cbn [bind]. fold (coder_json (zcoder z)). fold (minp_json z).
    destruct (alphabet_to_json fl tok z) as [a| | |]; [|reflexivity..]. cbn [bind]. destruct ex as [[f g]|]; reflexivity.
  Qed.
  Lemma dump_members_app ind a b : dump_members io ind (a ++ b) = (x <- dump_members io ind a ;; y <- dump_members io ind b ;; Ok (x ++ y)).
  Proof.
    induction a as [|[k v] a IH]; cbn [app dump_members bind]; [now destruct (dump_members io ind b)|].
    destruct (dump_string k) as [kt| | |]; [|reflexivity..]. cbn [bind]. destruct (dump io (2 + ind) v) as [t| | |]; [|reflexivity..]. cbn [bind]. rewrite IH.
    destruct (dump_members io ind a) as [x| | |]; [|reflexivity..]. cbn [bind]. destruct (dump_members io ind b) as [y| | |]; reflexivity.
  Qed.
  Lemma written_same a c z size ex : dump io 0 (JObj (full_obj a c (minp_json z) size ex)) = dump io 0 (JObj (full_obj a c (minp_written z) size ex)).
  Proof.
    unfold full_obj, minp_json, minp_written. destruct (zminp z) as [x|]; [|reflexivity]. destruct (io_show io x) as [t|] eqn:E; [reflexivity|].
    rewrite !dump_obj. f_equal. cbn [dump_members]. rewrite !dump_members_app. cbn [dump_members].
    assert (G : forall ind, dump io ind (JFloat x) = dump io ind JNull) by (intro ind; cbn [dump]; unfold dump_float; now rewrite E). now rewrite G.
  Qed.

  Definition fits_entry (e : entry) : Prop :=
    int32 (en_freq e) /\ Forall int32 (en_vec e) /\ match en_text e with Some t => chars t | None => True end.
  Lemma int_printable z : int32 z -> printable io (JInt z).
  Proof. unfold int32. intro H. constructor. lia. Qed.
  Lemma chars_txt s : chars (txt s).
  Proof.
    induction s as [|a s IH]; [constructor|]. cbn [txt]. constructor; [|exact IH]. pose proof (nat_ascii_bounded a). destruct (Z.ltb_spec (Z.of_nat (nat_of_ascii a)) 128); lia.
  Qed.
  Lemma entry_printable e : fits_entry e -> printable io (entry_json e).
  Proof.
    intros (H1 & H2 & H3). unfold entry_json. assert (Hv : printable io (JArr (map JInt (en_vec e)))).
    { constructor. apply Forall_map. eapply Forall_impl; [|exact H2]. exact int_printable. }
    constructor.
    - constructor; [split; [apply chars_txt|now apply int_printable]|]. destruct (en_text e) as [t|]; cbn [app].
      + constructor; [split; [apply chars_txt|now constructor]|]. constructor; [split; [apply chars_txt|exact Hv]|constructor].
      + constructor; [split; [apply chars_txt|exact Hv]|constructor].
    - destruct (en_text e) as [t|]; cbn [app]; repeat (constructor; [|repeat constructor]); repeat constructor.
  Qed.
  Lemma pushed_printable l : Forall (printable io) l -> printable io (pushed fl l).
  Proof. intro H. destruct l; [constructor|now constructor]. Qed.
  Lemma full_printable a c m size ex : printable io a -> printable io c -> printable io m -> int32 size -> printable io (JObj (full_obj a c m size ex)).
  Proof.
    intros Ha Hc Hm Hs. assert (Hs' := int_printable _ Hs). unfold full_obj. constructor.
    - constructor; [split; [apply chars_txt|exact Ha]|]. constructor; [split; [apply chars_txt|exact Hc]|].
      destruct ex as [[f g]|]; cbn [app]; repeat (constructor; [split; [apply chars_txt|assumption || constructor]|]); constructor.
    - destruct ex as [[f g]|]; cbn [app]; repeat (constructor; [|repeat constructor]); repeat constructor.
  Qed.
  Lemma chars_decode tk v : char_tok tk -> chars (tok_decode tk v).
  Proof.
    intro H. induction v as [|i v IH]; [constructor|]. cbn [tok_decode].
    destruct (mfind Z.eqb (tbwd tk) i) as [w|] eqn:E; [|exact IH]. apply Forall_app. split; [|exact IH].
    exact (H _ _ E).
  Qed.
  Definition tok_chars (tok : option tokenizer) : Prop := match tok with Some tk => char_tok tk | None => True end.
  Lemma fits_all tok z p d es : int_stream fl z -> tok_chars tok -> the_dict fl z = Ok (p, d) -> entries_of tok z d es -> Forall fits_entry es.
  Proof.
    intros (_ & I2 & _ & I4) Ht Hd (H1 & H2 & H3 & H4). unfold the_dict in Hd. destruct (zdict z) as [q|] eqn:Eq; [|discriminate].
    apply bind_ok in Hd as (d' & Hd & [= -> ->]). specialize (I4 _ _ eq_refl Hd). apply Forall_forall. intros e He. split; [|split].
    - apply (in_map en_freq) in He. rewrite H2 in He. rewrite Forall_forall in I2. apply I2. rewrite <- (firstn_skipn (dsize d) (zfreqs z)). apply in_app_iff. now left.
    - apply (in_map en_vec) in He. rewrite H1 in He. rewrite Forall_forall in I4. now apply I4.
    - rewrite Forall_forall in H4. specialize (H4 e He). destruct tok as [tk|]; cbn [text_of tok_chars] in *.
      + destruct H4 as (v & _ & ->). now apply chars_decode.
      + now rewrite H4.
  Qed.
  Lemma coder_printable z : int_stream fl z -> printable io (coder_json (zcoder z)).
  Proof.
    intros (_ & _ & H & _). apply pushed_printable. apply Forall_map. apply Forall_forall. intros q Hq. apply (Permutation_in _ (sort_codes_perm _)) in Hq.
    apply int_printable. exact (proj1 (Forall_forall _ _) H q Hq).
  Qed.

  (** A successful save, and what its file means. *)
  Definition file_obj (z : stream fl) (es : list entry) (ex : option (bool * bool)) : list (text * json) :=
    full_obj (pushed fl (map entry_json es)) (coder_json (zcoder z)) (minp_written z) (zsize z) ex.
  Lemma saved tok ex z file : save_any true tok ex z = Ok file -> int_stream fl z -> tok_chars tok -> minp_file fl io z ->
    exists p d es t, the_dict fl z = Ok (p, d) /\ entries_of tok z d es /\ Forall fits_entry es /\
      dump io 0 (JObj (file_obj z es ex)) = Ok t /\ printable io (JObj (file_obj z es ex)) /\ file = t ++ [10].
  Proof.
    intros H Hi Ht Hm. rewrite save_any_eq in H. apply bind_ok in H as (a & Ha & H). rewrite written_same in H. apply bind_ok in H as (t & Hd & [= <-]).
    apply alphabet_saved in Ha as (p & d & es & Ed & -> & He). pose proof (fits_all _ _ _ _ _ Hi Ht Ed He) as Hf.
    exists p, d, es, t. do 3 (split; [assumption|]). split; [exact Hd|]. split; [|easy]. apply full_printable.
    - apply pushed_printable, Forall_map. eapply Forall_impl; [|exact Hf]. exact entry_printable.
    - now apply coder_printable.
    - unfold minp_written. destruct (zminp z) as [x|] eqn:Ex; [|constructor]. destruct (Hm x Ex) as [E|E].
      + rewrite E. constructor.
      + pose proof E as (t' & -> & _). now constructor.
    - apply Hi.
  Qed.
  Lemma saved_cut tok ex z file p u : save_any true tok ex z = Ok file -> int_stream fl z -> tok_chars tok -> minp_file fl io z ->
    file = p ++ u -> (2 <= length u)%nat -> parse io p = Throw JsonParse.
  Proof.
    intros H Hi Ht Hm E Hu. destruct (saved _ _ _ _ H Hi Ht Hm) as (_ & _ & es & t & _ & _ & _ & Hd & Hp & Ef).
    assert (Hu' : u <> []) by (destruct u; [cbn in Hu; lia|discriminate]). destruct (exists_last Hu') as (u0 & c & ->).
    rewrite app_assoc in E. rewrite Ef in E. apply app_inj_tail in E as [E _].
    eapply file_cut; [exact Hd|exact Hp|exact E|]. intros ->. cbn in Hu. lia.
  Qed.
  Lemma saved_newline tok ex z file p c : save_any true tok ex z = Ok file -> int_stream fl z -> tok_chars tok -> minp_file fl io z ->
    file = p ++ [c] -> parse io p = parse io file.
  Proof.
    intros H Hi Ht Hm E. destruct (saved _ _ _ _ H Hi Ht Hm) as (_ & _ & es & t & _ & _ & _ & Hd & Hp & Ef).
    destruct (file_back Hd Hp) as [P1 P2]. rewrite Ef in *. apply app_inj_tail in E as [-> _]. congruence.
  Qed.

  (** ** Reading it back *)
  Lemma field_alphabet a c m size ex : jfield fl (JObj (full_obj a c m size ex)) (txt "alphabet"%string) = Ok a.
  Proof. destruct ex as [[f g]|]; reflexivity. Qed.
  Lemma field_coder a c m size ex : jfield fl (JObj (full_obj a c m size ex)) (txt "coder"%string) = Ok c.
  Proof. destruct ex as [[f g]|]; reflexivity. Qed.
  Lemma field_minp a c m size ex : jfield fl (JObj (full_obj a c m size ex)) (txt "min_prob"%string) = Ok m.
  Proof. destruct ex as [[f g]|]; reflexivity. Qed.
  Lemma field_size a c m size ex : jfield fl (JObj (full_obj a c m size ex)) (txt "size"%string) = Ok (JInt size).
  Proof. destruct ex as [[f g]|]; reflexivity. Qed.
  Lemma field_fitted a c m size ex : jfield fl (JObj (full_obj a c m size ex)) (txt "fitted"%string) = Ok (match ex with Some (f, g) => JBool f | None => JNull end).
  Proof. destruct ex as [[f g]|]; reflexivity. Qed.
  Lemma field_computed a c m size ex :
    jfield fl (JObj (full_obj a c m size ex)) (txt "freqs_computed"%string) = Ok (match ex with Some (f, g) => JBool g | None => JNull end).
  Proof. destruct ex as [[f g]|]; reflexivity. Qed.
  Lemma items_pushed l : items fl (pushed fl l) = l.
  Proof. destruct l; reflexivity. Qed.
  Lemma get_ints_of w : Forall int32 w -> get_ints fl (map JInt w) = Ok w.
  Proof. induction 1 as [|c w Hc Hw IH]; [reflexivity|]. cbn [map get_ints get_int]. rewrite (wrap32_id c Hc). cbn [bind]. now rewrite IH. Qed.
  Lemma member_freq e : jmember fl (entry_json e) (txt "freq"%string) = Ok (JInt (en_freq e)).
  Proof. unfold entry_json. destruct (en_text e); reflexivity. Qed.
  Lemma member_vec e : jmember fl (entry_json e) (txt "vec"%string) = Ok (JArr (map JInt (en_vec e))).
  Proof. unfold entry_json. destruct (en_text e); reflexivity. Qed.
  Lemma member_text e t : en_text e = Some t -> jmember fl (entry_json e) (txt "text"%string) = Ok (JStr t).
  Proof. unfold entry_json. intros ->. reflexivity. Qed.
  Lemma read_alphabet_of j es : jfield fl j (txt "alphabet"%string) = Ok (pushed fl (map entry_json es)) -> Forall fits_entry es ->
    read_alphabet fl j = Ok (map en_freq es, map en_vec es).
  Proof.
    intros Hj Hf. unfold read_alphabet. rewrite Hj. cbn [bind]. rewrite items_pushed. clear Hj.
    assert (G : forall a b, foldM (fun p w => f <- (x <- jmember fl w (txt "freq"%string) ;; get_int fl x) ;;
        v <- (x <- jmember fl w (txt "vec"%string) ;; get_seq fl x) ;; Ok (fst p ++ [f], snd p ++ [v])) (map entry_json es) (a, b)
        = Ok (a ++ map en_freq es, b ++ map en_vec es)).
    { induction Hf as [|e es (H1 & H2 & _) Hf IH]; intros a b; [cbn; now rewrite !app_nil_r|]. cbn [map foldM]. rewrite member_freq. cbn [bind get_int].
      rewrite (wrap32_id _ H1). cbn [bind]. rewrite member_vec. cbn [bind get_seq]. rewrite (get_ints_of _ H2). cbn [bind fst snd]. rewrite IH. now rewrite <- !app_assoc. }
    apply G.
  Qed.
  Lemma read_coder_of j syms : jfield fl j (txt "coder"%string) = Ok (pushed fl (map JInt syms)) -> NoDup syms -> Forall int32 syms ->
    exists c, read_coder fl j = Ok c /\ coder_like syms c.
  Proof.
    intros Hj Hn Hi. unfold read_coder. rewrite Hj. cbn [bind]. rewrite items_pushed. clear Hj.
    assert (G : forall l acc c, NoDup (acc ++ l) -> coder_like acc c -> Forall int32 l ->
      exists c', foldM (fun c x => n <- get_int fl x ;; Ok (snd (encode c [n]))) (map JInt l) c = Ok c' /\ coder_like (acc ++ l) c').
    { induction l as [|x l IH]; intros acc c Hd Hc Hl; [exists c; now rewrite app_nil_r|]. inversion Hl as [|? ? Hx Hl']; subst.
      cbn [map foldM get_int]. rewrite (wrap32_id _ Hx). cbn [bind].
      assert (Hna : NoDup acc) by (now apply nodup_left in Hd). destruct (like_encode [x] acc c Hna Hc) as (c1 & E1 & H1). rewrite E1. cbn [snd].
      assert (Ea : adds acc [x] = acc ++ [x]).
      { cbn. unfold add1. destruct (in_dec Z.eq_dec x acc) as [Hxa|]; [|easy]. apply NoDup_remove_2 in Hd. exfalso. apply Hd. apply in_app_iff. now left. }
      rewrite Ea in H1. destruct (IH (acc ++ [x]) c1) as (c' & E' & H'); [now rewrite <- app_assoc|exact H1|exact Hl'|]. exists c'. split; [exact E'|].
      now rewrite <- app_assoc in H'. }
    apply (G syms [] new_coder Hn); [|exact Hi]. apply (like_refl []). constructor.
  Qed.
  Lemma coder_symbols S c : NoDup S -> coder_like S c -> coder_json c = pushed fl (map JInt S).
  Proof.
    intros Hn H. unfold coder_json. rewrite (like_sorted S c Hn H). f_equal.
    rewrite <- (map_map fst JInt), map_fst_combine by (now rewrite codes_length). reflexivity.
  Qed.
  Lemma symbols_int S c : coder_like S c -> Forall (fun p => int32 (fst p)) (fwd c) -> Forall int32 S.
  Proof.
    intros H Hf. apply Forall_forall. intros x Hx. pose proof (mfind_in _ _ _ (cl_in _ _ H x Hx)) as Hi. exact (proj1 (Forall_forall _ _) Hf _ Hi).
  Qed.
  Lemma read_dict_of S z es ex x : NoDup S -> coder_like S (zcoder z) -> int_stream fl z -> Forall fits_entry es -> zminp z = Some x -> io_ok io x ->
    exists c, coder_like S c /\ read_dict fl (JObj (file_obj z es ex)) = Ok (mkData c (map en_freq es) (map en_vec es) (zsize z) x).
  Proof.
    intros Hn Hc Hi Hf Ex Hx. unfold file_obj. rewrite (coder_symbols S _ Hn Hc). set (o := full_obj _ _ _ _ _).
    destruct (read_coder_of (JObj o) S) as (c & Ec & Hc'); [apply field_coder|exact Hn|apply (symbols_int S _ Hc), Hi|]. exists c. split; [exact Hc'|].
    unfold read_dict. rewrite Ec. rewrite (read_alphabet_of (JObj o) es (field_alphabet _ _ _ _ _) Hf). unfold o. rewrite field_size, field_minp. cbn [bind get_int].
    rewrite wrap32_id by apply Hi. unfold minp_written. rewrite Ex. destruct Hx as (t & -> & _). reflexivity.
  Qed.

  (** ** Writing succeeds *)
  Inductive clean : json -> Prop :=
  | cl_null : clean JNull
  | cl_bool b : clean (JBool b)
  | cl_int z : clean (JInt z)
  | cl_float x : clean (JFloat x)
  | cl_str s t : dump_string s = Ok t -> clean (JStr s)
  | cl_arr l : Forall clean l -> clean (JArr l)
  | cl_obj m : Forall (fun p => (exists t, dump_string (fst p) = Ok t) /\ clean (snd p)) m -> clean (JObj m).
  Lemma clean_dump : forall j, clean j -> forall ind, exists t, dump io ind j = Ok t.
  Proof.
    refine (json_rec' (P := fun j => clean j -> forall ind, exists t, dump io ind j = Ok t) _ _ _ _ _ _ _).
    - intros _ ind. eexists. reflexivity.
    - intros [] _ ind; eexists; reflexivity.
    - intros z _ ind. eexists. reflexivity.
    - intros x _ ind. eexists. reflexivity.
    - intros s H ind. inversion H as [| | | |? t Ht| |]; subst. exists t. exact Ht.
    - intros l Hl H ind. inversion H as [| | | | |? Hc|]; subst. destruct l as [|v l]; [eexists; reflexivity|]. rewrite dump_arr.
      assert (G : exists ts, dump_list io ind (v :: l) = Ok ts).
      { clear H. induction (v :: l) as [|a r IH]; [eexists; reflexivity|]. inversion Hl as [|? ? Ha Hr]; subst. inversion Hc as [|? ? Ca Cr]; subst.
        destruct (IH Hr Cr) as (ts & E). destruct (Ha Ca (2 + ind)%nat) as (t & Et). cbn [dump_list]. rewrite Et. cbn [bind]. rewrite E. eexists. reflexivity. }
      destruct G as (ts & ->). eexists. reflexivity.
    - intros m Hm H ind. inversion H as [| | | | | |? Hc]; subst. destruct m as [|q m]; [eexists; reflexivity|]. rewrite dump_obj.
      assert (G : exists ts, dump_members io ind (q :: m) = Ok ts).
      { clear H. induction (q :: m) as [|[k a] r IH]; [eexists; reflexivity|]. inversion Hm as [|? ? Ha Hr]; subst. inversion Hc as [|? ? [[kt Ck] Ca] Cr]; subst.
        destruct (IH Hr Cr) as (ts & E). destruct (Ha Ca (2 + ind)%nat) as (t & Et). cbn [dump_members fst snd] in *. rewrite Ck. cbn [bind]. rewrite Et. cbn [bind]. rewrite E.
        eexists. reflexivity. }
      destruct G as (ts & ->). eexists. reflexivity.
  Qed.
  Lemma ascii_dumped s : ascii_text s -> exists t, dump_string s = Ok t.
  Proof.
    intro H. unfold dump_string. assert (G : exists t, dump_escaped 0 0 s = Ok t).
    { induction s as [|c s IH]; [eexists; reflexivity|]. destruct IH as (t & E); [intros d Hd; apply H; now right|].
      assert (Hc : 0 <= c < 128) by (apply H; now left). cbn [dump_escaped]. assert (Eb : byte c = c) by (unfold byte; now rewrite Z.mod_small by lia).
      unfold utf8_decode. rewrite Eb, (type0 Hc). change (nth (Z.to_nat (0 * 16 + 0)) utf8_states 0) with 0. cbv iota beta zeta. change (Z.eqb 0 0) with true. cbv iota. rewrite dump_escaped_start, E. eexists. reflexivity. }
    destruct G as (t & ->). eexists. reflexivity.
  Qed.
  Definition clean_entry (e : entry) : Prop := match en_text e with Some t => ascii_text t | None => True end.
  Lemma entry_clean e : clean_entry e -> clean (entry_json e).
  Proof.
    intro H. unfold clean_entry in H. assert (Hv : clean (JArr (map JInt (en_vec e)))) by (constructor; apply Forall_map, Forall_forall; intros; constructor).
    unfold entry_json. constructor. constructor; [split; [eexists; reflexivity|constructor]|]. destruct (en_text e) as [t|]; cbn [app].
    - constructor; [split; [eexists; reflexivity|]|]; [destruct (ascii_dumped t H) as (u & Hu); now apply cl_str with u|].
      constructor; [split; [eexists; reflexivity|exact Hv]|constructor].
    - constructor; [split; [eexists; reflexivity|exact Hv]|constructor].
  Qed.
  Lemma pushed_clean l : Forall clean l -> clean (pushed fl l).
  Proof. intro H. destruct l; [constructor|now constructor]. Qed.
  Lemma save_total tok ex z p d es : the_dict fl z = Ok (p, d) -> entries_of tok z d es -> Forall clean_entry es -> exists file, save_any true tok ex z = Ok file.
  Proof.
    intros Hd He Hc. rewrite save_any_eq, (alphabet_of _ _ _ _ _ Hd He). cbn [bind].
    assert (Ca : clean (pushed fl (map entry_json es))) by (apply pushed_clean, Forall_map; eapply Forall_impl; [|exact Hc]; exact entry_clean).
    assert (Cc : clean (coder_json (zcoder z))) by (apply pushed_clean, Forall_map, Forall_forall; intros; constructor).
    assert (Cm : clean (minp_json z)) by (unfold minp_json; destruct (zminp z); constructor).
    assert (Co : clean (JObj (full_obj (pushed fl (map entry_json es)) (coder_json (zcoder z)) (minp_json z) (zsize z) ex))).
    { constructor. unfold full_obj. destruct ex as [[f g]|]; cbn [app]; repeat (constructor; [split; [eexists; reflexivity|assumption || constructor]|]); constructor. }
    destruct (clean_dump _ Co 0%nat) as (t & ->). eexists. reflexivity.
  Qed.
  (** Integer models: exactly when there are enough frequencies. *)
  Lemma no_texts z d es : entries_of None z d es -> Forall clean_entry es.
  Proof. intros (_ & _ & _ & H). eapply Forall_impl; [|exact H]. intros e He. cbn [text_of] in He. unfold clean_entry. now rewrite He. Qed.
  Lemma save_stream_ok z p d : the_dict fl z = Ok (p, d) -> (dsize d <= length (zfreqs z))%nat -> exists file, save_stream fl io true z = Ok file.
  Proof.
    intros Hd Hl. destruct (entries_exist None z d Hl) as (es & He); [discriminate|]. rewrite save_stream_any. exact (save_total None None z p d es Hd He (no_texts z d es He)).
  Qed.
  Lemma save_past_end tok ex z p d : the_dict fl z = Ok (p, d) -> (length (zfreqs z) < dsize d)%nat ->
    (forall tk, tok = Some tk -> forall w, In w (seqs d) -> exists v, decode (zcoder z) w = Ok v) -> save_any true tok ex z = UB OobRead.
  Proof.
    intros Hd Hl Ht. rewrite save_any_eq. unfold alphabet_to_json. rewrite Hd. cbn [bind]. set (n := length (zfreqs z)) in *.
    replace (dsize d) with (n + (1 + (dsize d - n - 1)))%nat by lia. rewrite seq_app, foldM_app.
    assert (G : exists r, foldM (fun l i => w <- word_json fl tok z d i ;; Ok (l ++ [w])) (List.seq 0 n) [] = Ok r).
    { assert (G : exists ws, Forall2 (fun i w => word_json fl tok z d i = Ok w) (List.seq 0 n) ws).
      { assert (G : forall i, In i (List.seq 0 n) -> exists w, word_json fl tok z d i = Ok w).
        { intros i Hi. apply in_seq in Hi. destruct (nth_lt (seqs d) i) as [w Hw]; [unfold dsize in Hl; lia|]. destruct (nth_lt (zfreqs z) i) as [f Hf]; [fold n; lia|].
          assert (T : exists tx, text_of tok (zcoder z) (mkEntry f w tx)).
          { destruct tok as [tk|]; [|now exists None]. destruct (Ht tk eq_refl w (nth_error_In _ _ Hw)) as (v & Hv). exists (Some (tok_decode tk v)). now exists v. }
          destruct T as (tx & T). exists (entry_json (mkEntry f w tx)). now apply word_json_of. }
        induction (List.seq 0 n) as [|i l IH]; [exists []; constructor|]. destruct (G i (or_introl eq_refl)) as (w & Hw).
        destruct IH as (ws & IH); [intros; apply G; now right|]. exists (w :: ws). now constructor. }
      destruct G as (ws & G). exists ([] ++ ws). now apply append_total. }
    destruct G as (r & ->). cbn [bind Nat.add List.seq foldM]. unfold word_json at 1. unfold get, vget at 1.
    destruct (nth_lt (seqs d) n) as [w Hw]; [unfold dsize in Hl; lia|]. rewrite Hw. cbn [bind]. unfold vget, s_freqs.
    rewrite (proj2 (nth_error_None (zfreqs z) n)) by (unfold n; lia). reflexivity.
  Qed.
End P.
