(** EmitProofs: the text that is written before an exception; a complete file is never left behind by a save that throws. *)
From Coq Require Import Ascii String Sorted.
From Verif Require Import Base FloatOps ModelDict ModelCoder ModelTok Maps ModelStat ModelBuilder ModelStream ModelVGram ModelString ModelJson ModelPersist ModelSave
  DictProofs SpecJson SpecPersist SpecSave JsonProofs JsonRoundTrip PersistProofs Utf8Proofs.
Local Open Scope Z_scope.
Local Open Scope list_scope.

Lemma wok a q : ((a, false) : writing) >>> q = (a ++ fst q, snd q).
Proof. reflexivity. Qed.
Lemma wbad a q : ((a, true) : writing) >>> q = (a, true).
Proof. reflexivity. Qed.

(** ** Strings *)
Lemma emit_escaped_spec : forall s buf st cp,
  (exists t, dump_escaped st cp s = Ok t /\ emit_escaped buf st cp s = (buf ++ t, false)) \/
  (dump_escaped st cp s = Throw JsonType /\ exists q, emit_escaped buf st cp s = (q, true) /\
    (q = [] \/ exists s1 s2 t, s = s1 ++ s2 /\ dump_escaped st cp s1 = Ok t /\ q = buf ++ t)).
Proof.
  induction s as [|c s IH]; intros buf st cp; cbn [dump_escaped emit_escaped].
  - destruct (st =? 0); [left; exists []; now rewrite app_nil_r|right; split; [easy|]; exists []; split; [easy|now left]].
  - destruct (utf8_decode st cp (byte c)) as [st' cp'] eqn:Ed. destruct (st' =? 0) eqn:E0.
    + set (buf' := buf ++ escaped cp' c). destruct (512 - Z.of_nat (length buf') <? 13).
      * unfold put. rewrite wok. destruct (IH [] st' cp') as [(t & -> & ->)|(-> & q & -> & Hq)]; cbn [bind fst snd].
        -- left. eexists. split; [reflexivity|]. unfold buf'. now rewrite <- app_assoc.
        -- right. split; [easy|]. eexists. split; [reflexivity|]. right. destruct Hq as [->|(s1 & s2 & t & -> & Ht & ->)].
           ++ exists [c], s, (escaped cp' c). split; [easy|]. split; [|unfold buf'; now rewrite app_nil_r]. cbn [dump_escaped]. rewrite Ed, E0. cbn [bind]. now rewrite app_nil_r.
           ++ exists (c :: s1), s2, (escaped cp' c ++ t). split; [easy|]. split; [|unfold buf'; now rewrite <- app_assoc]. cbn [dump_escaped]. now rewrite Ed, E0, Ht.
      * destruct (IH buf' st' cp') as [(t & -> & ->)|(-> & q & -> & Hq)]; cbn [bind].
        -- left. eexists. split; [reflexivity|]. unfold buf'. now rewrite <- app_assoc.
        -- right. split; [easy|]. eexists. split; [reflexivity|]. destruct Hq as [->|(s1 & s2 & t & -> & Ht & ->)]; [now left|right].
           exists (c :: s1), s2, (escaped cp' c ++ t). split; [easy|]. split; [|unfold buf'; now rewrite <- app_assoc]. cbn [dump_escaped]. now rewrite Ed, E0, Ht.
    + destruct (st' =? 1) eqn:E1; [right; split; [easy|]; exists []; split; [easy|now left]|].
      destruct (IH (buf ++ [c]) st' cp') as [(t & -> & ->)|(-> & q & -> & Hq)]; cbn [bind].
      * left. eexists. split; [reflexivity|]. now rewrite <- app_assoc.
      * right. split; [easy|]. eexists. split; [reflexivity|]. destruct Hq as [->|(s1 & s2 & t & -> & Ht & ->)]; [now left|right].
        exists (c :: s1), s2, (c :: t). split; [easy|]. split; [|now rewrite <- app_assoc]. cbn [dump_escaped]. now rewrite Ed, E0, E1, Ht.
Qed.
Lemma emit_string_spec s :
  (exists t, dump_string s = Ok t /\ emit_string s = (t, false)) \/
  (dump_string s = Throw JsonType /\ exists q s1 s2, s = s1 ++ s2 /\ dump_string s1 = Ok (q ++ [34]) /\ emit_string s = (q, true)).
Proof.
  unfold dump_string, emit_string, put. rewrite wok. destruct (emit_escaped_spec s [] 0 0) as [(t & -> & ->)|(-> & q & -> & Hq)]; cbn [bind fst snd].
  - left. eexists. split; [reflexivity|]. now rewrite wok.
  - right. split; [easy|]. rewrite wbad. cbn [fst snd app]. destruct Hq as [->|(s1 & s2 & t & E & Ht & ->)].
    + exists [34], [], s. easy.
    + exists (34 :: t), s1, s2. rewrite Ht. easy.
Qed.

(** ** Values *)
Section E.
  Context {F : Type} (io : float_io F).
  Notation json := (json F).

  (** Keys can be written. *)
  Inductive keyed : json -> Prop :=
  | ky_null : keyed JNull
  | ky_bool b : keyed (JBool b)
  | ky_int z : keyed (JInt z)
  | ky_float x : keyed (JFloat x)
  | ky_str s : keyed (JStr s)
  | ky_arr l : Forall keyed l -> keyed (JArr l)
  | ky_obj m : Forall (fun p => (exists t, dump_string (fst p) = Ok t) /\ keyed (snd p)) m -> keyed (JObj m).

  Fixpoint emit_list (ind : nat) (l : list json) : writing :=
    match l with
    | [] => put []
    | [v] => put (pad ind) >>> emit io (2 + ind) v
    | v :: r => put (pad ind) >>> emit io (2 + ind) v >>> put [44; 10] >>> emit_list ind r
    end.
  Fixpoint emit_members (ind : nat) (m : list (text * json)) : writing :=
    match m with
    | [] => put []
    | [(k, v)] => put (pad ind) >>> emit_string k >>> put [58; 32] >>> emit io (2 + ind) v
    | (k, v) :: r => put (pad ind) >>> emit_string k >>> put [58; 32] >>> emit io (2 + ind) v >>> put [44; 10] >>> emit_members ind r
    end.
  Lemma emit_arr ind v l : emit io ind (JArr (v :: l)) = (put [91; 10] >>> emit_list ind (v :: l) >>> put (10 :: repeat 32 ind ++ [93])).
  Proof.
    set (l' := v :: l). cbn [emit].
    assert (G : forall l', (fix go (l : list json) : writing :=
           match l with
           | [] => put []
           | [v] => put (repeat 32 (2 + ind)) >>> emit io (2 + ind) v
           | v :: r => put (repeat 32 (2 + ind)) >>> emit io (2 + ind) v >>> put [44; 10] >>> go r
           end) l' = emit_list ind l').
    { induction l'0 as [|x q IH]; [reflexivity|]. destruct q as [|y q]; [reflexivity|]. cbn [emit_list] in *. rewrite <- IH. reflexivity. }
    rewrite <- G. reflexivity.
  Qed.
  Lemma emit_obj ind p m : emit io ind (JObj (p :: m)) = (put [123; 10] >>> emit_members ind (p :: m) >>> put (10 :: repeat 32 ind ++ [125])).
  Proof.
    set (m' := p :: m). cbn [emit].
    assert (G : forall m', (fix go (m : list (text * json)) : writing :=
           match m with
           | [] => put []
           | [(k, v)] => put (repeat 32 (2 + ind)) >>> emit_string k >>> put [58; 32] >>> emit io (2 + ind) v
           | (k, v) :: r => put (repeat 32 (2 + ind)) >>> emit_string k >>> put [58; 32] >>> emit io (2 + ind) v >>> put [44; 10] >>> go r
           end) m' = emit_members ind m').
    { induction m'0 as [|[k x] q IH]; [reflexivity|]. destruct q as [|[k' y] q]; [reflexivity|]. cbn [emit_members] in *. rewrite <- IH. reflexivity. }
    rewrite <- G. reflexivity.
  Qed.

  (** Written in full, or cut off inside a value that could have been there. *)
  Definition settles (j : json) : Prop := printable io j -> keyed j -> forall ind,
    (exists t, dump io ind j = Ok t /\ emit io ind j = (t, false)) \/
    (dump io ind j = Throw JsonType /\ exists p u j', emit io ind j = (p, true) /\ dump io ind j' = Ok (p ++ u) /\ u <> [] /\ printable io j').

  Lemma dump_list_nil ind l : dump_list io ind l = Ok [] -> l = [].
  Proof. destruct l as [|v l]; [easy|]. cbn [dump_list]. intro H. apply bind_ok in H as (t & _ & H). apply bind_ok in H as (ts & _ & H). discriminate. Qed.
  Lemma dump_members_nil ind m : dump_members io ind m = Ok [] -> m = [].
  Proof.
    destruct m as [|[k v] m]; [easy|]. cbn [dump_members]. intro H. apply bind_ok in H as (kt & _ & H). apply bind_ok in H as (t & _ & H). apply bind_ok in H as (ts & _ & H). discriminate.
  Qed.
  Lemma emit_list_cons ind v r : r <> [] -> emit_list ind (v :: r) = (put (pad ind) >>> emit io (2 + ind) v >>> put [44; 10] >>> emit_list ind r).
  Proof. destruct r; [intro N; now elim N|reflexivity]. Qed.
  Lemma emit_members_cons ind k v r : r <> [] -> emit_members ind ((k, v) :: r) =
    (put (pad ind) >>> emit_string k >>> put [58; 32] >>> emit io (2 + ind) v >>> put [44; 10] >>> emit_members ind r).
  Proof. destruct r; [intro N; now elim N|reflexivity]. Qed.

  Lemma list_settles ind : forall l, Forall settles l -> Forall (printable io) l -> Forall keyed l ->
    (exists ts, dump_list io ind l = Ok ts /\ emit_list ind l = (lines ts, false)) \/
    (dump_list io ind l = Throw JsonType /\ exists p u l' ts, emit_list ind l = (p, true) /\ dump_list io ind l' = Ok ts /\ lines ts = p ++ u /\ u <> [] /\
      l' <> [] /\ Forall (printable io) l').
  Proof.
    induction l as [|v l IH]; intros HS HP HK; [left; now exists []|].
    inversion HS as [|? ? Sv Sl]; inversion HP as [|? ? Pv Pl]; inversion HK as [|? ? Kv Kl]; subst. specialize (IH Sl Pl Kl).
    cbn [dump_list]. destruct (Sv Pv Kv (2 + ind)%nat) as [(t & Dt & Et)|(Dt & p & u & v' & Et & Dv & Nu & Pv')]; rewrite Dt; cbn [bind].
    - destruct l as [|w l].
      + left. exists [pad ind ++ t]. split; [reflexivity|]. cbn [emit_list]. rewrite Et. reflexivity.
      + rewrite emit_list_cons by discriminate. rewrite Et. unfold put. rewrite !wok. cbn [fst snd].
        destruct IH as [(ts & Dl & El)|(Dl & p & u & l' & ts & El & Dl' & Lt & Nu & Nl & Pl')]; rewrite Dl, El; cbn [bind fst snd].
        * left. eexists. split; [reflexivity|]. rewrite lines_cons by (intros ->; apply dump_list_nil in Dl; discriminate). now rewrite <- !app_assoc.
        * right. split; [easy|]. exists (pad ind ++ t ++ [44; 10] ++ p), u, (v :: l'), ((pad ind ++ t) :: ts). split; [easy|].
          split; [cbn [dump_list]; now rewrite Dt, Dl'|]. split.
          { rewrite lines_cons by (intros ->; apply dump_list_nil in Dl'; contradiction). rewrite Lt, <- !app_assoc. reflexivity. }
          split; [exact Nu|]. split; [discriminate|now constructor].
    - right. split; [easy|]. exists (pad ind ++ p), u, [v'], [pad ind ++ p ++ u]. split.
      { destruct l as [|w l]; [cbn [emit_list]|rewrite emit_list_cons by discriminate]; rewrite Et; reflexivity. }
      split; [cbn [dump_list]; now rewrite Dv|]. split; [cbn [lines]; now rewrite <- app_assoc|]. split; [exact Nu|]. split; [discriminate|now constructor].
  Qed.
  Lemma sorted_cut (m1 : list (text * json)) k v m2 v' : StronglySorted key_lt (m1 ++ (k, v) :: m2) -> StronglySorted key_lt (m1 ++ [(k, v')]).
  Proof.
    induction m1 as [|q m1 IH]; cbn [app]; intro H; inversion H as [|? ? Hs Hf]; subst; [repeat constructor|]. constructor; [now apply IH|].
    apply Forall_app in Hf as [H1 H2]. apply Forall_app. split; [exact H1|]. inversion H2; subst. constructor; [assumption|constructor].
  Qed.
  Lemma members_settle ind : forall m, Forall (fun p => settles (snd p)) m -> Forall (fun p => chars (fst p) /\ printable io (snd p)) m ->
    Forall (fun p => (exists t, dump_string (fst p) = Ok t) /\ keyed (snd p)) m ->
    (exists ts, dump_members io ind m = Ok ts /\ emit_members ind m = (lines ts, false)) \/
    (dump_members io ind m = Throw JsonType /\ exists p u m1 k v m2 v' ts, m = m1 ++ (k, v) :: m2 /\ emit_members ind m = (p, true) /\
      dump_members io ind (m1 ++ [(k, v')]) = Ok ts /\ lines ts = p ++ u /\ u <> [] /\ printable io v').
  Proof.
    induction m as [|[k v] m IH]; intros HS HP HK; [left; now exists []|].
    inversion HS as [|? ? Sv Sl]; inversion HP as [|? ? [Ck Pv] Pl]; inversion HK as [|? ? [[kt Dk] Kv] Kl]; subst. cbn [fst snd] in *. specialize (IH Sl Pl Kl).
    assert (Ek : emit_string k = (kt, false)).
    { destruct (emit_string_spec k) as [(t & D & E)|(D & _)]; [|congruence]. congruence. }
    cbn [dump_members]. rewrite Dk. cbn [bind]. destruct (Sv Pv Kv (2 + ind)%nat) as [(t & Dt & Et)|(Dt & p & u & v' & Et & Dv & Nu & Pv')]; rewrite Dt; cbn [bind].
    - destruct m as [|w m].
      + left. exists [pad ind ++ kt ++ 58 :: 32 :: t]. split; [reflexivity|]. cbn [emit_members]. rewrite Et, Ek. reflexivity.
      + rewrite emit_members_cons by discriminate. rewrite Et, Ek. unfold put. rewrite !wok. cbn [fst snd].
        destruct IH as [(ts & Dl & El)|(Dl & p & u & m1 & k1 & v1 & m2 & v' & ts & Em & El & Dl' & Lt & Nu & Pv')]; rewrite Dl, El; cbn [bind fst snd].
        * left. eexists. split; [reflexivity|]. rewrite lines_cons by (intros ->; apply dump_members_nil in Dl; discriminate). now rewrite <- !app_assoc.
        * right. split; [easy|]. exists (pad ind ++ kt ++ [58; 32] ++ t ++ [44; 10] ++ p), u, ((k, v) :: m1), k1, v1, m2, v', ((pad ind ++ kt ++ 58 :: 32 :: t) :: ts).
          split; [cbn [app]; now rewrite Em|]. split; [easy|]. split; [cbn [app dump_members]; rewrite Dk; cbn [bind]; rewrite Dt; cbn [bind]; now rewrite Dl'|]. split; [|easy].
          rewrite lines_cons by (intros ->; apply dump_members_nil in Dl'; destruct m1; discriminate). rewrite Lt, <- !app_assoc. cbn [app]. now rewrite <- ?app_assoc.
    - right. split; [easy|]. exists (pad ind ++ kt ++ 58 :: 32 :: p), u, [], k, v, m, v', [pad ind ++ kt ++ 58 :: 32 :: p ++ u]. split; [easy|]. split.
      { destruct m as [|w m]; [cbn [emit_members]|rewrite emit_members_cons by discriminate]; rewrite Et, Ek; reflexivity. }
      split; [cbn [app dump_members]; rewrite Dk; cbn [bind]; now rewrite Dv|]. split; [|easy]. cbn [lines]. rewrite <- !app_assoc. cbn [app]. reflexivity.
  Qed.

  Lemma object_settles m : Forall (fun p => settles (snd p)) m -> printable io (JObj m) -> keyed (JObj m) -> forall ind,
    (exists t, dump io ind (JObj m) = Ok t /\ emit io ind (JObj m) = (t, false)) \/
    (dump io ind (JObj m) = Throw JsonType /\ exists p u m', emit io ind (JObj m) = (p, true) /\ dump io ind (JObj m') = Ok (p ++ u) /\ u <> [] /\ printable io (JObj m')).
  Proof.
    intros Hm P K ind. inversion P as [| | | | | |? Pm So]; inversion K as [| | | | | |? Km]; subst. destruct m as [|q m]; [left; eexists; split; reflexivity|].
    rewrite dump_obj, emit_obj. unfold put. rewrite wok. destruct (members_settle ind (q :: m) Hm Pm Km) as [(ts & D & E)|(D & p & u & m1 & k & v & m2 & v' & ts & Em & E & D' & Lt & Nu & Pv')];
      rewrite D, E; cbn [bind].
    - left. eexists. split; [reflexivity|]. rewrite wok. reflexivity.
    - right. split; [easy|]. rewrite wbad. exists (123 :: 10 :: p), (u ++ 10 :: repeat 32 ind ++ [125]), (m1 ++ [(k, v')]).
      split; [easy|]. split.
      { destruct m1 as [|x m1]; cbn [app] in *; rewrite dump_obj, D'; cbn [bind]; rewrite Lt; cbn [app]; now rewrite <- app_assoc. }
      split; [now destruct u|]. rewrite Em in Pm, So. constructor; [|now apply sorted_cut with v m2].
      apply Forall_app in Pm as [P1 P2]. apply Forall_app. split; [exact P1|]. inversion P2 as [|? ? [Ck _] _]; subst. constructor; [now split|constructor].
  Qed.
  Lemma all_settle : forall j, settles j.
  Proof.
    apply json_rec'; unfold settles at 1.
    - intros _ _ ind. left. eexists. split; reflexivity.
    - intros [] _ _ ind; left; eexists; split; reflexivity.
    - intros z _ _ ind. left. eexists. split; reflexivity.
    - intros x _ _ ind. left. eexists. split; reflexivity.
    - intros s P _ ind. inversion P as [| | | |? C| |]; subst. cbn [dump emit]. destruct (emit_string_spec s) as [(t & D & E)|(D & q & s1 & s2 & -> & D1 & E)].
      + left. now exists t.
      + right. split; [exact D|]. exists q, [34], (JStr s1). split; [exact E|]. split; [exact D1|]. split; [discriminate|]. constructor.
        apply Forall_app in C. apply C.
    - intros l Hl P K ind. inversion P as [| | | | |? Pl|]; inversion K as [| | | | |? Kl|]; subst. destruct l as [|v l]; [left; eexists; split; reflexivity|].
      rewrite dump_arr, emit_arr. unfold put. rewrite wok. destruct (list_settles ind (v :: l) Hl Pl Kl) as [(ts & D & E)|(D & p & u & l' & ts & E & D' & Lt & Nu & Nl & Pl')]; rewrite D, E; cbn [bind].
      + left. eexists. split; [reflexivity|]. rewrite wok. reflexivity.
      + right. split; [easy|]. rewrite wbad. destruct l' as [|v' l']; [now elim Nl|]. exists (91 :: 10 :: p), (u ++ 10 :: repeat 32 ind ++ [93]), (JArr (v' :: l')).
        split; [easy|]. split; [rewrite dump_arr, D'; cbn [bind]; rewrite Lt; cbn [app]; now rewrite <- app_assoc|]. split; [now destruct u|now constructor].
    - intros m Hm P K ind. destruct (object_settles m Hm P K ind) as [H|(D & p & u & m' & H)]; [now left|right]. split; [exact D|]. now exists p, u, (JObj m').
  Qed.

  (** Without any hypothesis: whether it throws, and what a successful call writes. *)
  Lemma emit_dump : forall j, keyed j -> forall ind,
    (exists t, dump io ind j = Ok t /\ emit io ind j = (t, false)) \/ (dump io ind j = Throw JsonType /\ snd (emit io ind j) = true).
  Proof.
    refine (json_rec' (P := fun j => keyed j -> forall ind, (exists t, dump io ind j = Ok t /\ emit io ind j = (t, false)) \/ (dump io ind j = Throw JsonType /\ snd (emit io ind j) = true)) _ _ _ _ _ _ _).
    - intros _ ind. left. eexists. split; reflexivity.
    - intros [] _ ind; left; eexists; split; reflexivity.
    - intros z _ ind. left. eexists. split; reflexivity.
    - intros x _ ind. left. eexists. split; reflexivity.
    - intros s _ ind. cbn [dump emit]. destruct (emit_string_spec s) as [(t & D & E)|(D & q & s1 & s2 & _ & _ & E)]; [left; now exists t|right]. now rewrite E.
    - intros l Hl K ind. inversion K as [| | | | |? Kl|]; subst. destruct l as [|v l]; [left; eexists; split; reflexivity|]. rewrite dump_arr, emit_arr. unfold put. rewrite wok.
      assert (G : (exists ts, dump_list io ind (v :: l) = Ok ts /\ emit_list ind (v :: l) = (lines ts, false)) \/ (dump_list io ind (v :: l) = Throw JsonType /\ snd (emit_list ind (v :: l)) = true)).
      { clear K. revert Hl Kl. generalize (v :: l). clear v l. induction l as [|v l IH]; intros Hl Kl; [left; now exists []|]. inversion Hl as [|? ? Hv Hr]; inversion Kl as [|? ? Kv Kr]; subst.
        specialize (IH Hr Kr). cbn [dump_list]. destruct (Hv Kv (2 + ind)%nat) as [(t & Dt & Et)|(Dt & Et)]; rewrite Dt; cbn [bind].
        - destruct l as [|w l]; [left; exists [pad ind ++ t]; split; [reflexivity|]; cbn [emit_list]; now rewrite Et|]. rewrite emit_list_cons by discriminate. rewrite Et. unfold put. rewrite !wok. cbn [fst snd].
          destruct IH as [(ts & Dl & El)|(Dl & El)]; rewrite Dl; cbn [bind]; [left|right; now rewrite El]. rewrite El. eexists. split; [reflexivity|]. cbn [fst snd].
          rewrite lines_cons by (intros ->; apply dump_list_nil in Dl; discriminate). now rewrite <- !app_assoc.
        - right. split; [easy|]. destruct (emit io (2 + ind) v) as [q b] eqn:Eq. cbn [snd] in Et. subst b.
          destruct l as [|w l]; [cbn [emit_list]|rewrite emit_list_cons by discriminate]; rewrite Eq; reflexivity. }
      destruct G as [(ts & -> & ->)|(-> & G)]; cbn [bind]; [left; eexists; split; [reflexivity|now rewrite wok]|right]. split; [easy|]. destruct (emit_list ind (v :: l)) as [q b]. cbn [snd] in G. now subst b.
    - intros m Hm K ind. inversion K as [| | | | | |? Km]; subst. destruct m as [|x m]; [left; eexists; split; reflexivity|]. rewrite dump_obj, emit_obj. unfold put. rewrite wok.
      assert (G : (exists ts, dump_members io ind (x :: m) = Ok ts /\ emit_members ind (x :: m) = (lines ts, false)) \/ (dump_members io ind (x :: m) = Throw JsonType /\ snd (emit_members ind (x :: m)) = true)).
      { clear K. revert Hm Km. generalize (x :: m). clear x m. induction l as [|[k v] l IH]; intros Hl Kl; [left; now exists []|]. inversion Hl as [|? ? Hv Hr]; inversion Kl as [|? ? [[kt Dk] Kv] Kr]; subst. cbn [fst snd] in *.
        assert (Ek : emit_string k = (kt, false)) by (destruct (emit_string_spec k) as [(t & D & E)|(D & _)]; congruence).
        specialize (IH Hr Kr). cbn [dump_members]. rewrite Dk. cbn [bind]. destruct (Hv Kv (2 + ind)%nat) as [(t & Dt & Et)|(Dt & Et)]; rewrite Dt; cbn [bind].
        - destruct l as [|w l]; [left; exists [pad ind ++ kt ++ 58 :: 32 :: t]; split; [reflexivity|]; cbn [emit_members]; now rewrite Et, Ek|]. rewrite emit_members_cons by discriminate. rewrite Et, Ek. unfold put. rewrite !wok. cbn [fst snd].
          destruct IH as [(ts & Dl & El)|(Dl & El)]; rewrite Dl; cbn [bind]; [left|right; now rewrite El]. rewrite El. eexists. split; [reflexivity|]. cbn [fst snd].
          rewrite lines_cons by (intros ->; apply dump_members_nil in Dl; discriminate). now rewrite <- !app_assoc.
        - right. split; [easy|]. destruct (emit io (2 + ind) v) as [q b] eqn:Eq. cbn [snd] in Et. subst b.
          destruct l as [|w l]; [cbn [emit_members]|rewrite emit_members_cons by discriminate]; rewrite Eq, Ek; reflexivity. }
      destruct G as [(ts & -> & ->)|(-> & G)]; cbn [bind]; [left; eexists; split; [reflexivity|now rewrite wok]|right]. split; [easy|]. destruct (emit_members ind (x :: m)) as [q b]. cbn [snd] in G. now subst b.
  Qed.
End E.

(** ** Files *)
Section F.
  Context (fl : fops) (io : float_io (F fl)).
  Notation json := (json (F fl)).

  Definition effect_any (lax : bool) (tok : option tokenizer) (ex : option (bool * bool)) (old : text) (z : stream fl) : outcome effect :=
    save_effect fl io old (o <- base_info fl lax tok z ;;
      Ok (match ex with
          | Some (f, g) => oset (oset o (txt "fitted"%string) (JBool f)) (txt "freqs_computed"%string) (JBool g)
          | None => o
          end)).
  Lemma stream_effect_any lax old z : stream_effect fl io lax old z = effect_any lax None None old z.
  Proof. unfold stream_effect, effect_any. now destruct (base_info fl lax None z). Qed.
  Lemma tstream_effect_any lax old z : tstream_effect fl io lax old z = effect_any lax (Some (ttok z)) None old (tst z).
  Proof. unfold tstream_effect, effect_any. now destruct (base_info fl lax (Some (ttok z)) (tst z)). Qed.
  Lemma tvgram_effect_any lax old v : tvgram_effect fl io lax old v = effect_any lax (Some (tvtok v)) (Some (vfitted (tv v), vcomputed (tv v))) old (vs (tv v)).
  Proof. reflexivity. Qed.
  Lemma effect_any_eq tok ex old z : effect_any true tok ex old z =
    save_effect fl io old (a <- alphabet_to_json fl tok z ;; Ok (full_obj fl a (coder_json fl (zcoder z)) (minp_json fl z) (zsize z) ex)).
  Proof.
    unfold effect_any, base_info, coder_to_json, code_map. cbn [bind]. fold (coder_json fl (zcoder z)). fold (minp_json fl z).
    destruct (alphabet_to_json fl tok z) as [a| | |]; [|reflexivity..]. cbn [bind]. destruct ex as [[f g]|]; reflexivity.
  Qed.
  Lemma effect_strict tok ex old z : effect_any false tok ex old z = UB MixedIters.
  Proof. reflexivity. Qed.
  Lemma save_strict tok ex z : save_any fl io false tok ex z = UB MixedIters.
  Proof. reflexivity. Qed.

  Lemma entry_keyed e : keyed (entry_json fl e).
  Proof.
    unfold entry_json. assert (Hv : keyed (JArr (map (@JInt (F fl)) (en_vec e)))) by (constructor; apply Forall_map, Forall_forall; intros; constructor).
    constructor. constructor; [split; [eexists; reflexivity|constructor]|]. destruct (en_text e) as [t|]; cbn [app].
    - constructor; [split; [eexists; reflexivity|constructor]|]. constructor; [split; [eexists; reflexivity|exact Hv]|constructor].
    - constructor; [split; [eexists; reflexivity|exact Hv]|constructor].
  Qed.
  Lemma full_keyed a c m size ex : keyed a -> keyed c -> keyed m -> keyed (JObj (full_obj fl a c m size ex)).
  Proof.
    intros Ka Kc Km. constructor. unfold full_obj. destruct ex as [[f g]|]; cbn [app]; repeat (constructor; [split; [eexists; reflexivity|assumption || constructor]|]); constructor.
  Qed.
  Lemma pushed_keyed l : Forall keyed l -> keyed (pushed fl l).
  Proof. intro H. destruct l; [constructor|now constructor]. Qed.
  Lemma saved_keyed tok z a ex : alphabet_to_json fl tok z = Ok a -> keyed (JObj (full_obj fl a (coder_json fl (zcoder z)) (minp_json fl z) (zsize z) ex)).
  Proof.
    intro Ha. apply alphabet_saved in Ha as (p & d & es & Ed & -> & He). apply full_keyed.
    - apply pushed_keyed, Forall_map, Forall_forall. intros e _. apply entry_keyed.
    - apply pushed_keyed, Forall_map, Forall_forall. intros. constructor.
    - unfold minp_json. destruct (zminp z); constructor.
  Qed.

  (** The functions that return the text of the file and the ones that follow the file agree. *)
  Lemma effect_agrees lax tok ex old z :
    (forall file, save_any fl io lax tok ex z = Ok file <-> effect_any lax tok ex old z = Ok (file, None)) /\
    (forall e, save_any fl io lax tok ex z = Throw e <-> exists t, effect_any lax tok ex old z = Ok (t, Some e)) /\
    (forall k, save_any fl io lax tok ex z = UB k <-> effect_any lax tok ex old z = UB k).
  Proof.
    destruct lax; [|rewrite save_strict, effect_strict; repeat split; intros; try congruence; now destruct H].
    rewrite save_any_eq, effect_any_eq. destruct (alphabet_to_json fl tok z) as [a|k|e|] eqn:Ea; cbn [bind save_effect].
    - pose proof (saved_keyed tok z a ex Ea) as K. unfold file_effect. destruct (emit_dump io _ K 0%nat) as [(t & D & E)|(D & E)].
      + rewrite D, E. cbn [bind]. clear. split; [|split]; intros x; split; intro H; try discriminate; try (injection H as <-; reflexivity). destruct H as [u H]. discriminate.
      + rewrite D. destruct (emit io 0 _) as [q b]. cbn [snd] in E. subst b. cbn [bind]. clear. split; [|split]; intros x; split; intro H; try discriminate.
        * injection H as <-. now exists q.
        * destruct H as [t H]. now injection H as _ <-.
    - clear. split; [|split]; intros x; split; intro H; try discriminate; try (now injection H as <-). now destruct H.
    - clear. split; [|split]; intros x; split; intro H; try discriminate; [injection H as <-; now exists old|]. destruct H as [t H]. now injection H as _ <-.
    - clear. split; [|split]; intros x; split; intro H; try discriminate. now destruct H.
  Qed.

  Lemma emit_written a c z size ex : emit io 0 (JObj (full_obj fl a c (minp_json fl z) size ex)) = emit io 0 (JObj (full_obj fl a c (minp_written fl io z) size ex)).
  Proof.
    unfold full_obj, minp_json, minp_written. destruct (zminp z) as [x|]; [|reflexivity]. destruct (io_show io x) as [t|] eqn:E; [reflexivity|].
    assert (G : forall ind, emit io ind (JFloat x) = emit io ind JNull) by (intro ind; cbn [emit]; unfold dump_float; now rewrite E).
    rewrite !emit_obj. do 2 f_equal. destruct ex as [[f g]|]; cbn [app emit_members]; now rewrite G.
  Qed.

  Lemma effect_thrown old info t : save_effect fl io old info = Ok (t, Some JsonType) -> info <> Throw JsonType -> exists o, info = Ok o /\ emit io 0 (JObj o) = (t, true).
  Proof.
    destruct info as [o|k|e|]; cbn [save_effect]; intros H N; try discriminate; [|injection H as _ ->; now elim N]. exists o. split; [easy|]. unfold file_effect in H.
    destruct (emit io 0 (JObj o)) as [q []]; [injection H as <-; easy|discriminate].
  Qed.
  Lemma decode_throws c w e : decode c w = Throw e -> e = OutOfRange.
  Proof.
    revert e. induction w as [|x w IH]; intros e H; cbn [decode] in H; [discriminate|]. destruct (mfind Z.eqb (bwd c) x); [|now injection H as <-].
    destruct (decode c w) as [r|k|e'|] eqn:E; cbn [bind] in H; try discriminate. injection H as <-. now apply IH.
  Qed.
  Lemma word_throws tok z d i e : word_json fl tok z d i = Throw e -> e = OutOfRange.
  Proof.
    unfold word_json, get, vget. destruct (nth_error (seqs d) i); [|discriminate]. cbn [bind]. destruct (nth_error (s_freqs fl z) i); [|discriminate]. cbn [bind].
    destruct tok as [tk|]; [|discriminate]. destruct (decode (zcoder z) s) as [v|k|e'|] eqn:E; cbn [bind]; try discriminate. intros [= <-]. now apply decode_throws in E.
  Qed.
  Lemma alphabet_throws tok z e : alphabet_to_json fl tok z = Throw e -> e = OutOfRange.
  Proof.
    unfold alphabet_to_json, the_dict, hget, vget. destruct (zdict z) as [p|]; [|discriminate]. destruct (nth_error (bheap (zb z)) p) as [d|]; [|discriminate]. cbn [bind].
    assert (G : forall l acc e', foldM (fun l i => w <- word_json fl tok z d i ;; Ok (l ++ [w])) l acc = Throw e' -> e' = OutOfRange).
    { induction l as [|i l IH]; intros acc e' E; [discriminate|]. cbn [foldM] in E. destruct (word_json fl tok z d i) as [w|k|e''|] eqn:Ew; cbn [bind] in E; try discriminate; [now apply IH in E|].
      injection E as <-. now apply word_throws in Ew. }
    destruct (foldM _ _ _) as [ws|k|e'|] eqn:E; cbn [bind]; try discriminate. intros [= <-]. now apply G in E.
  Qed.

  (** A save that throws while it writes leaves a text that cannot be read. *)
  Lemma effect_lost tok ex old z t : effect_any true tok ex old z = Ok (t, Some JsonType) -> int_stream fl z -> tok_chars tok -> minp_file fl io z -> parse io t = Throw JsonParse.
  Proof.
    intros H Hi Ht Hm. rewrite effect_any_eq in H. apply effect_thrown in H as (o & Ho & H).
    2:{ destruct (alphabet_to_json fl tok z) as [a|k|e|] eqn:Ea; cbn [bind]; intro X; try discriminate X. apply alphabet_throws in Ea. subst e. discriminate X. }
    apply bind_ok in Ho as (a & Ea & Ho). injection Ho as <-. rewrite emit_written in H.
    apply alphabet_saved in Ea as (p & d & es & Ed & -> & He). pose proof (fits_all fl _ _ _ _ _ Hi Ht Ed He) as Hf.
    set (o := full_obj fl _ _ _ _ _) in H.
    assert (P : printable io (JObj o)).
    { apply full_printable.
      - apply pushed_printable, Forall_map. eapply Forall_impl; [|exact Hf]. apply entry_printable.
      - now apply coder_printable.
      - unfold minp_written. destruct (zminp z) as [x|] eqn:Ex; [|constructor]. destruct (Hm x Ex) as [E|E].
        + rewrite E. constructor.
        + pose proof E as (t' & -> & _). now constructor.
      - apply Hi. }
    assert (K : keyed (JObj o)).
    { apply full_keyed.
      - apply pushed_keyed, Forall_map, Forall_forall. intros e _. apply entry_keyed.
      - apply pushed_keyed, Forall_map, Forall_forall. intros. constructor.
      - unfold minp_written. destruct (zminp z) as [x|]; [destruct (io_show io x)|]; constructor. }
    clearbody o. destruct (object_settles io o (proj2 (Forall_forall _ _) (fun q _ => all_settle io (snd q))) P K 0%nat) as [(t' & _ & E)|(_ & q & u & m' & E & D & Nu & P')]; rewrite E in H; [discriminate|].
    injection H as <-. eapply file_cut; [exact D|exact P'|reflexivity|exact Nu].
  Qed.
End F.
