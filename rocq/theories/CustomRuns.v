(** Objects with a tokenizer of the user's own: equal texts, the usual tokenizers as a special case, and executions. *)
From Coq Require Import Ascii String.
From Verif Require Import Base Spec FloatOps FloatLaws FloatIEEE FloatExample ModelTok ModelDict Maps ModelCoder ModelStat ModelBuilder
  ModelStream ModelVGram ModelString ModelCustom SpecTok CoderProofs TokProofs DictProofs SpecStat SpecBuilder EnvExample StreamRuns VGramRuns StringRuns
  PropsStreamLemmas PropsVGramLemmas SpecStream SpecVGram SpecString SpecCustom.
Local Open Scope string_scope.
Local Open Scope list_scope.

Section Same.
  Context (fl : fops) (norm norm' : text -> outcome text) (toks toks' : text -> outcome (list text)).
  Definition same (s s' : text) : Prop := exists ws, cut norm toks s ws /\ cut norm' toks' s' ws.
  Lemma same_transform s s' : same s s' -> forall t, c_transform norm toks t s = c_transform norm' toks' t s'.
  Proof. intros (ws & (n & H1 & H2) & n' & H3 & H4) t. unfold c_transform. rewrite H1, H3. cbn [bind]. rewrite H2, H4. reflexivity. Qed.
  Lemma same_all ss ss' : Forall2 same ss ss' -> forall t, c_transform_all norm toks t ss = c_transform_all norm' toks' t ss'.
  Proof.
    unfold c_transform_all. induction 1 as [|s s' ss ss' H Hs IH]; intro t; [reflexivity|]. cbn [mapM]. rewrite (same_transform _ _ H t).
    destruct (c_transform norm' toks' t s') as [[i t']| | |]; cbn [bind]; try reflexivity. now rewrite IH.
  Qed.
  Lemma same_calls :
    (forall s s', same s s' -> forall e z, c_accept fl norm toks e z s = c_accept fl norm' toks' e z s') /\
    (forall s s', same s s' -> forall z, c_parse fl norm toks z s = c_parse fl norm' toks' z s') /\
    (forall ss ss', Forall2 same ss ss' -> forall w v, c_fit fl norm toks w v ss = c_fit fl norm' toks' w v ss') /\
    (forall ss ss', Forall2 same ss ss' -> forall w v, c_apply fl norm toks w v ss = c_apply fl norm' toks' w v ss').
  Proof.
    split; [|split; [|split]].
    - intros s s' H e z. unfold c_accept. now rewrite (same_transform _ _ H).
    - intros s s' H z. unfold c_parse. now rewrite (same_transform _ _ H).
    - intros s s' H w v. unfold c_fit. now rewrite (same_all _ _ H).
    - intros s s' H w v. unfold c_apply. now rewrite (same_all _ _ H).
  Qed.
End Same.

(** The two tokenizers of the package as overriding functions. *)
Definition own_toks (k : tok_kind) (n : text) : outcome (list text) := Ok (tokenize k n).
Section Own.
  Context (fl : fops) (k : tok_kind).
  Lemma own_transform t s : tkind t = k -> tok_transform true t s = c_transform (normalize k) (own_toks k) t s.
  Proof. intros <-. reflexivity. Qed.
  Lemma kind_kept t ws : forall ids t', tok_ok t -> mapM (code_token true) ws t = Ok (ids, t') -> tok_ok t' /\ tkind t' = tkind t.
  Proof.
    intros ids t' Ht H. destruct (code_tokens_ok ws t Ht) as (i & t1 & E & H1 & [H2 _] & _). unfold text, seq in *. rewrite E in H. now injection H as <- <-.
  Qed.
  Lemma own_all ss : forall t, tok_ok t -> tkind t = k -> tok_transform_all true t ss = c_transform_all (normalize k) (own_toks k) t ss.
  Proof.
    unfold tok_transform_all, c_transform_all. induction ss as [|s ss IH]; intros t Ht Hk; [reflexivity|]. cbn [mapM]. rewrite (own_transform t s Hk).
    destruct (c_transform (normalize k) (own_toks k) t s) as [[i t']| | |] eqn:E; cbn [bind]; try reflexivity.
    unfold c_transform in E. apply bind_ok in E as (n & _ & E). apply bind_ok in E as (ws & _ & E). destruct (kind_kept _ _ _ _ Ht E) as [H1 H2].
    rewrite (IH t' H1); [reflexivity|congruence].
  Qed.
  Lemma own_calls :
    (forall e z s, tkind (ttok z) = k -> t_accept fl true e z s = c_accept fl (normalize k) (own_toks k) e z s) /\
    (forall z s, tkind (ttok z) = k -> t_parse fl true z s = c_parse fl (normalize k) (own_toks k) z s) /\
    (forall w v ss, tok_ok (tvtok v) -> tkind (tvtok v) = k -> tv_fit fl true w v ss = c_fit fl (normalize k) (own_toks k) w v ss) /\
    (forall w v ss, tok_ok (tvtok v) -> tkind (tvtok v) = k -> tv_transform fl true w v ss = c_apply fl (normalize k) (own_toks k) w v ss).
  Proof.
    split; [|split; [|split]].
    - intros e z s H. unfold t_accept, c_accept. now rewrite (own_transform _ _ H).
    - intros z s H. unfold t_parse, c_parse. now rewrite (own_transform _ _ H).
    - intros w v ss Ht H. unfold tv_fit, c_fit. now rewrite (own_all ss _ Ht H).
    - intros w v ss Ht H. unfold tv_transform, c_apply. now rewrite (own_all ss _ Ht H).
  Qed.
End Own.

(** The tokenizer of the README (lines 68-73), which splits at spaces; a token may be empty. *)
Fixpoint fields (s : text) : list text :=
  match s with
  | [] => [[]]
  | c :: s => if Z.eqb c 32 then [] :: fields s else match fields s with f :: fs => (c :: f) :: fs | [] => [[c]] end
  end.
Definition by_space (s : text) : outcome (list text) := Ok (fields s).

Definition run_cop (z : tstream exf) (op : top exf) : outcome (tstream exf) :=
  match op with
  | TAccept e s => c_accept exf Ok by_space e z s
  | TParse s => '(_, z') <- c_parse exf Ok by_space z s ;; Ok z'
  | TUpdate => t_update exf z
  end.
Fixpoint run_c (z : tstream exf) (ops : list (top exf)) : outcome (tstream exf) :=
  match ops with [] => Ok z | op :: t => z' <- run_cop z op ;; run_c z' t end.
Lemma run_c_ok z0 : forall t ops z z', chist exf Ok by_space z0 ops z -> run_c z t = Ok z' -> chist exf Ok by_space z0 (ops ++ t) z'.
Proof.
  induction t as [|op t IH]; intros ops z z' H E; cbn [run_c] in E.
  - injection E as <-. now rewrite app_nil_r.
  - apply bind_ok in E as (z1 & Eo & E).
    replace (ops ++ op :: t) with ((ops ++ [op]) ++ t) by (now rewrite <- app_assoc).
    apply (IH _ z1); [|exact E]. apply (ch_step exf Ok by_space z0 ops z); [exact H|]. destruct op as [e s|s|]; cbn [run_cop cstep] in *; try easy.
    apply bind_ok in Eo as ([p z2] & Ep & Eo). injection Eo as <-. now exists p.
Qed.
Definition cs_ops : list (top exf) := [tfeed (txt "to or to"); TUpdate; TParse (txt "x or")].
Lemma run_cs : (z <- run_c (c_stream exf 10) cs_ops ;; '(p, _) <- c_parse exf Ok by_space z (txt "or not to") ;; Ok p) = Ok [txt "or"; txt "to"].
Proof. vm_compute. reflexivity. Qed.
Lemma cs_normal : cnormal exf Ok by_space 10 cs_ops.
Proof.
  split; [|split; [lia|split; [repeat constructor; vm_compute; discriminate|split; vm_compute; discriminate]]].
  intros e s [E|[E|[E|[]]]]; try discriminate E. injection E as <- _. exact exenv_ok.
Qed.
Definition cs_texts : list text := [txt "to or to"; txt "or"].
Lemma cs_codes : exists tk, c_transform_all Ok by_space c_new cs_texts = Ok ([[0; 1; 0]; [1]]%Z, tk).
Proof. eexists. vm_compute. reflexivity. Qed.
Lemma cs_solid : ~ cut_in Ok by_space cs_texts [].
Proof.
  intros (s & ws & Hs & (n & [= <-] & [= <-]) & Hi). destruct Hs as [<-|[<-|[]]]; vm_compute in Hi.
  - destruct Hi as [E|[E|[E|[]]]]; discriminate E.
  - destruct Hi as [E|[]]; discriminate E.
Qed.
Lemma cs_out : (v <- c_fit exf Ok by_space (listed [0; 1]%Z 100) (c_vgram exf 10 1) cs_texts ;;
  '(r, _) <- c_apply exf Ok by_space (listed [] 100) v [txt "or not to"] ;; Ok r) = Ok [txt "or to"].
Proof. vm_compute. reflexivity. Qed.

(** Texts with an empty token. *)
Definition gap_texts : list text := [txt "a  a"; []].
Lemma gap_codes : exists tk, c_transform_all Ok by_space c_new gap_texts = Ok ([[0; 1; 0]; [1]]%Z, tk).
Proof. eexists. vm_compute. reflexivity. Qed.
Lemma gap_out : (v <- c_fit exf Ok by_space (listed [0; 1]%Z 100) (c_vgram exf 10 1) gap_texts ;;
  '(r, _) <- c_apply exf Ok by_space (listed [] 100) v [txt "a  a"; txt " a"; txt "a"] ;; Ok r) = Ok [txt "a  a"; txt "a"; txt "a"].
Proof. vm_compute. reflexivity. Qed.

Lemma join_length ps : ps <> [] -> ~ In [] ps -> length (join ps) + 1 = length (concat ps) + length ps /\ length ps <= length (concat ps).
Proof.
  induction ps as [|p ps IH]; intros Hne H; [easy|]. assert (Hp : length p <> 0) by (destruct p; [destruct H; now left|discriminate]).
  destruct ps as [|q ps]; [cbn [join concat length]; rewrite app_nil_r; lia|].
  change (join (p :: q :: ps)) with (p ++ 32%Z :: join (q :: ps)). destruct IH as [I1 I2]; [discriminate|intro Hi; apply H; now right|].
  change (concat (p :: q :: ps)) with (p ++ concat (q :: ps)). change (length (p :: q :: ps)) with (S (length (q :: ps))).
  rewrite !app_length. change (length (32%Z :: join (q :: ps))) with (S (length (join (q :: ps)))). unfold text, seq in *. lia.
Qed.
Lemma gap_not words : ~ turned Ok by_space gap_texts words (txt "a  a") (txt "a  a").
Proof.
  intros (ws & ks & pieces & (n & [= <-] & [= <-]) & Ho & [Hne Ej] & _ & Hc).
  assert (Hk : length (concat ks) <= 2).
  { assert (G : forall (l r : list text), only (cut_in Ok by_space gap_texts) l r -> length (concat r) <= length (concat l)).
    { induction 1 as [|x l r _ _ IH|x l r _ _ IH]; cbn [concat]; rewrite ?app_length; lia. }
    apply G in Ho. exact Ho. }
  destruct pieces as [|p ps]; [discriminate Ej|]. destruct (join_length (p :: ps)) as [H1 H2]; [discriminate|exact Hne|].
  rewrite <- Ej, Hc in H1. rewrite Hc in H2. change (length (txt "a  a")) with 4 in H1. unfold text, seq in *. lia.
Qed.
