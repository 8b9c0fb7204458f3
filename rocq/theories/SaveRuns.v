(** Executions on doubles for C72. *)
From Coq Require Import Ascii String.
From Verif Require Import Base Spec FloatOps FloatLaws FloatIEEE FloatExample ModelTok ModelDict Maps ModelCoder ModelStat ModelBuilder
  ModelStream ModelVGram ModelString ModelJson ModelPersist ModelSave SpecTok CoderProofs TokProofs DictProofs SpecStat SpecBuilder EnvExample BuilderRuns StreamRuns VGramRuns StringRuns PersistRuns
  SpecJson SpecStream SpecVGram SpecString SpecPersist SpecSave.
Local Open Scope string_scope.
Local Open Scope list_scope.

(** The hypotheses about the numbers and the texts of an object, decided. *)
Definition is_int (z : Z) : bool := (Z.leb (- 2 ^ 31) z && Z.ltb z (2 ^ 31))%bool.
Definition ints (z : stream exf) : bool :=
  (is_int (zsize z) && forallb is_int (zfreqs z) && forallb (fun p => is_int (fst p)) (fwd (zcoder z)) &&
   match zdict z with Some p => match hget exf (zb z) p with Ok d => forallb (forallb is_int) (seqs d) | _ => true end | None => true end)%bool.
Lemma is_int_ok z : is_int z = true -> int32 z.
Proof. unfold is_int, int32. intro H. apply andb_prop in H as [H1 H2]. apply Z.leb_le in H1. apply Z.ltb_lt in H2. lia. Qed.
Lemma forallb_ok {A} (f : A -> bool) (P : A -> Prop) l : (forall a, f a = true -> P a) -> forallb f l = true -> Forall P l.
Proof. intros H E. apply Forall_forall. intros a Ha. apply H. rewrite forallb_forall in E. now apply E. Qed.
Lemma ints_ok z : ints z = true -> int_stream exf z.
Proof.
  unfold ints. intro H. apply andb_prop in H as [H H4]. apply andb_prop in H as [H H3]. apply andb_prop in H as [H1 H2].
  split; [now apply is_int_ok|]. split; [now apply (forallb_ok is_int); [exact is_int_ok|]|]. split; [apply (forallb_ok (fun p => is_int (fst p))); [intro; apply is_int_ok|exact H3]|].
  intros p d E Hd. rewrite E, Hd in H4. apply (forallb_ok (forallb is_int)); [|exact H4]. intros w Hw. now apply (forallb_ok is_int); [exact is_int_ok|].
Qed.
Definition is_char (c : Z) : bool := (Z.leb (-128) c && Z.ltb c 128)%bool.
Definition char_toks (t : tokenizer) : bool := forallb (fun p => forallb is_char (snd p)) (tbwd t).
Lemma mfind_in {A} (m : list (Z * A)) k v : mfind Z.eqb m k = Some v -> exists k', In (k', v) m.
Proof. induction m as [|[a b] m IH]; cbn; [discriminate|]. destruct (Z.eqb k a); [intros [= <-]; exists a; now left|]. intro H. destruct (IH H) as [k' Hk]. exists k'. now right. Qed.
Lemma char_toks_ok t : char_toks t = true -> char_tok t.
Proof.
  intros H i w Hw. destruct (mfind_in _ _ _ Hw) as [k Hk]. unfold char_toks in H. rewrite forallb_forall in H. specialize (H _ Hk). cbn [snd] in H.
  apply (forallb_ok is_char); [|exact H]. unfold is_char. intros c Hc. apply andb_prop in Hc as [H1 H2]. apply Z.leb_le in H1. apply Z.ltb_lt in H2. lia.
Qed.

(** A text in Latin-1: "café bar". *)
Definition latin1 : text := txt "caf" ++ [-23; 32]%Z ++ txt "bar".
Definition latin_ops : list (top exf) := [tfeed latin1; TUpdate].
Lemma run_latin : (z0 <- new_tstream exf 10 false true ;; z <- run_t z0 word_ops ;; file <- save_tstream exf (toy minus1) true z ;; z' <- load_tstream exf (toy minus1) file ;;
  z1 <- run_t z0 latin_ops ;; '(t, e) <- tstream_effect exf (toy minus1) true file z1 ;;
  Ok (is_minus1 (tst z1), ints (tst z1), char_toks (ttok z1), e, (match load_tstream exf (toy minus1) t with Throw JsonParse => true | _ => false end), t_alphabet exf z1, t_freqs exf z1))
  = Ok (true, true, true, Some JsonType, true, Ok [txt "caf" ++ [-23]%Z; txt "bar"], [1; 1]%Z).
Proof. vm_compute. reflexivity. Qed.
(** The same words in UTF-8. *)
Definition utf8_ops : list (top exf) := [tfeed (txt "caf" ++ [-61; -87; 32]%Z ++ txt "bar"); TUpdate].
Lemma run_utf8 : (z0 <- new_tstream exf 10 false true ;; z1 <- run_t z0 utf8_ops ;; Ok (length (t_freqs exf z1), t_alphabet exf z1)) =
  Ok (2, Ok [txt "caf" ++ [-61; -87]%Z; txt "bar"]).
Proof. vm_compute. reflexivity. Qed.
Lemma utf8_met : Forall utf8 (tmet utf8_ops).
Proof.
  constructor; [|constructor]. exists [[99]; [97]; [102]; [195; 169]; [32]; [98]; [97]; [114]]%Z. split; [|vm_compute; reflexivity].
  repeat (constructor; [first [apply u8_1; lia|apply u8_2; unfold tail_byte; lia]|]). constructor.
Qed.
Lemma latin_not : ~ utf8 (txt "caf" ++ [-23]%Z).
Proof.
  intros (cs & Hc & E). vm_compute in E. assert (H : forall l, Forall utf8_char l -> concat l <> [233]%Z).
  { intros l Hl El. destruct Hl as [|c l Hc' Hl]; [discriminate El|]. inversion Hc'; subst; cbn in El; try discriminate El; injection El as ->; lia. }
  assert (G : forall a l r, (0 <= a <= 127)%Z -> Forall utf8_char l -> a :: r = concat l -> exists l', Forall utf8_char l' /\ r = concat l').
  { intros a l r Ha Hl El. destruct Hl as [|c l Hc' Hl]; [discriminate El|]. inversion Hc'; subst; cbn in El; try (injection El as -> _; lia); try discriminate El; try (injection El as E0 _; lia).
    injection El as _ ->. now exists l. }
  destruct (G 99%Z cs _ ltac:(lia) Hc E) as (l1 & H1 & E1). destruct (G 97%Z l1 _ ltac:(lia) H1 E1) as (l2 & H2 & E2). destruct (G 102%Z l2 _ ltac:(lia) H2 E2) as (l3 & H3 & E3).
  exact (H l3 H3 (eq_sym E3)).
Qed.
