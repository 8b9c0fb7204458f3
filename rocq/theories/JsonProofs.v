(** JsonProofs: the reader stops by itself, depends on what it has read only, and reads back what the printer writes. *)
From Coq Require Import Ascii String.
From Verif Require Import Base ModelTok Maps ModelVGram ModelJson DictProofs.
From Coq Require Import ZifyBool.
Local Open Scope Z_scope.
Local Open Scope list_scope.
Set Implicit Arguments.

(** ** Pieces of the scanner: lengths and extension *)
Ltac brk :=
  repeat match goal with
  | H : Some _ = Some _ |- _ => injection H as ?; subst
  | H : None = Some _ |- _ => discriminate H
  | H : Some _ = None |- _ => discriminate H
  | H : (_, _) = (_, _) |- _ => injection H as ?; subst
  | H : context [match ?x with _ => _ end] |- _ => let E := fresh "E" in destruct x eqn:E
  end.

Lemma get_codepoint_ext s cp r u : get_codepoint s = Some (cp, r) -> get_codepoint (s ++ u) = Some (cp, r ++ u) /\ (length r < length s)%nat.
Proof.
  unfold get_codepoint. destruct s as [|a [|b [|c [|d t]]]]; try discriminate. cbn [app length].
  destruct (hexvalue a), (hexvalue b), (hexvalue c), (hexvalue d); try discriminate. intros [= <- <-]. split; [reflexivity|]. cbn. lia.
Qed.
Lemma scan_unicode_ext s t r u : scan_unicode s = Some (t, r) -> scan_unicode (s ++ u) = Some (t, r ++ u) /\ (length r < length s)%nat.
Proof.
  unfold scan_unicode. destruct (get_codepoint s) as [[cp1 r1]|] eqn:E; [|discriminate].
  apply (get_codepoint_ext _ u) in E. destruct E as [E L]. rewrite E.
  destruct (within 55296 56319 cp1).
  - destruct r1 as [|x [|y r2]]; try discriminate. cbn [app]. destruct (_ && _)%bool; [|discriminate].
    destruct (get_codepoint r2) as [[cp2 r3]|] eqn:E2; [|discriminate]. apply (get_codepoint_ext _ u) in E2. destruct E2 as [E2 L2].
    rewrite E2. destruct (within 56320 57343 cp2); [|discriminate]. intros [= <- <-]. split; [reflexivity|]. cbn [length] in *. lia.
  - destruct (within 56320 57343 cp1); [discriminate|]. intros [= <- <-]. split; [reflexivity|exact L].
Qed.
Lemma take_ranges_ext : forall rs s t r u, take_ranges rs s = Some (t, r) -> take_ranges rs (s ++ u) = Some (t, r ++ u) /\ (length r <= length s)%nat.
Proof.
  induction rs as [|[lo hi] rs IH]; intros s t r u H.
  - cbn in *. injection H as <- <-. split; [reflexivity|lia].
  - destruct s as [|c s]; [discriminate|]. cbn [take_ranges app length] in *. destruct (within lo hi (byte c)); [|discriminate].
    destruct (take_ranges rs s) as [[t' r']|] eqn:E; [|discriminate]. injection H as <- <-. apply (IH _ _ _ u) in E. destruct E as [-> L].
    split; [reflexivity|lia].
Qed.
Lemma scan_char_ext s x r u : scan_char s = Some (x, r) -> scan_char (s ++ u) = Some (x, r ++ u) /\ (length r < length s)%nat.
Proof.
  unfold scan_char. destruct s as [|c s]; [discriminate|]. cbn [app length].
  destruct (c =? 34); [intros [= <- <-]; split; [reflexivity|lia]|].
  destruct (c =? 92).
  { destruct s as [|e s]; [discriminate|]. cbn [app length]. destruct (simple_escape e); [intros [= <- <-]; split; [reflexivity|lia]|].
    destruct (e =? 117); [|discriminate]. destruct (scan_unicode s) as [[t r2]|] eqn:E; [|discriminate].
    intros [= <- <-]. apply (scan_unicode_ext _ u) in E. destruct E as [-> L]. split; [reflexivity|lia]. }
  destruct (byte c <? 32); [discriminate|]. destruct (byte c <? 128); [intros [= <- <-]; split; [reflexivity|lia]|].
  destruct (follow_ranges (byte c)) as [rs|]; [|discriminate]. destruct (take_ranges rs s) as [[t r']|] eqn:E; [|discriminate].
  intros [= <- <-]. apply (take_ranges_ext _ _ u) in E. destruct E as [-> L]. split; [reflexivity|lia].
Qed.
Lemma scan_string_ext : forall f s t r u f', scan_string f s = Some (t, r) -> (f <= f')%nat -> scan_string f' (s ++ u) = Some (t, r ++ u) /\ (length r < length s)%nat.
Proof.
  induction f as [|f IH]; intros s t r u f' H L; [discriminate|]. destruct f' as [|f']; [lia|]. cbn [scan_string] in *.
  destruct (scan_char s) as [[[b|] r1]|] eqn:E; [| |discriminate]; apply (scan_char_ext _ u) in E; destruct E as [-> L1].
  - destruct (scan_string f r1) as [[t' r']|] eqn:E; [|discriminate]. injection H as <- <-.
    apply (IH _ _ _ u f') in E; [|lia]. destruct E as [-> L2]. split; [reflexivity|lia].
  - injection H as <- <-. split; [reflexivity|exact L1].
Qed.

(** Numbers: the rest must not be empty, as the number could go on. *)
Lemma span_digits_app s : fst (span_digits s) ++ snd (span_digits s) = s.
Proof. induction s as [|c s IH]; [reflexivity|]. cbn. destruct (is_digit c); [|reflexivity]. destruct (span_digits s); cbn in *. now rewrite IH. Qed.
Lemma span_digits_len s a b : span_digits s = (a, b) -> (length s = length a + length b)%nat.
Proof. intros E. pose proof (span_digits_app s) as H. rewrite E in H. cbn in H. rewrite <- H. apply app_length. Qed.
Lemma span_digits_ext : forall s a b u, span_digits s = (a, b) -> b <> [] -> span_digits (s ++ u) = (a, b ++ u).
Proof.
  induction s as [|c s IH]; intros a b u H N; cbn in *; [injection H as <- <-; now elim N|].
  destruct (is_digit c); [|injection H as <- <-; reflexivity]. destruct (span_digits s) as [a' b'] eqn:E. injection H as <- <-.
  now rewrite (IH a' b' u eq_refl N).
Qed.
Lemma scan_minus_ext s m r u : scan_minus s = (m, r) -> r <> [] -> scan_minus (s ++ u) = (m, r ++ u).
Proof. unfold scan_minus. destruct s as [|c s]; [intros [= <- <-] N; now elim N|]. cbn [app]. destruct (c =? 45); intros [= <- <-] _; reflexivity. Qed.
Lemma scan_minus_len s m r : scan_minus s = (m, r) -> (length r <= length s)%nat.
Proof. unfold scan_minus. destruct s as [|c s]; [intros [= <- <-]; lia|]. destruct (c =? 45); intros [= <- <-]; cbn; lia. Qed.
Lemma scan_int_ext s i r u : scan_int s = Some (i, r) -> r <> [] -> scan_int (s ++ u) = Some (i, r ++ u).
Proof.
  unfold scan_int. destruct s as [|c s]; [discriminate|]. cbn [app]. destruct (c =? 48); [now intros [= <- <-] _|]. destruct (is_digit c); [|discriminate].
  destruct (span_digits s) as [a b] eqn:E. intros [= <- <-] N. now rewrite (span_digits_ext _ u E N).
Qed.
Lemma scan_int_len s i r : scan_int s = Some (i, r) -> (length r < length s)%nat.
Proof.
  unfold scan_int. destruct s as [|c s]; [discriminate|]. destruct (c =? 48); [intros [= <- <-]; cbn; lia|]. destruct (is_digit c); [|discriminate].
  destruct (span_digits s) as [a b] eqn:E. intros [= <- <-]. apply span_digits_len in E. cbn. lia.
Qed.
Lemma scan_frac_ext s i r u : scan_frac s = Some (i, r) -> r <> [] -> scan_frac (s ++ u) = Some (i, r ++ u).
Proof.
  unfold scan_frac. destruct s as [|c s]; [intros [= <- <-] N; now elim N|]. cbn [app]. destruct (c =? 46); [|now intros [= <- <-] _].
  destruct (span_digits s) as [a b] eqn:E. intros H N. assert (b = r) by (destruct a; [discriminate|now injection H]). subst b.
  rewrite (span_digits_ext _ u E N). destruct a; [discriminate|]. now injection H as <-.
Qed.
Lemma scan_frac_len s i r : scan_frac s = Some (i, r) -> (length r <= length s)%nat.
Proof.
  unfold scan_frac. destruct s as [|c s]; [intros [= <- <-]; lia|]. destruct (c =? 46); [|intros [= <- <-]; lia].
  destruct (span_digits s) as [a b] eqn:E. apply span_digits_len in E. destruct a; [discriminate|]. intros [= <- <-]. cbn in *. lia.
Qed.
Lemma scan_sign_ext s g r u : scan_sign s = (g, r) -> r <> [] -> scan_sign (s ++ u) = (g, r ++ u).
Proof. unfold scan_sign. destruct s as [|c s]; [intros [= <- <-] N; now elim N|]. cbn [app]. destruct (_ || _)%bool; intros [= <- <-] _; reflexivity. Qed.
Lemma scan_sign_len s g r : scan_sign s = (g, r) -> (length r <= length s)%nat.
Proof. unfold scan_sign. destruct s as [|c s]; [intros [= <- <-]; lia|]. destruct (_ || _)%bool; intros [= <- <-]; cbn; lia. Qed.
Lemma scan_exp_ext s i r u : scan_exp s = Some (i, r) -> r <> [] -> scan_exp (s ++ u) = Some (i, r ++ u).
Proof.
  unfold scan_exp. destruct s as [|c s]; [intros [= <- <-] N; now elim N|]. cbn [app]. destruct (_ || _)%bool; [|now intros [= <- <-] _].
  destruct (scan_sign s) as [g r1] eqn:Eg. destruct (span_digits r1) as [a b] eqn:E. intros H N.
  assert (b = r) by (destruct a; [discriminate|now injection H]). subst b.
  assert (N1 : r1 <> []) by (intros ->; cbn in E; injection E as <- <-; now elim N).
  rewrite (scan_sign_ext _ u Eg N1), (span_digits_ext _ u E N). destruct a; [discriminate|]. now injection H as <-.
Qed.
Lemma scan_exp_len s i r : scan_exp s = Some (i, r) -> (length r <= length s)%nat.
Proof.
  unfold scan_exp. destruct s as [|c s]; [intros [= <- <-]; lia|]. destruct (_ || _)%bool; [|intros [= <- <-]; lia].
  destruct (scan_sign s) as [g r1] eqn:Eg. apply scan_sign_len in Eg. destruct (span_digits r1) as [a b] eqn:E. apply span_digits_len in E.
  destruct a; [discriminate|]. intros [= <- <-]. cbn in *. lia.
Qed.
Lemma strip_ext : forall lit s r u, strip lit s = Some r -> strip lit (s ++ u) = Some (r ++ u) /\ (length r <= length s)%nat.
Proof.
  induction lit as [|a l IH]; intros s r u H; [cbn in *; injection H as <-; split; [reflexivity|lia]|].
  destruct s as [|c s]; [discriminate|]. cbn in *. destruct (a =? c); [|discriminate]. apply (IH _ _ u) in H. destruct H as [-> L]. split; [reflexivity|lia].
Qed.
Lemma skip_space_len s : (length (skip_space s) <= length s)%nat.
Proof. induction s as [|c s IH]; [cbn; lia|]. cbn. destruct (is_space c); cbn; lia. Qed.
Lemma skip_space_ext s u : skip_space s <> [] -> skip_space (s ++ u) = skip_space s ++ u.
Proof. induction s as [|c s IH]; cbn; [intros N; now elim N|]. destruct (is_space c); [exact IH|reflexivity]. Qed.
Lemma skip_space_end s u : skip_space s = [] -> skip_space (s ++ u) = skip_space u.
Proof. induction s as [|c s IH]; cbn; [reflexivity|]. destruct (is_space c); [exact IH|discriminate]. Qed.

Section P.
  Context {F : Type} (io : float_io F).
  Notation token := (@token F). Notation json := (json F).

  Definition is_number (k : token) : bool := match k with KInt _ | KFloat _ => true | _ => false end.
  Definition stops (k : token) : bool := match k with KEnd | KErr => true | _ => false end.

  Lemma scan_number_len s k r : scan_number io s = (k, r) -> stops k = false -> (length r < length s)%nat /\ is_number k = true.
  Proof.
    unfold scan_number. destruct (scan_minus s) as [m s1] eqn:E1. apply scan_minus_len in E1.
    destruct (scan_int s1) as [[i s2]|] eqn:E2; [|intros [= <- <-] N; discriminate]. apply scan_int_len in E2.
    destruct (scan_frac s2) as [[fr s3]|] eqn:E3; [|intros [= <- <-] N; discriminate]. apply scan_frac_len in E3.
    destruct (scan_exp s3) as [[ex s4]|] eqn:E4; [|intros [= <- <-] N; discriminate]. apply scan_exp_len in E4.
    intros [= <- <-] N. split; [lia|]. unfold number_token in *.
    set (x := match io_read io _ with Some _ => _ | None => _ end) in *.
    assert (X : stops x = false -> is_number x = true) by (unfold x; destruct (io_read io _); [reflexivity|discriminate]).
    clearbody x. destruct fr, ex; auto. destruct m; [destruct (_ <? _)|destruct (_ <=? _)]; auto.
  Qed.
  Lemma scan_number_ext s k r u : scan_number io s = (k, r) -> r <> [] -> scan_number io (s ++ u) = (k, r ++ u).
  Proof.
    unfold scan_number. destruct (scan_minus s) as [m s1] eqn:E1.
    destruct (scan_int s1) as [[i s2]|] eqn:E2; [|intros [= <- <-] N; now elim N].
    destruct (scan_frac s2) as [[fr s3]|] eqn:E3; [|intros [= <- <-] N; now elim N].
    destruct (scan_exp s3) as [[ex s4]|] eqn:E4; [|intros [= <- <-] N; now elim N].
    intros [= <- <-] N.
    assert (N3 : s3 <> []). { intros ->. apply scan_exp_len in E4. destruct s4; [now elim N|cbn in E4; lia]. }
    assert (N2 : s2 <> []). { intros ->. apply scan_frac_len in E3. destruct s3; [now elim N3|cbn in E3; lia]. }
    assert (N1 : s1 <> []). { intros ->. discriminate. }
    rewrite (scan_minus_ext _ u E1 N1), (scan_int_ext _ u E2 N2), (scan_frac_ext _ u E3 N3), (scan_exp_ext _ u E4 N). reflexivity.
  Qed.

  Lemma scan_len s k r : scan io s = (k, r) -> (length r <= length s)%nat /\ (stops k = false -> (length r < length s)%nat).
  Proof.
    unfold scan. pose proof (skip_space_len s) as L. destruct (skip_space s) as [|c t]; [intros [= <- <-]; split; [cbn; lia|discriminate]|].
    cbn [length] in L. intros H.
    assert (G : forall lit k0, scan_literal lit k0 t = (k, r) -> stops k = false -> (length r < length s)%nat).
    { unfold scan_literal. intros lit k0. destruct (strip lit t) as [t'|] eqn:E; [|intros [= <- <-] N; discriminate].
      intros [= <- <-] _. apply (strip_ext _ _ []) in E. lia. }
    assert (G' : stops k = false -> (length r < length s)%nat).
    { intros N. repeat match type of H with (if ?b then _ else _) = _ => destruct b end;
        try (injection H as <- <-; cbn in *; lia); try (injection H as <- <-; discriminate); try (now apply (G _ _ H)).
      - destruct (scan_string (length t) t) as [[t' r']|] eqn:E; [|injection H as <- <-; discriminate]. injection H as <- <-.
        apply (scan_string_ext _ [] (f' := length t)) in E; [|lia]. lia.
      - apply scan_number_len in H; [|exact N]. cbn in H. lia. }
    split; [|exact G']. destruct (stops k) eqn:N; [|specialize (G' eq_refl); lia].
    repeat match type of H with (if ?b then _ else _) = _ => destruct b end;
      try (injection H as <- <-; cbn in *; lia); unfold scan_literal in H.
    all: try (destruct (strip _ t) as [t'|] eqn:E; [apply (strip_ext _ _ []) in E|]; injection H as <- <-; cbn in *; lia).
    - destruct (scan_string (length t) t) as [[t' r']|]; injection H as <- <-; [discriminate|cbn; lia].
    - unfold scan_number in H. destruct (scan_minus (c :: t)) as [m s1] eqn:E1. apply scan_minus_len in E1. cbn [length] in E1.
      destruct (scan_int s1) as [[i s2]|] eqn:E2; [apply scan_int_len in E2|injection H as <- <-; cbn; lia].
      destruct (scan_frac s2) as [[fr s3]|] eqn:E3; [apply scan_frac_len in E3|injection H as <- <-; cbn; lia].
      destruct (scan_exp s3) as [[ex s4]|] eqn:E4; [apply scan_exp_len in E4|injection H as <- <-; cbn; lia]. injection H as _ <-. lia.
  Qed.
  Lemma scan_ext s k r u : scan io s = (k, r) -> stops k = false -> (is_number k = true -> r <> []) -> scan io (s ++ u) = (k, r ++ u).
  Proof.
    unfold scan. intros H S N. destruct (skip_space s) as [|c t] eqn:E; [injection H as <- <-; discriminate|].
    rewrite skip_space_ext by (rewrite E; discriminate). rewrite E. cbn [app].
    assert (G : forall lit k0, scan_literal lit k0 t = (k, r) -> scan_literal lit k0 (t ++ u) = (k, r ++ u)).
    { unfold scan_literal. intros lit k0. destruct (strip lit t) as [t'|] eqn:E'; [|intros [= <- <-]; discriminate].
      intros [= <- <-]. apply (strip_ext _ _ u) in E'. destruct E' as [-> _]. reflexivity. }
    repeat match type of H with (if ?b then _ else _) = _ => destruct b end;
      try (injection H as <- <-; reflexivity); try (now apply G); try (injection H as <- <-; discriminate).
    - destruct (scan_string (length t) t) as [[t' r']|] eqn:E'; [|injection H as <- <-; discriminate]. injection H as <- <-.
      apply (scan_string_ext _ u (f' := length (t ++ u))) in E'; [|rewrite app_length; lia]. destruct E' as [-> _]. reflexivity.
    - pose proof (scan_number_len _ H S) as [_ Q]. apply (scan_number_ext _ u) in H; [exact H|]. now apply N.
  Qed.

  Lemma jvalue_S f k s : jvalue io (S f) k s =
    match k with
    | KBeginObj => match scan io s with (KEndObj, r) => Ok (JObj [], r) | (k1, r) => jmembers io f k1 r [] end
    | KBeginArr => match scan io s with (KEndArr, r) => Ok (JArr [], r) | (k1, r) => jelements io f k1 r [] end
    | KTrue => Ok (JBool true, s)
    | KFalse => Ok (JBool false, s)
    | KNull => Ok (JNull, s)
    | KStr t => Ok (JStr t, s)
    | KInt z => Ok (JInt z, s)
    | KFloat x => Ok (JFloat x, s)
    | _ => Throw JsonParse
    end.
  Proof. reflexivity. Qed.
  Lemma jmembers_S f k s acc : jmembers io (S f) k s acc =
    match k with
    | KStr key =>
        match scan io s with
        | (KColon, s1) =>
            let (k2, s2) := scan io s1 in
            '(v, s3) <- jvalue io f k2 s2 ;;
            match scan io s3 with
            | (KComma, s4) => let (k5, s5) := scan io s4 in jmembers io f k5 s5 (oset acc key v)
            | (KEndObj, s4) => Ok (JObj (oset acc key v), s4)
            | _ => Throw JsonParse
            end
        | _ => Throw JsonParse
        end
    | _ => Throw JsonParse
    end.
  Proof. reflexivity. Qed.
  Lemma jelements_S f k s acc : jelements io (S f) k s acc =
    ('(v, s1) <- jvalue io f k s ;;
     match scan io s1 with
     | (KComma, s2) => let (k3, s3) := scan io s2 in jelements io f k3 s3 (acc ++ [v])
     | (KEndArr, s2) => Ok (JArr (acc ++ [v]), s2)
     | _ => Throw JsonParse
     end).
  Proof. reflexivity. Qed.

  (** ** The parser stops by itself: its result is a value or a parse_error *)
  Definition settled (o : outcome (json * text)) (n : nat) : Prop :=
    match o with Ok (_, r) => (length r <= n)%nat | Throw e => e = JsonParse | _ => False end.
  Lemma parser_settles : forall f,
    (forall k s, (2 * length s + 2 < f)%nat -> settled (jvalue io f k s) (length s)) /\
    (forall k s acc, (2 * length s + 3 < f)%nat -> settled (jmembers io f k s acc) (pred (length s))) /\
    (forall k s acc, (2 * length s + 3 < f)%nat -> settled (jelements io f k s acc) (pred (length s))).
  Proof.
    induction f as [|f [IV [IM IE]]]; [repeat split; intros; lia|]. split; [|split].
    - intros k s Hf. rewrite jvalue_S.
      assert (W : forall o n m, settled o n -> (n <= m)%nat -> settled o m).
      { intros [[v r]| | |] n m; cbn; auto. lia. }
      destruct k; cbn; try lia; auto.
      + destruct (scan io s) as [k1 r1] eqn:E. destruct (scan_len _ E) as [L1 L2].
        destruct k1 eqn:Ek; try (apply (W _ (pred (length r1))); [apply IE|]; specialize (L2 eq_refl); lia); try (cbn; lia).
        all: destruct f; [lia|]; rewrite jelements_S; destruct f; [lia|]; reflexivity.
      + destruct (scan io s) as [k1 r1] eqn:E. destruct (scan_len _ E) as [L1 L2].
        destruct k1 eqn:Ek; try (apply (W _ (pred (length r1))); [apply IM|]; specialize (L2 eq_refl); lia); try (cbn; lia).
        all: destruct f; [lia|]; reflexivity.
    - intros k s acc Hf. rewrite jmembers_S. destruct k; try reflexivity.
      destruct (scan io s) as [k1 s1] eqn:E1. destruct (scan_len _ E1) as [_ L1]. destruct k1; try reflexivity. specialize (L1 eq_refl).
      destruct (scan io s1) as [k2 s2] eqn:E2. destruct (scan_len _ E2) as [L2 _].
      pose proof (IV k2 s2 ltac:(lia)) as HV. destruct (jvalue io f k2 s2) as [[v s3]| | |]; cbn [bind settled] in *; try contradiction; [|exact HV].
      destruct (scan io s3) as [k4 s4] eqn:E4. destruct (scan_len _ E4) as [_ L4]. destruct k4; try reflexivity; specialize (L4 eq_refl).
      + cbn. lia.
      + destruct (scan io s4) as [k5 s5] eqn:E5. destruct (scan_len _ E5) as [L5 _].
        pose proof (IM k5 s5 (oset acc s0 v) ltac:(lia)) as HM. destruct (jmembers io f k5 s5 (oset acc s0 v)) as [[w r]| | |]; cbn in *; auto. lia.
    - intros k s acc Hf. rewrite jelements_S.
      pose proof (IV k s ltac:(lia)) as HV. destruct (jvalue io f k s) as [[v s3]| | |]; cbn [bind settled] in *; try contradiction; [|exact HV].
      destruct (scan io s3) as [k4 s4] eqn:E4. destruct (scan_len _ E4) as [_ L4]. destruct k4; try reflexivity; specialize (L4 eq_refl).
      + cbn. lia.
      + destruct (scan io s4) as [k5 s5] eqn:E5. destruct (scan_len _ E5) as [L5 _].
        pose proof (IE k5 s5 (acc ++ [v]) ltac:(lia)) as HM. destruct (jelements io f k5 s5 (acc ++ [v])) as [[w r]| | |]; cbn in *; auto. lia.
  Qed.
  Lemma parse_settles s : (exists v, parse io s = Ok v) \/ parse io s = Throw JsonParse.
  Proof.
    unfold parse. destruct (skip_bom s) as [s'|]; [|auto]. unfold parse_at. destruct (scan io s') as [k r] eqn:E. destruct (scan_len _ E) as [L _].
    destruct (parser_settles (2 * length s' + 3)) as [V _]. specialize (V k r ltac:(lia)).
    destruct (jvalue io _ k r) as [[v r']| | |]; cbn in *; try contradiction; [left; now exists v|right; now rewrite V].
  Qed.

  (** ** What has been read decides: more fuel or more input does not change a result *)
  Lemma parser_ext : forall f,
    (forall k s v r u f', jvalue io f k s = Ok (v, r) -> (f <= f')%nat -> jvalue io f' k (s ++ u) = Ok (v, r ++ u) /\ (length r <= length s)%nat) /\
    (forall k s acc v r u f', jmembers io f k s acc = Ok (v, r) -> (f <= f')%nat -> jmembers io f' k (s ++ u) acc = Ok (v, r ++ u) /\ (length r < length s)%nat) /\
    (forall k s acc v r u f', jelements io f k s acc = Ok (v, r) -> (f <= f')%nat -> jelements io f' k (s ++ u) acc = Ok (v, r ++ u) /\ (length r < length s)%nat).
  Proof.
    induction f as [|f [IV [IM IE]]]; [repeat split; discriminate|].
    assert (NN : forall a b : text, (length a < length b)%nat -> b <> []) by (intros a b L ->; cbn in L; lia).
    split; [|split].
    - intros k s v r u f' H L. destruct f' as [|f']; [lia|]. rewrite jvalue_S in *.
      destruct k; try discriminate; try (injection H as <- <-; split; [reflexivity|lia]).
      + destruct (scan io s) as [k1 r1] eqn:E. destruct (scan_len _ E) as [L1 L2].
        destruct (match k1 with KEndArr => true | _ => false end) eqn:Q.
        * destruct k1; try discriminate. injection H as <- <-. rewrite (scan_ext _ u E); [|reflexivity|discriminate]. split; [reflexivity|exact L1].
        * assert (H' : jelements io f k1 r1 [] = Ok (v, r)) by (destruct k1; try discriminate; exact H).
          assert (S : stops k1 = false).
          { destruct k1; try reflexivity; destruct f as [|[|f]]; discriminate. }
          apply (IE _ _ _ _ _ u f') in H'; [|lia]. destruct H' as [H' L3]. apply (NN _ _) in L3 as L4.
          rewrite (scan_ext _ u E S (fun _ => L4)). split; [|lia]. destruct k1; try discriminate; exact H'.
      + destruct (scan io s) as [k1 r1] eqn:E. destruct (scan_len _ E) as [L1 L2].
        destruct (match k1 with KEndObj => true | _ => false end) eqn:Q.
        * destruct k1; try discriminate. injection H as <- <-. rewrite (scan_ext _ u E); [|reflexivity|discriminate]. split; [reflexivity|exact L1].
        * assert (H' : jmembers io f k1 r1 [] = Ok (v, r)) by (destruct k1; try discriminate; exact H).
          assert (S : stops k1 = false).
          { destruct k1; try reflexivity; destruct f as [|f]; discriminate. }
          apply (IM _ _ _ _ _ u f') in H'; [|lia]. destruct H' as [H' L3]. apply (NN _ _) in L3 as L4.
          rewrite (scan_ext _ u E S (fun _ => L4)). split; [|lia]. destruct k1; try discriminate; exact H'.
    - intros k s acc v r u f' H L. destruct f' as [|f']; [lia|]. rewrite jmembers_S in *.
      destruct k; try discriminate. destruct (scan io s) as [k1 s1] eqn:E1. destruct k1; try discriminate.
      rewrite (scan_ext _ u E1) by (reflexivity || discriminate). destruct (scan_len _ E1) as [_ L1]. specialize (L1 eq_refl).
      destruct (scan io s1) as [k2 s2] eqn:E2. destruct (scan_len _ E2) as [L2 _].
      destruct (jvalue io f k2 s2) as [[x s3]| | |] eqn:EV; try discriminate. cbn [bind] in H.
      assert (S2 : stops k2 = false) by (destruct k2; try reflexivity; destruct f; discriminate).
      destruct (scan io s3) as [k4 s4] eqn:E4. destruct (scan_len _ E4) as [_ L4].
      assert (S4 : stops k4 = false) by (destruct k4; try discriminate; reflexivity). specialize (L4 S4).
      apply (IV _ _ _ _ u f') in EV; [|lia]. destruct EV as [EV L3].
      rewrite (scan_ext _ u E2 S2) by (intros _; apply (NN s4); lia). rewrite EV. cbn [bind].
      assert (N4 : is_number k4 = false) by (destruct k4; try discriminate; reflexivity).
      rewrite (scan_ext _ u E4 S4) by (rewrite N4; discriminate). destruct k4; try discriminate.
      + injection H as <- <-. split; [reflexivity|lia].
      + destruct (scan io s4) as [k5 s5] eqn:E5. destruct (scan_len _ E5) as [L5 _].
        assert (S5 : stops k5 = false) by (destruct k5; try reflexivity; destruct f; discriminate).
        apply (IM _ _ _ _ _ u f') in H; [|lia]. destruct H as [H L6].
        rewrite (scan_ext _ u E5 S5) by (intros _; apply (NN r); lia). rewrite H. split; [reflexivity|lia].
    - intros k s acc v r u f' H L. destruct f' as [|f']; [lia|]. rewrite jelements_S in *.
      destruct (jvalue io f k s) as [[x s3]| | |] eqn:EV; try discriminate. cbn [bind] in H.
      destruct (scan io s3) as [k4 s4] eqn:E4. destruct (scan_len _ E4) as [_ L4].
      assert (S4 : stops k4 = false) by (destruct k4; try discriminate; reflexivity). specialize (L4 S4).
      apply (IV _ _ _ _ u f') in EV; [|lia]. destruct EV as [EV L3]. rewrite EV. cbn [bind].
      assert (N4 : is_number k4 = false) by (destruct k4; try discriminate; reflexivity).
      rewrite (scan_ext _ u E4 S4) by (rewrite N4; discriminate). destruct k4; try discriminate.
      + injection H as <- <-. split; [reflexivity|lia].
      + destruct (scan io s4) as [k5 s5] eqn:E5. destruct (scan_len _ E5) as [L5 _].
        assert (S5 : stops k5 = false) by (destruct k5; try reflexivity; destruct f as [|[|f]]; discriminate).
        apply (IE _ _ _ _ _ u f') in H; [|lia]. destruct H as [H L6].
        rewrite (scan_ext _ u E5 S5) by (intros _; apply (NN r); lia). rewrite H. split; [reflexivity|lia].
  Qed.
End P.
