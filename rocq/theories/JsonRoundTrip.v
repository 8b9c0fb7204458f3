(** JsonRoundTrip: the reader reads back what the printer writes. *)
From Coq Require Import Ascii String Sorted.
From Verif Require Import Base ModelTok Maps ModelVGram ModelJson DictProofs JsonProofs SpecVGram VGramProofs SpecJson.
From Coq Require Import ZifyBool.
Local Open Scope Z_scope.
Local Open Scope list_scope.
Set Implicit Arguments.

Lemma byte_range c : 0 <= byte c < 256.
Proof. apply Z.mod_pos_bound. lia. Qed.
Lemma below n c z : 0 <= c < z -> z = Z.of_nat n -> In c (map Z.of_nat (List.seq 0 n)).
Proof. intros H ->. apply in_map_iff. exists (Z.to_nat c). split; [lia|]. apply in_seq. lia. Qed.

(** ** Strings *)
(** The states of the decoder, as the ranges of the bytes it still expects. *)
Definition expects (s : Z) : list (Z * Z) :=
  if s =? 2 then [(128, 191)] else if s =? 3 then [(128, 191); (128, 191)] else if s =? 4 then [(160, 191); (128, 191)]
  else if s =? 5 then [(128, 159); (128, 191)] else if s =? 6 then [(144, 191); (128, 191); (128, 191)]
  else if s =? 7 then [(128, 191); (128, 191); (128, 191)] else if s =? 8 then [(128, 143); (128, 191); (128, 191)] else [].
Definition least (s : Z) : Z := if s =? 2 then 2 else if (s =? 4) || (s =? 6) then 0 else 1.
Definition next_state (s b : Z) : Z := nth (Z.to_nat (s * 16 + nth (Z.to_nat b) utf8_types 0)) utf8_states 0.
Definition pairs_eqb (a b : list (Z * Z)) : bool :=
  (Nat.eqb (length a) (length b) && forallb (fun q => (fst (fst q) =? fst (snd q)) && (snd (fst q) =? snd (snd q))) (combine a b))%bool.
Lemma pairs_eqb_eq : forall a b, pairs_eqb a b = true -> a = b.
Proof.
  induction a as [|[x y] a IH]; intros [|[u v] b] H; cbn in H; try discriminate; [reflexivity|].
  unfold pairs_eqb in *. cbn in H. apply andb_prop in H. destruct H as [H1 H2]. apply andb_prop in H2. destruct H2 as [H2 H3].
  apply andb_prop in H2. destruct H2 as [H2 H4]. apply Z.eqb_eq in H2. apply Z.eqb_eq in H4. cbn in H2, H4. subst.
  rewrite (IH b); [reflexivity|]. now rewrite H1, H3.
Qed.
Definition lead_ok (b : Z) : bool :=
  let s := next_state 0 b in
  match follow_ranges b with
  | None => s =? 1
  | Some rs => (within 2 8 s && pairs_eqb rs (expects s) && (least s <=? Z.land (Z.shiftr 255 (nth (Z.to_nat b) utf8_types 0)) b))%bool
  end.
Lemma lead_all b : 128 <= b < 256 -> lead_ok b = true.
Proof.
  intros H. assert (A : forallb (fun b => (b <? 128) || lead_ok b)%bool (map Z.of_nat (List.seq 0 256)) = true) by (vm_compute; reflexivity).
  rewrite forallb_forall in A. specialize (A b (@below 256 b 256 ltac:(lia) eq_refl)). lia.
Qed.
Definition follow_ok (s b : Z) : bool :=
  match expects s with
  | [] => false
  | (lo, hi) :: tl =>
      let s' := next_state s b in
      if within lo hi b then
        match tl with
        | [] => ((s' =? 0) && (2 <=? least s))%bool
        | _ => (within 2 8 s' && pairs_eqb tl (expects s') && ((least s' <=? Z.land b 63) || (least s' <=? 64 * least s)))%bool
        end
      else s' =? 1
  end.
Lemma follow_all s b : 2 <= s <= 8 -> 0 <= b < 256 -> follow_ok s b = true.
Proof.
  intros Hs H. assert (A : forallb (fun s => ((s <? 2) || forallb (follow_ok s) (map Z.of_nat (List.seq 0 256)))%bool) (map Z.of_nat (List.seq 0 9)) = true) by (vm_compute; reflexivity).
  rewrite forallb_forall in A. specialize (A s (@below 9 s 9 ltac:(lia) eq_refl)). assert (A' : forallb (follow_ok s) (map Z.of_nat (List.seq 0 256)) = true) by lia.
  rewrite forallb_forall in A'. exact (A' b (@below 256 b 256 ltac:(lia) eq_refl)).
Qed.
Lemma codep_step b cp : 0 <= b -> 0 <= cp -> Z.land b 63 <= Z.lor (Z.land b 63) (Z.shiftl cp 6) /\ 64 * cp <= Z.lor (Z.land b 63) (Z.shiftl cp 6).
Proof.
  intros Hb Hc. assert (A : 0 <= Z.land b 63) by (apply Z.land_nonneg; lia).
  assert (B : Z.shiftl cp 6 = 64 * cp) by (rewrite Z.shiftl_mul_pow2; lia).
  assert (G0 : forall x y, 0 <= y -> x <= Z.lor x y).
  { intros x y Hy. assert (Q : Z.lor x y = x + Z.ldiff y x).
    { rewrite Z.add_nocarry_lxor.
      - apply Z.bits_inj'. intros n Hn. rewrite Z.lor_spec, Z.lxor_spec, Z.ldiff_spec. destruct (Z.testbit x n), (Z.testbit y n); reflexivity.
      - apply Z.bits_inj'. intros n Hn. rewrite Z.land_spec, Z.ldiff_spec, Z.bits_0. destruct (Z.testbit x n), (Z.testbit y n); reflexivity. }
    pose proof (proj2 (Z.ldiff_nonneg y x) (or_introl Hy)). lia. }
  assert (G : forall x y, 0 <= x -> 0 <= y -> x <= Z.lor x y /\ y <= Z.lor x y).
  { intros x y Hx Hy. split; [now apply G0|]. rewrite Z.lor_comm. now apply G0. }
  rewrite <- B. apply G; [exact A|rewrite B; lia].
Qed.

Lemma dump_escaped_start c s : dump_escaped 0 c s = dump_escaped 0 0 s.
Proof. destruct s; reflexivity. Qed.
Lemma take_ranges_cons lo hi rs c r : take_ranges ((lo, hi) :: rs) (c :: r) =
  if within lo hi (byte c) then match take_ranges rs r with Some (t, r') => Some (c :: t, r') | None => None end else None.
Proof. reflexivity. Qed.
(** In the middle of a code point. *)
Lemma follow_string : forall r s cp t, dump_escaped s cp r = Ok t -> 2 <= s <= 8 -> least s <= cp ->
  exists pre r' t', r = pre ++ r' /\ dump_escaped 0 0 r' = Ok t' /\ forall rest, take_ranges (expects s) (t ++ rest) = Some (pre, t' ++ rest).
Proof.
  induction r as [|c r IH]; intros s cp t H Hs Hc.
  - cbn in H. destruct (Z.eqb_spec s 0); [lia|discriminate].
  - cbn [dump_escaped] in H. unfold utf8_decode in H. fold (next_state s (byte c)) in H.
    destruct (Z.eqb_spec s 0) as [|_]; [lia|]. set (cp' := Z.lor (Z.land (byte c) 63) (Z.shiftl cp 6)) in H.
    pose proof (byte_range c) as Hb. pose proof (follow_all Hs Hb) as Q. unfold follow_ok in Q.
    assert (Hc0 : 0 <= cp) by (unfold least in Hc; destruct (s =? 2), (s =? 4), (s =? 6); cbn in Hc; lia).
    destruct (codep_step (proj1 Hb) Hc0) as [C1 C2]. fold cp' in C1, C2.
    destruct (expects s) as [|[lo hi] tl] eqn:Es; [discriminate|].
    destruct (within lo hi (byte c)) eqn:W.
    + destruct tl as [|x tl].
      * apply andb_prop in Q. destruct Q as [Q1 Q2]. rewrite Q1 in H.
        assert (Hcp' : 128 <= cp') by lia.
        destruct (dump_escaped (next_state s (byte c)) cp' r) as [t1| | |] eqn:E; try discriminate. cbn [bind] in H. injection H as <-.
        apply Z.eqb_eq in Q1. rewrite Q1, dump_escaped_start in E.
        assert (Ee : escaped cp' c = [c]). { unfold escaped. repeat match goal with |- context [cp' =? ?n] => destruct (Z.eqb_spec cp' n); [lia|] end. destruct (Z.leb_spec cp' 31); [lia|reflexivity]. }
        exists [c], r, t1. split; [reflexivity|]. split; [exact E|]. intros rest. rewrite Ee. cbn [app take_ranges]. now rewrite W.
      * apply andb_prop in Q. destruct Q as [Q Q3]. apply andb_prop in Q. destruct Q as [Q1 Q2]. apply pairs_eqb_eq in Q2.
        unfold within in Q1. assert (S' : 2 <= next_state s (byte c) <= 8) by lia. set (s' := next_state s (byte c)) in *.
        destruct (Z.eqb_spec s' 0) as [|_]; [lia|]. destruct (Z.eqb_spec s' 1) as [|_]; [lia|].
        destruct (dump_escaped s' cp' r) as [t1| | |] eqn:E; try discriminate. cbn [bind] in H. injection H as <-.
        assert (Hl : least s' <= cp') by lia.
        destruct (IH s' cp' t1 E S' Hl) as (pre & r' & t' & -> & E' & T). exists (c :: pre), r', t'. split; [reflexivity|]. split; [exact E'|].
        intros rest. cbn [app]. rewrite take_ranges_cons, W, Q2, T. reflexivity.
    + apply Z.eqb_eq in Q. rewrite Q in H. cbn in H. discriminate.
Qed.
Lemma ascii_string c : 0 <= c < 128 -> forall rest, scan_char (escaped c c ++ rest) = Some (Some [c], rest).
Proof. intros H. apply (below 128) in H; [|reflexivity]. cbn in H. repeat (destruct H as [<-|H]; [intros rest; reflexivity|]). contradiction. Qed.
Lemma type0 b : 0 <= b < 128 -> nth (Z.to_nat b) utf8_types 0 = 0.
Proof. intros H. apply (below 128) in H; [|reflexivity]. cbn in H. repeat (destruct H as [<-|H]; [reflexivity|]). contradiction. Qed.
Lemma string_char c r t : dump_escaped 0 0 (c :: r) = Ok t -> -128 <= c < 128 ->
  exists pre r' t', c :: r = pre ++ r' /\ pre <> [] /\ dump_escaped 0 0 r' = Ok t' /\ forall rest, scan_char (t ++ rest) = Some (Some pre, t' ++ rest).
Proof.
  intros H Hc. cbn [dump_escaped] in H. unfold utf8_decode in H. fold (next_state 0 (byte c)) in H. change (0 =? 0) with true in H. cbv iota in H.
  destruct (Z.ltb_spec c 0) as [N|N].
  - assert (Eb : byte c = c + 256) by (unfold byte; symmetry; apply Z.mod_unique with (-1); lia).
    assert (Hb : 128 <= byte c < 256) by lia. pose proof (lead_all Hb) as Q. unfold lead_ok in Q.
    destruct (follow_ranges (byte c)) as [rs|] eqn:Ef; [|apply Z.eqb_eq in Q; rewrite Q in H; cbn in H; discriminate].
    apply andb_prop in Q. destruct Q as [Q Q3]. apply andb_prop in Q. destruct Q as [Q1 Q2]. apply pairs_eqb_eq in Q2. unfold within in Q1.
    set (s' := next_state 0 (byte c)) in *. set (cp' := Z.land _ (byte c)) in *.
    destruct (Z.eqb_spec s' 0) as [|_]; [lia|]. destruct (Z.eqb_spec s' 1) as [|_]; [lia|].
    destruct (dump_escaped s' cp' r) as [t1| | |] eqn:E; try discriminate. cbn [bind] in H. injection H as <-.
    destruct (follow_string r (s := s') (cp := cp') E ltac:(lia) ltac:(lia)) as (pre & r' & t' & -> & E' & T).
    exists (c :: pre), r', t'. split; [reflexivity|]. split; [discriminate|]. split; [exact E'|]. intros rest. cbn [app]. unfold scan_char.
    destruct (Z.eqb_spec c 34) as [|_]; [lia|]. destruct (Z.eqb_spec c 92) as [|_]; [lia|]. destruct (Z.ltb_spec (byte c) 32); [lia|].
    destruct (Z.ltb_spec (byte c) 128); [lia|]. now rewrite Ef, Q2, T.
  - assert (Eb : byte c = c) by (apply Z.mod_small; lia). rewrite Eb in H. unfold next_state in H. rewrite type0 in H by lia.
    change (Z.shiftr 255 0) with (Z.ones 8) in H. rewrite Z.land_comm, Z.land_ones, Z.mod_small in H by lia. cbn [Z.mul Z.add Z.to_nat nth utf8_states app] in H.
    change (0 =? 0) with true in H. cbv iota in H.
    destruct (dump_escaped 0 c r) as [t1| | |] eqn:E; try discriminate. cbn [bind] in H. injection H as <-. rewrite dump_escaped_start in E.
    exists [c], r, t1. split; [reflexivity|]. split; [discriminate|]. split; [exact E|]. intros rest. rewrite <- app_assoc. apply ascii_string. lia.
Qed.
Lemma string_back : forall n s t, (length s <= n)%nat -> dump_escaped 0 0 s = Ok t -> chars s ->
  forall rest f, (length s < f)%nat -> scan_string f (t ++ 34 :: rest) = Some (s, rest).
Proof.
  induction n as [|n IH]; intros s t L H C rest f Hf.
  - destruct s; [|cbn in L; lia]. cbn in H. injection H as <-. destruct f; [lia|]. reflexivity.
  - destruct s as [|c s]; [cbn in H; injection H as <-; destruct f; [lia|]; reflexivity|].
    inversion C; subst. destruct (@string_char c s t H H2) as (pre & r' & t' & E & N & E' & T).
    destruct f as [|f]; [lia|]. cbn [scan_string]. rewrite T. 
    assert (L' : (length (c :: s) = length pre + length r')%nat) by (rewrite E; apply app_length).
    assert (P : (1 <= length pre)%nat) by (destruct pre; [now elim N|cbn; lia]). cbn [length] in *.
    rewrite (IH r' t'); [now rewrite E|lia|exact E'| |lia]. rewrite E in C. now apply Forall_app in C.
Qed.
Lemma dump_escaped_len : forall s st cp t, dump_escaped st cp s = Ok t -> (length s <= length t)%nat.
Proof.
  induction s as [|c s IH]; intros st cp t H; [cbn; lia|]. cbn [dump_escaped] in H. destruct (utf8_decode st cp (byte c)) as [s' cp'].
  destruct (s' =? 0).
  - destruct (dump_escaped s' cp' s) as [t1| | |] eqn:E; try discriminate. cbn [bind] in H. injection H as <-. apply IH in E. rewrite app_length.
    assert (1 <= length (escaped cp' c))%nat by (unfold escaped; repeat destruct (cp' =? _); cbn; try lia; destruct (cp' <=? 31); cbn; lia). cbn [length]. lia.
  - destruct (s' =? 1); [discriminate|]. destruct (dump_escaped s' cp' s) as [t1| | |] eqn:E; try discriminate. cbn [bind] in H. injection H as <-. apply IH in E. cbn. lia.
Qed.

(** ** Numbers *)
(** What follows cannot be part of a number. *)
Definition apart (s : text) : Prop := match s with [] => True | c :: _ => is_digit c = false /\ c <> 46 /\ c <> 101 /\ c <> 69 end.
Lemma span_all : forall d rest, Forall digit d -> match rest with [] => True | c :: _ => is_digit c = false end -> span_digits (d ++ rest) = (d, rest).
Proof.
  induction d as [|c d IH]; intros rest D A; cbn.
  - destruct rest as [|c rest]; [reflexivity|]. cbn. now rewrite A.
  - inversion D; subst. unfold digit in *. assert (Q : is_digit c = true) by (unfold is_digit, within; lia). rewrite Q. now rewrite IH.
Qed.
Lemma scan_int_numeral i n rest : numeral i n -> match rest with [] => True | c :: _ => is_digit c = false end -> scan_int (i ++ rest) = Some (i, rest).
Proof.
  intros (N & D & _ & Z0) A. destruct i as [|c i]; [now elim N|]. cbn [app scan_int]. inversion D; subst. unfold digit in *.
  destruct (Z.eqb_spec c 48) as [->|Hc].
  - specialize (Z0 eq_refl). injection Z0 as ->. reflexivity.
  - assert (Q : is_digit c = true) by (unfold is_digit, within; lia). rewrite Q. now rewrite span_all.
Qed.
Lemma numeral_head i n : numeral i n -> exists c i', i = c :: i' /\ 48 <= c <= 57.
Proof. intros (N & D & _). destruct i as [|c i]; [now elim N|]. inversion D; subst. unfold digit in *. now exists c, i. Qed.

Section R.
  Context {F : Type} (io : float_io F).
  Notation token := (@token F). Notation json := (json F).

  Lemma scan_space w s : Forall (fun c => is_space c = true) w -> scan io (w ++ s) = scan io s.
  Proof.
    intros H. unfold scan. replace (skip_space (w ++ s)) with (skip_space s); [reflexivity|]. symmetry. apply skip_space_end.
    induction H as [|c w Hc _ IH]; [reflexivity|]. cbn. now rewrite Hc.
  Qed.
  Lemma spaces n : Forall (fun c => is_space c = true) (repeat 32 n).
  Proof. induction n; constructor; [reflexivity|assumption]. Qed.
  Lemma scan_start c s : is_digit c = true \/ c = 45 -> scan io (c :: s) = scan_number io (c :: s).
  Proof.
    intros H. assert (B : 48 <= c <= 57 \/ c = 45) by (unfold is_digit, within in H; lia).
    unfold scan. assert (S : is_space c = false) by (unfold is_space; lia). cbn [skip_space]. rewrite S.
    repeat match goal with |- context [Z.eqb c ?n] => lazymatch n with 45 => fail | 0 => fail | _ => destruct (Z.eqb_spec c n); [lia|] end end.
    assert (Q : ((c =? 45) || is_digit c)%bool = true) by (unfold is_digit, within; lia). now rewrite Q.
  Qed.
  Lemma scan_minus_digit c s : is_digit c = true -> scan_minus (c :: s) = ([], c :: s).
  Proof. intros H. unfold scan_minus. unfold is_digit, within in H. destruct (Z.eqb_spec c 45); [lia|reflexivity]. Qed.

  Lemma parts_back m i n fr ex rest : (m = [] \/ m = [45]) -> numeral i n ->
    (fr = [] \/ exists d, d <> [] /\ Forall digit d /\ fr = 46 :: d) ->
    (ex = [] \/ exists g d, (g = [] \/ g = [43] \/ g = [45]) /\ d <> [] /\ Forall digit d /\ (ex = 101 :: g ++ d \/ ex = 69 :: g ++ d)) ->
    apart rest ->
    scan io ((m ++ i ++ fr ++ ex) ++ rest) = (number_token io (match m with [] => false | _ => true end) i fr ex, rest).
  Proof.
    intros Hm Hi Hfr Hex A. rewrite <- !app_assoc. destruct (numeral_head Hi) as (c & i' & Ei & Hc).
    assert (Dc : is_digit c = true) by (unfold is_digit, within; lia).
    assert (AP : match rest with [] => True | c :: _ => is_digit c = false end) by (destruct rest; [exact I|apply A]).
    assert (S : scan io (m ++ i ++ fr ++ ex ++ rest) = scan_number io (m ++ i ++ fr ++ ex ++ rest)).
    { destruct Hm as [-> | ->]; [rewrite Ei; cbn [app]; apply scan_start; now left|cbn [app]; apply scan_start; now right]. }
    rewrite S. unfold scan_number.
    assert (M : scan_minus (m ++ i ++ fr ++ ex ++ rest) = (m, i ++ fr ++ ex ++ rest)).
    { destruct Hm as [-> | ->]; [rewrite Ei; cbn [app]; now apply scan_minus_digit|reflexivity]. }
    rewrite M.
    assert (X : scan_exp (ex ++ rest) = Some (ex, rest)).
    { destruct Hex as [-> | (g & d & Hg & Nd & Dd & He)].
      - cbn [app]. destruct rest as [|x rest]; [reflexivity|]. cbn in A. unfold scan_exp. destruct (Z.eqb_spec x 101), (Z.eqb_spec x 69); try lia. reflexivity.
      - assert (SG : scan_sign ((g ++ d) ++ rest) = (g, d ++ rest)).
        { destruct d as [|x d]; [now elim Nd|]. inversion Dd; subst. unfold digit in *. destruct Hg as [-> | [-> | ->]]; try reflexivity.
          cbn [app scan_sign]. destruct (Z.eqb_spec x 43), (Z.eqb_spec x 45); try lia. reflexivity. }
        destruct He as [-> | ->]; cbn [app scan_exp]; [change (101 =? 101) with true|change (69 =? 69) with true; rewrite orb_true_r]; cbv iota; cbn [orb]; rewrite SG, (span_all _ Dd AP);
        destruct d; try reflexivity; now elim Nd. }
    assert (AX : match ex ++ rest with [] => True | c :: _ => is_digit c = false /\ c <> 46 end).
    { destruct Hex as [-> | (g & d & _ & _ & _ & [-> | ->])]; cbn [app]; [|split; [reflexivity|discriminate]|split; [reflexivity|discriminate]].
      destruct rest; [exact I|]. cbn in A. tauto. }
    assert (Y : scan_frac (fr ++ ex ++ rest) = Some (fr, ex ++ rest)).
    { destruct Hfr as [-> | (d & Nd & Dd & ->)].
      - cbn [app]. destruct (ex ++ rest) as [|x l]; [reflexivity|]. cbn [scan_frac]. destruct (Z.eqb_spec x 46); [tauto|reflexivity].
      - cbn [app scan_frac]. change (46 =? 46) with true. cbv iota. rewrite span_all; [|exact Dd|].
        + destruct d; [now elim Nd|reflexivity].
        + destruct (ex ++ rest); [exact I|apply AX]. }
    assert (W : match fr ++ ex ++ rest with [] => True | c :: _ => is_digit c = false end).
    { destruct Hfr as [-> | (d & Nd & Dd & ->)]; cbn [app]; [|reflexivity]. destruct (ex ++ rest); [exact I|apply AX]. }
    rewrite (scan_int_numeral _ Hi W), Y, X. reflexivity.
  Qed.
  Lemma int_back z rest : - 2 ^ 63 <= z < 2 ^ 64 -> apart rest -> scan io (int_to_string z ++ rest) = (KInt z, rest).
  Proof.
    intros Hz A. unfold int_to_string. destruct (Z.ltb_spec z 0) as [N|N].
    - pose proof (@dec_numeral (- z) ltac:(lia)) as D.
      pose proof (@parts_back [45] (dec (- z)) _ [] [] rest (or_intror eq_refl) D (or_introl eq_refl) (or_introl eq_refl) A) as P.
      rewrite !app_nil_r in P. cbn [app] in P |- *. rewrite P. f_equal. unfold number_token. destruct D as (_ & _ & V & _). change digits_value with SpecVGram.value.
      rewrite V. cbv iota beta zeta. destruct (Z.leb_spec (- z) (2 ^ 63)); [f_equal; lia|lia].
    - pose proof (@dec_numeral z ltac:(lia)) as D.
      pose proof (@parts_back [] (dec z) _ [] [] rest (or_introl eq_refl) D (or_introl eq_refl) (or_introl eq_refl) A) as P.
      rewrite !app_nil_r in P. cbn [app] in P |- *. rewrite P. f_equal. unfold number_token. destruct D as (_ & _ & V & _). change digits_value with SpecVGram.value.
      rewrite V. cbv iota beta zeta. destruct (Z.ltb_spec z (2 ^ 64)); [reflexivity|lia].
  Qed.
  Lemma float_back t x rest : float_literal t -> io_read io t = Some x -> apart rest -> scan io (t ++ rest) = (KFloat x, rest).
  Proof.
    intros (m & i & fr & ex & -> & Hm & [n Hi] & Hfr & Hex & NE) R A. rewrite (@parts_back m i n fr ex rest Hm Hi Hfr Hex A). f_equal. unfold number_token.
    replace ((if match m with [] => false | _ :: _ => true end then [45] else []) ++ i ++ fr ++ ex) with (m ++ i ++ fr ++ ex)
      by (destruct Hm as [-> | ->]; reflexivity).
    rewrite R. destruct fr; [|reflexivity]. destruct ex; [|reflexivity]. destruct NE as [N|N]; now elim N.
  Qed.
End R.

(** ** Objects *)
Lemma key_ltb_asym : forall a b, key_ltb a b = true -> key_ltb b a = false.
Proof.
  induction a as [|x a IH]; intros [|y b] H; cbn in *; try reflexivity; try discriminate.
  destruct (Z.ltb_spec (byte x) (byte y)), (Z.ltb_spec (byte y) (byte x)); try lia; try reflexivity; try discriminate. now apply IH.
Qed.
Lemma oset_last {A} : forall (m : list (text * A)) k v, Forall (fun p => key_ltb (fst p) k = true) m -> oset m k v = m ++ [(k, v)].
Proof.
  induction m as [|[k' v'] m IH]; intros k v H; [reflexivity|]. inversion H; subst. cbn in *. rewrite (key_ltb_asym _ _ H2), H2. now rewrite IH.
Qed.

Definition pad (ind : nat) : text := repeat 32 (2 + ind).
Arguments pad : simpl never.
Section J.
  Context {F : Type} (io : float_io F).
  Notation token := (@token F). Notation json := (json F).

  Section Ind.
    Context (P : json -> Prop) (Pnull : P JNull) (Pbool : forall b, P (JBool b)) (Pint : forall z, P (JInt z)) (Pfloat : forall x, P (JFloat x))
      (Pstr : forall s, P (JStr s)) (Parr : forall l, Forall P l -> P (JArr l)) (Pobj : forall m, Forall (fun p => P (snd p)) m -> P (JObj m)).
    Fixpoint json_rec' (j : json) : P j :=
      match j with
      | JNull => Pnull | JBool b => Pbool b | JInt z => Pint z | JFloat x => Pfloat x | JStr s => Pstr s
      | JArr l => Parr ((fix go (l : list json) : Forall P l := match l with [] => Forall_nil _ | v :: r => Forall_cons _ (json_rec' v) (go r) end) l)
      | JObj m => Pobj ((fix go (m : list (text * json)) : Forall (fun p => P (snd p)) m :=
                          match m with [] => Forall_nil _ | p :: r => Forall_cons _ (json_rec' (snd p)) (go r) end) m)
      end.
  End Ind.

  Fixpoint dump_list (ind : nat) (l : list json) : outcome (list text) :=
    match l with
    | [] => Ok []
    | v :: r => t <- dump io (2 + ind) v ;; ts <- dump_list ind r ;; Ok ((pad ind ++ t) :: ts)
    end.
  Fixpoint dump_members (ind : nat) (m : list (text * json)) : outcome (list text) :=
    match m with
    | [] => Ok []
    | (k, v) :: r =>
        kt <- dump_string k ;; t <- dump io (2 + ind) v ;; ts <- dump_members ind r ;;
        Ok ((pad ind ++ kt ++ 58 :: 32 :: t) :: ts)
    end.
  Lemma dump_arr ind v l : dump io ind (JArr (v :: l)) = (ts <- dump_list ind (v :: l) ;; Ok (91 :: 10 :: lines ts ++ 10 :: repeat 32 ind ++ [93])).
  Proof.
    set (l' := v :: l).
    assert (G : forall l', (fix go (l : list json) : outcome (list text) :=
                 match l with
                 | [] => Ok []
                 | v :: r => t <- dump io (2 + ind) v ;; ts <- go r ;; Ok ((repeat 32 (2 + ind) ++ t) :: ts)
                 end) l' = dump_list ind l').
    { induction l'0 as [|x q IH]; [reflexivity|]. cbn [dump_list]. rewrite <- IH. reflexivity. }
    rewrite <- G. reflexivity.
  Qed.
  Lemma dump_obj ind p m : dump io ind (JObj (p :: m)) = (ts <- dump_members ind (p :: m) ;; Ok (123 :: 10 :: lines ts ++ 10 :: repeat 32 ind ++ [125])).
  Proof.
    set (m' := p :: m).
    assert (G : forall m', (fix go (m : list (text * json)) : outcome (list text) :=
                 match m with
                 | [] => Ok []
                 | (k, v) :: r =>
                     kt <- dump_string k ;; t <- dump io (2 + ind) v ;; ts <- go r ;;
                     Ok ((repeat 32 (2 + ind) ++ kt ++ 58 :: 32 :: t) :: ts)
                 end) m' = dump_members ind m').
    { induction m'0 as [|[k x] q IH]; [reflexivity|]. cbn [dump_members]. rewrite <- IH. reflexivity. }
    rewrite <- G. reflexivity.
  Qed.

  (** The first token of a value. *)
  Definition opens (k : token) : bool := match k with KEndArr | KEndObj | KColon | KComma | KEnd | KErr => false | _ => true end.
  Definition reads_back (j : json) : Prop :=
    forall ind t, dump io ind j = Ok t -> printable io j ->
    t <> [] /\ forall rest f, apart rest -> (2 * length t <= f)%nat ->
    exists k r, scan io (t ++ rest) = (k, r) /\ opens k = true /\ jvalue io f k r = Ok (j, rest).

  Lemma lines_cons t ts : ts <> [] -> lines (t :: ts) = t ++ 44 :: 10 :: lines ts.
  Proof. destruct ts; [intros N; now elim N|reflexivity]. Qed.
  Lemma string_token s t rest : dump_string s = Ok t -> chars s -> scan io (t ++ rest) = (KStr s, rest).
  Proof.
    unfold dump_string. destruct (dump_escaped 0 0 s) as [e| | |] eqn:E; try discriminate. cbn [bind]. intros [= <-] C.
    cbn [app]. unfold scan. cbn [skip_space]. change (is_space 34) with false. cbv iota.
    change (34 =? 91) with false. change (34 =? 93) with false. change (34 =? 123) with false. change (34 =? 125) with false. change (34 =? 58) with false.
    change (34 =? 44) with false. change (34 =? 116) with false. change (34 =? 102) with false. change (34 =? 110) with false. change (34 =? 34) with true.
    cbv iota. rewrite <- app_assoc. cbn [app]. rewrite (string_back (n := length s) (s := s) (t := e)); [reflexivity|lia|exact E|exact C|].
    apply dump_escaped_len in E. rewrite app_length. cbn. lia.
  Qed.
  Lemma dump_string_nonempty s t : dump_string s = Ok t -> t <> [].
  Proof. unfold dump_string. destruct (dump_escaped 0 0 s); try discriminate. cbn [bind]. intros [= <-]. discriminate. Qed.

  Lemma list_back ind : forall l ts, l <> [] -> Forall reads_back l -> dump_list ind l = Ok ts -> Forall (printable io) l ->
    ts <> [] /\ forall tail rest f acc, apart tail -> scan io tail = (KEndArr, rest) -> (2 * length (lines ts) + 1 <= f)%nat ->
    exists k r, scan io (lines ts ++ tail) = (k, r) /\ opens k = true /\ jelements io f k r acc = Ok (JArr (acc ++ l), rest).
  Proof.
    induction l as [|v l IH]; intros ts N R D P; [now elim N|]. inversion R; subst. inversion P; subst. cbn [dump_list] in D.
    destruct (dump io (2 + ind) v) as [t| | |] eqn:E; try discriminate. cbn [bind] in D.
    destruct (dump_list ind l) as [ts'| | |] eqn:E'; try discriminate. cbn [bind] in D. match type of D with Ok ?a = Ok ?b => assert (Q : b = a) by congruence; clear D; subst b end. split; [discriminate|].
    intros tail rest f acc A ST Hf. destruct (H1 _ _ E H3) as [Nt V].
    destruct l as [|v2 l].
    - cbn in E'. injection E' as <-. match goal with |- context [lines [?x]] => change (lines [x]) with x in * end. rewrite app_length in Hf.
      destruct f as [|f]; [lia|]. rewrite <- app_assoc. rewrite (scan_space io _ (spaces (2 + ind))).
      destruct (V tail f A ltac:(lia)) as (k & r & S & O & VV). exists k, r. split; [exact S|]. split; [exact O|].
      rewrite jelements_S, VV. cbn [bind]. now rewrite ST.
    - destruct (IH ts' ltac:(discriminate) H2 eq_refl H4) as [Nts IH']. rewrite lines_cons in * by exact Nts. rewrite !app_length in Hf. cbn [length] in Hf.
      destruct f as [|f]; [lia|].
      rewrite <- !app_assoc. rewrite (scan_space io _ (spaces (2 + ind))). cbn [app].
      destruct (V (44 :: 10 :: lines ts' ++ tail) f ltac:(repeat split; discriminate) ltac:(lia)) as (k & r & S & O & VV). exists k, r. split; [exact S|]. split; [exact O|].
      rewrite jelements_S, VV. cbn [bind]. change (scan io (44 :: 10 :: lines ts' ++ tail)) with (@KComma F, 10 :: lines ts' ++ tail). cbv iota.
      change (10 :: lines ts' ++ tail) with ([10] ++ lines ts' ++ tail). rewrite scan_space by (constructor; [reflexivity|constructor]).
      destruct (IH' tail rest f (acc ++ [v]) A ST ltac:(lia)) as (k2 & r2 & S2 & O2 & E2). rewrite S2, E2. now rewrite <- app_assoc.
  Qed.
  Lemma members_back ind : forall m ts, m <> [] -> Forall (fun p => reads_back (snd p)) m -> dump_members ind m = Ok ts ->
    Forall (fun p => chars (fst p) /\ printable io (snd p)) m -> StronglySorted key_lt m ->
    ts <> [] /\ forall tail rest f acc, apart tail -> scan io tail = (KEndObj, rest) -> (2 * length (lines ts) + 1 <= f)%nat ->
    Forall (fun p => Forall (fun q => key_ltb (fst p) (fst q) = true) m) acc ->
    exists key r, scan io (lines ts ++ tail) = (KStr key, r) /\ jmembers io f (KStr key) r acc = Ok (JObj (acc ++ m), rest).
  Proof.
    induction m as [|[key v] m IH]; intros ts N R D P SS; [now elim N|]. inversion R; subst. inversion P; subst. inversion SS; subst. destruct H3 as [Ck Pv].
    cbn [fst snd] in *. cbn [dump_members] in D.
    destruct (dump_string key) as [kt| | |] eqn:Ek; try discriminate. cbn [bind] in D.
    destruct (dump io (2 + ind) v) as [t| | |] eqn:E; try discriminate. cbn [bind] in D.
    destruct (dump_members ind m) as [ts'| | |] eqn:E'; try discriminate. cbn [bind] in D. match type of D with Ok ?a = Ok ?b => assert (Q : b = a) by congruence; clear D; subst b end. split; [discriminate|].
    intros tail rest f acc A ST Hf HA. destruct (H1 _ _ E Pv) as [Nt V].
    assert (AC : oset acc key v = acc ++ [(key, v)]).
    { apply oset_last. eapply Forall_impl; [|exact HA]. intros p Hp. now inversion Hp. }
    destruct m as [|p2 m].
    - cbn in E'. injection E' as <-. match goal with |- context [lines [?x]] => change (lines [x]) with x in * end. rewrite !app_length in Hf. cbn [length] in Hf.
      destruct f as [|f]; [lia|]. rewrite <- !app_assoc. rewrite (scan_space io _ (spaces (2 + ind))). cbn [app].
      exists key, (58 :: 32 :: t ++ tail). split; [now apply string_token|]. rewrite jmembers_S.
      change (scan io (58 :: 32 :: t ++ tail)) with (@KColon F, 32 :: t ++ tail). cbv iota.
      change (32 :: t ++ tail) with ([32] ++ t ++ tail). rewrite scan_space by (constructor; [reflexivity|constructor]).
      destruct (V tail f A ltac:(lia)) as (k & r & S & O & VV). rewrite S, VV. cbn [bind]. rewrite ST. now rewrite AC.
    - destruct (IH ts' ltac:(discriminate) H2 eq_refl H4 H5) as [Nts IH']. rewrite lines_cons in * by exact Nts. rewrite !app_length in Hf. cbn [length] in Hf.
      destruct f as [|f]; [lia|].
      rewrite <- !app_assoc. rewrite (scan_space io _ (spaces (2 + ind))). cbn [app].
      exists key, (58 :: 32 :: t ++ 44 :: 10 :: lines ts' ++ tail). split; [now apply string_token|]. rewrite jmembers_S.
      match goal with |- context [scan io (58 :: ?x)] => change (scan io (58 :: x)) with (@KColon F, x) end. cbv iota.
      match goal with |- context [scan io (32 :: ?x)] => change (32 :: x) with ([32] ++ x) end. rewrite scan_space by (constructor; [reflexivity|constructor]).
      destruct (V (44 :: 10 :: lines ts' ++ tail) f ltac:(repeat split; discriminate) ltac:(lia)) as (k & r & S & O & VV). rewrite S, VV. cbn [bind].
      change (scan io (44 :: 10 :: lines ts' ++ tail)) with (@KComma F, 10 :: lines ts' ++ tail). cbv iota.
      change (10 :: lines ts' ++ tail) with ([10] ++ lines ts' ++ tail). rewrite scan_space by (constructor; [reflexivity|constructor]).
      destruct (IH' tail rest f (oset acc key v) A ST ltac:(lia)) as (k2 & r2 & S2 & E2).
      { rewrite AC. apply Forall_app. split; [|constructor; [|constructor]].
        - eapply Forall_impl; [|exact HA]. intros p Hp. now inversion Hp.
        - exact H6. }
      rewrite S2, E2, AC. now rewrite <- app_assoc.
  Qed.

  Lemma all_back : forall j, reads_back j.
  Proof.
    apply json_rec'; unfold reads_back.
    - intros ind t [= <-] _. split; [discriminate|]. intros rest f A Hf. exists KNull, rest. split; [reflexivity|]. split; [reflexivity|]. destruct f; [cbn in Hf; lia|reflexivity].
    - intros b ind t H _. destruct b; injection H as <-; (split; [discriminate|]); intros rest f A Hf;
        [exists KTrue, rest|exists KFalse, rest]; (split; [reflexivity|]); (split; [reflexivity|]); (destruct f; [cbn in Hf; lia|reflexivity]).
    - intros z ind t [= <-] P. inversion P; subst. split.
      { unfold int_to_string. destruct (Z.ltb_spec z 0); [discriminate|]. apply (dec_numeral). lia. }
      intros rest f A Hf. exists (KInt z), rest. split; [now apply int_back|]. split; [reflexivity|].
      destruct f; [|reflexivity]. exfalso. unfold int_to_string in Hf. destruct (Z.ltb_spec z 0); [cbn in Hf; lia|].
      destruct (@dec_numeral z ltac:(lia)) as (N & _). destruct (dec z); [now elim N|cbn in Hf; lia].
    - intros x ind t H P. inversion P as [| | |x' (u & S & FL & R)| | |]; subst. cbn in H. unfold dump_float in H. rewrite S in H. injection H as <-.
      assert (N : u <> []). { destruct FL as (m & i & fr & ex & -> & _ & [n Hi] & _). destruct (numeral_head Hi) as (c & i' & -> & _). destruct m; discriminate. }
      split; [exact N|]. intros rest f A Hf. exists (KFloat x), rest. split; [now apply float_back|]. split; [reflexivity|].
      destruct f; [|reflexivity]. destruct u; [now elim N|cbn in Hf; lia].
    - intros s ind t H P. inversion P; subst. cbn in H. pose proof (dump_string_nonempty _ H) as N. split; [exact N|].
      intros rest f A Hf. exists (KStr s), rest. split; [now apply string_token|]. split; [reflexivity|].
      destruct f; [|reflexivity]. destruct t; [now elim N|cbn in Hf; lia].
    - intros [|v l] R ind t H P.
      + injection H as <-. split; [discriminate|]. intros rest f A Hf. exists KBeginArr, (93 :: rest). split; [reflexivity|]. split; [reflexivity|].
        destruct f; [cbn in Hf; lia|reflexivity].
      + rewrite dump_arr in H. destruct (dump_list ind (v :: l)) as [ts| | |] eqn:E; try discriminate. cbn [bind] in H. injection H as <-.
        inversion P; subst. destruct (list_back ind (l := v :: l) ltac:(discriminate) R E H0) as [N B]. split; [discriminate|].
        intros rest f A Hf. cbn [length] in Hf. rewrite app_length in Hf. cbn [length] in Hf. destruct f as [|f]; [lia|].
        exists KBeginArr, (10 :: lines ts ++ 10 :: repeat 32 ind ++ 93 :: rest).
        split; [cbn [app]; rewrite <- !app_assoc; cbn [app]; rewrite <- !app_assoc; reflexivity|]. split; [reflexivity|]. rewrite jvalue_S.
        match goal with |- context [scan io (10 :: ?x)] => change (10 :: x) with ([10] ++ x) end. rewrite scan_space by (constructor; [reflexivity|constructor]).
        destruct (B (10 :: repeat 32 ind ++ 93 :: rest) rest f [] ltac:(repeat split; discriminate)) as (k & r & S & O & EE); [|lia|].
        { match goal with |- scan io (10 :: ?x) = _ => change (10 :: x) with ([10] ++ x) end. rewrite scan_space by (constructor; [reflexivity|constructor]).
          rewrite (scan_space io _ (spaces _)). reflexivity. }
        rewrite S. destruct k; try discriminate; exact EE.
    - intros [|p m] R ind t H P.
      + injection H as <-. split; [discriminate|]. intros rest f A Hf. exists KBeginObj, (125 :: rest). split; [reflexivity|]. split; [reflexivity|].
        destruct f; [cbn in Hf; lia|reflexivity].
      + rewrite dump_obj in H. destruct (dump_members ind (p :: m)) as [ts| | |] eqn:E; try discriminate. cbn [bind] in H. injection H as <-.
        inversion P; subst. destruct (members_back ind (m := p :: m) ltac:(discriminate) R E H0 H1) as [N B]. split; [discriminate|].
        intros rest f A Hf. cbn [length] in Hf. rewrite app_length in Hf. cbn [length] in Hf. destruct f as [|f]; [lia|].
        exists KBeginObj, (10 :: lines ts ++ 10 :: repeat 32 ind ++ 125 :: rest).
        split; [cbn [app]; rewrite <- !app_assoc; cbn [app]; rewrite <- !app_assoc; reflexivity|]. split; [reflexivity|]. rewrite jvalue_S.
        match goal with |- context [scan io (10 :: ?x)] => change (10 :: x) with ([10] ++ x) end. rewrite scan_space by (constructor; [reflexivity|constructor]).
        destruct (B (10 :: repeat 32 ind ++ 125 :: rest) rest f [] ltac:(repeat split; discriminate)) as (k & r & S & EE); [|lia|constructor|].
        { match goal with |- scan io (10 :: ?x) = _ => change (10 :: x) with ([10] ++ x) end. rewrite scan_space by (constructor; [reflexivity|constructor]).
          rewrite (scan_space io _ (spaces _)). reflexivity. }
        rewrite S. exact EE.
  Qed.

  (** A file with an object at the top. *)
  Lemma object_start m t : dump io 0 (JObj m) = Ok t -> exists t', t = 123 :: t'.
  Proof.
    destruct m as [|p m]; [intros [= <-]; now eexists|]. rewrite dump_obj. destruct (dump_members 0 (p :: m)); try discriminate.
    cbn [bind]. intros [= <-]. now eexists.
  Qed.
  Lemma file_back m t : dump io 0 (JObj m) = Ok t -> printable io (JObj m) -> parse io (t ++ [10]) = Ok (JObj m) /\ parse io t = Ok (JObj m).
  Proof.
    intros D P. destruct (object_start _ D) as [t' Et]. destruct (@all_back _ _ _ D P) as [_ V].
    assert (B : forall s, skip_bom (t ++ s) = Some (t ++ s)) by (intros s; rewrite Et; reflexivity).
    assert (G : forall s, apart s -> parse io (t ++ s) = Ok (JObj m)).
    { intros s A. unfold parse. rewrite B. unfold parse_at. destruct (V s (2 * length (t ++ s) + 3)%nat A) as (k & r & S & _ & E); [rewrite app_length; lia|].
      rewrite S, E. reflexivity. }
    split; [apply G; repeat split; discriminate|]. specialize (G [] I). now rewrite app_nil_r in G.
  Qed.
  (** A file cut short does not parse. *)
  Lemma file_cut m t p u : dump io 0 (JObj m) = Ok t -> printable io (JObj m) -> t = p ++ u -> u <> [] -> parse io p = Throw JsonParse.
  Proof.
    intros D P E N. destruct (object_start _ D) as [t' Et]. destruct (parse_settles io p) as [[v Hv]|]; [exfalso|assumption].
    destruct (@all_back _ _ _ D P) as [_ V].
    destruct p as [|c p]; [cbn in Hv; discriminate|]. assert (c = 123) by (rewrite Et in E; cbn in E; congruence). subst c.
    unfold parse in Hv. change (skip_bom (123 :: p)) with (Some (123 :: p)) in Hv. cbv iota in Hv. set (f := (2 * length (123%Z :: p) + 3)%nat) in Hv.
    unfold parse_at in Hv. change (scan io (123 :: p)) with (@KBeginObj F, p) in Hv. cbv iota in Hv.
    destruct (jvalue io f KBeginObj p) as [[v' r]| | |] eqn:J; try discriminate.
    destruct (parser_ext io f) as [X _]. destruct (V [] (f + 2 * length t)%nat I ltac:(lia)) as (k & r' & S & _ & J').
    rewrite app_nil_r in S. rewrite E in S. change (scan io ((123 :: p) ++ u)) with (@KBeginObj F, p ++ u) in S. injection S as <- <-.
    apply (X _ _ _ _ u (f + 2 * length t)%nat) in J; [|lia]. destruct J as [J _]. rewrite J in J'. injection J' as _ Q. apply app_eq_nil in Q. now destruct Q.
  Qed.
End J.
