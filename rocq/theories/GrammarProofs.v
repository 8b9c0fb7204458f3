(** GrammarProofs: the reader accepts the texts of [SpecGrammar] and no others. *)
From Coq Require Import Ascii String Sorted ZifyBool.
From Verif Require Import Base ModelTok Maps ModelVGram ModelJson DictProofs JsonProofs JsonRoundTrip SpecVGram SpecJson SpecSave SpecGrammar.
Local Open Scope Z_scope.
Local Open Scope list_scope.
Set Implicit Arguments.

(** ** White space *)
Lemma blank_space w : blank w <-> Forall (fun c => is_space c = true) w.
Proof. unfold blank. rewrite !Forall_forall. split; intros H c Hc; specialize (H c Hc); unfold is_space in *; lia. Qed.
Lemma skip_blank : forall s, exists w, blank w /\ s = w ++ skip_space s.
Proof.
  induction s as [|c s (w & Hw & E)]; [exists []; split; [constructor|reflexivity]|]. cbn [skip_space]. destruct (is_space c) eqn:Hc.
  - exists (c :: w). split; [|cbn; now f_equal]. constructor; [|exact Hw]. unfold is_space in Hc. lia.
  - exists []. split; [constructor|reflexivity].
Qed.

(** ** Strings *)
Lemma hexvalue_iff c v : hexvalue c = Some v <-> hex_digit c v.
Proof.
  unfold hexvalue, hex_digit, within. destruct (_ && _)%bool eqn:E1; [split; [intros [= <-]; lia|intros H; f_equal; lia]|].
  destruct (_ && _)%bool eqn:E2 in |- *; [split; [intros [= <-]; lia|intros H; f_equal; lia]|].
  destruct (_ && _)%bool eqn:E3 in |- *; [split; [intros [= <-]; lia|intros H; f_equal; lia]|]. split; [discriminate|lia].
Qed.
Lemma codepoint_iff s n r : get_codepoint s = Some (n, r) <-> exists h, hex4 h n /\ s = h ++ r.
Proof.
  split.
  - destruct s as [|a [|b [|c [|d s]]]]; try discriminate. cbn [get_codepoint]. destruct (hexvalue a) as [x|] eqn:A, (hexvalue b) as [y|] eqn:B, (hexvalue c) as [z|] eqn:C, (hexvalue d) as [w|] eqn:D; try discriminate.
    intros [= <- <-]. exists [a; b; c; d]. split; [|reflexivity]. apply hexvalue_iff in A, B, C, D. exists a, b, c, d, x, y, z, w. repeat split; trivial. lia.
  - intros (h & (a & b & c & d & x & y & z & w & -> & A & B & C & D & ->) & ->). apply hexvalue_iff in A, B, C, D. cbn [app get_codepoint]. rewrite A, B, C, D. f_equal. f_equal. lia.
Qed.
Lemma hex4_range h n : hex4 h n -> 0 <= n < 65536.
Proof. intros (a & b & c & d & x & y & z & w & _ & A & B & C & D & ->). unfold hex_digit in *. lia. Qed.

Lemma lor_add k n b x : forallb (fun x => Z.lor b x =? b + x) (map Z.of_nat (List.seq 0 n)) = true -> k = Z.of_nat n -> 0 <= x < k -> Z.lor b x = b + x.
Proof. intros H -> Hx. rewrite forallb_forall in H. apply Z.eqb_eq, H. now apply (below n (z := Z.of_nat n)). Qed.
Lemma low_bits n : 0 <= n -> Z.lor 128 (Z.land n 63) = 128 + n mod 64.
Proof.
  intros H. change 63 with (Z.ones 6). rewrite Z.land_ones by lia. change (2 ^ 6) with 64.
  apply (@lor_add 64 64); [vm_compute; reflexivity|reflexivity|]. apply Z.mod_pos_bound. lia.
Qed.
Lemma schar_byte b : 0 <= b < 256 -> schar b mod 256 = b /\ -128 <= schar b < 128.
Proof. intros H. unfold schar. destruct (Z.ltb_spec b 128); (split; [|lia]); [now apply Z.mod_small|]. symmetry. apply Z.mod_unique with (-1); lia. Qed.
Lemma schars l : Forall (fun b => 0 <= b < 256) l -> bytes_of (map schar l) = l /\ chars (map schar l).
Proof.
  induction 1 as [|b l Hb _ [IH1 IH2]]; [split; [reflexivity|constructor]|]. destruct (schar_byte Hb) as [E R]. cbn. split; [|now constructor]. f_equal; [exact E|exact IH1].
Qed.
Lemma bytes_inj a b : chars a -> chars b -> bytes_of a = bytes_of b -> a = b.
Proof.
  intros Ha. revert b. induction Ha as [|x a Hx _ IH]; intros [|y b] Hb E; try discriminate; [reflexivity|]. inversion Hb; subst. cbn in E. injection E as E1 E2.
  f_equal; [|now apply IH]. pose proof (Z.div_mod x 256 ltac:(lia)). pose proof (Z.div_mod y 256 ltac:(lia)). lia.
Qed.
Lemma utf8_of_range n : 0 <= n < 1114112 -> Forall (fun b => 0 <= b < 256) (utf8_of n).
Proof.
  intros H. unfold utf8_of. pose proof (Z.mod_pos_bound n 64 ltac:(lia)). pose proof (Z.mod_pos_bound (n / 64) 64 ltac:(lia)). pose proof (Z.mod_pos_bound (n / 4096) 64 ltac:(lia)).
  destruct (Z.ltb_spec n 128); [repeat constructor; lia|]. destruct (Z.ltb_spec n 2048); [assert (0 <= n / 64 < 32) by (split; [apply Z.div_pos|apply Z.div_lt_upper_bound]; lia); repeat constructor; lia|].
  destruct (Z.ltb_spec n 65536); [assert (0 <= n / 4096 < 16) by (split; [apply Z.div_pos|apply Z.div_lt_upper_bound]; lia); repeat constructor; lia|].
  assert (0 <= n / 262144 < 5) by (split; [apply Z.div_pos|apply Z.div_lt_upper_bound]; lia). repeat constructor; lia.
Qed.
Lemma utf8_bytes_of n : 0 <= n < 1114112 -> utf8_bytes n = map schar (utf8_of n).
Proof.
  intros H. unfold utf8_bytes, utf8_of.
  assert (S6 : forall x, Z.shiftr x 6 = x / 64) by (intro x; now rewrite Z.shiftr_div_pow2).
  assert (S12 : forall x, Z.shiftr x 12 = x / 4096) by (intro x; now rewrite Z.shiftr_div_pow2).
  assert (S18 : forall x, Z.shiftr x 18 = x / 262144) by (intro x; now rewrite Z.shiftr_div_pow2).
  rewrite S6, S12, S18. assert (0 <= n / 64) by (apply Z.div_pos; lia). assert (0 <= n / 4096) by (apply Z.div_pos; lia). rewrite !low_bits by lia.
  destruct (Z.ltb_spec n 128); [reflexivity|]. destruct (Z.leb_spec n 2047); destruct (Z.ltb_spec n 2048); try lia.
  { assert (n / 64 < 32) by (apply Z.div_lt_upper_bound; lia). rewrite (@lor_add 32 32 192); [reflexivity|vm_compute; reflexivity|reflexivity|lia]. }
  destruct (Z.leb_spec n 65535); destruct (Z.ltb_spec n 65536); try lia.
  { assert (n / 4096 < 16) by (apply Z.div_lt_upper_bound; lia). rewrite (@lor_add 16 16 224); [reflexivity|vm_compute; reflexivity|reflexivity|lia]. }
  assert (0 <= n / 262144 < 5) by (split; [apply Z.div_pos|apply Z.div_lt_upper_bound]; lia). rewrite (@lor_add 5 5 240); [reflexivity|vm_compute; reflexivity|reflexivity|lia].
Qed.
Lemma code_bytes n b : 0 <= n < 1114112 -> chars b -> bytes_of b = utf8_of n -> b = utf8_bytes n.
Proof.
  intros H C E. rewrite utf8_bytes_of by exact H. destruct (schars (utf8_of_range H)) as [E' C']. apply bytes_inj; [exact C|exact C'|]. now rewrite E, E'.
Qed.

(** One character of a string, given the text after it. *)
Inductive piece : text -> text -> Prop :=
| pc_plain c : utf8_char (bytes_of c) -> (forall a, c = [a] -> 32 <= a mod 256 /\ a <> 34 /\ a <> 92) -> piece c c
| pc_letter e x : In (e, x) letters -> piece [92; e] [x]
| pc_code h n b : hex4 h n -> ~ 55296 <= n <= 57343 -> chars b -> bytes_of b = utf8_of n -> piece (92 :: 117 :: h) b
| pc_pair h n h' n' b : hex4 h n -> 55296 <= n <= 56319 -> hex4 h' n' -> 56320 <= n' <= 57343 ->
    chars b -> bytes_of b = utf8_of (65536 + 1024 * (n - 55296) + (n' - 56320)) -> piece (92 :: 117 :: h ++ 92 :: 117 :: h') b.
Lemma string_pieces t s : string_text t s <-> exists ps, Forall (fun p => piece (fst p) (snd p)) ps /\ t = flat_map fst ps /\ s = flat_map snd ps.
Proof.
  split.
  - assert (G : forall p q t s, piece p q -> (exists ps, Forall (fun p => piece (fst p) (snd p)) ps /\ t = flat_map fst ps /\ s = flat_map snd ps) ->
      exists ps, Forall (fun p => piece (fst p) (snd p)) ps /\ p ++ t = flat_map fst ps /\ q ++ s = flat_map snd ps).
    { intros p q t' s' H (ps & Hp & -> & ->). exists ((p, q) :: ps). split; [now constructor|]. now split. }
    induction 1 as [|c t s H1 H2 _ IH|e x t s H1 _ IH|h n b t s H1 H2 H3 H4 _ IH|h n h' n' b t s H1 H2 H3 H4 H5 H6 _ IH].
    + exists []. now repeat split.
    + apply G; [now constructor|exact IH].
    + apply (G [92; e] [x]); [now constructor|exact IH].
    + apply (G (92 :: 117 :: h)); [now apply pc_code with n|exact IH].
    + change (92 :: 117 :: h ++ 92 :: 117 :: h' ++ t) with ((92 :: 117 :: h) ++ (92 :: 117 :: h') ++ t). rewrite app_assoc.
      apply (G ((92 :: 117 :: h) ++ (92 :: 117 :: h'))); [now apply pc_pair with n n'|exact IH].
  - intros (ps & Hp & -> & ->). induction Hp as [|[p q] ps Hp _ IH]; [constructor|]. cbn [fst snd flat_map] in *.
    inversion Hp as [c H1 H2|e x H1|h n b H1 H2 H3 H4|h n h' n' b H1 H2 H3 H4 H5 H6]; subst.
    + now constructor.
    + now constructor.
    + cbn [app]. now apply st_code with n.
    + cbn [app]. rewrite <- app_assoc. cbn [app]. now apply st_pair with n n'.
Qed.

Lemma take_all rs : forall p rest, Forall2 (fun r c => fst r <= byte c <= snd r) rs p -> take_ranges rs (p ++ rest) = Some (p, rest).
Proof.
  intros p rest H. induction H as [|[lo hi] c rs p Hc _ IH]; [reflexivity|]. cbn [app take_ranges]. cbn [fst snd] in Hc.
  assert (W : within lo hi (byte c) = true) by (unfold within; lia). now rewrite W, IH.
Qed.
Lemma take_only : forall rs s p rest, take_ranges rs s = Some (p, rest) -> s = p ++ rest /\ Forall2 (fun r c => fst r <= byte c <= snd r) rs p.
Proof.
  induction rs as [|[lo hi] rs IH]; intros s p rest H; [injection H as <- <-; split; [reflexivity|constructor]|].
  destruct s as [|c s]; [discriminate|]. cbn [take_ranges] in H. destruct (within lo hi (byte c)) eqn:W; [|discriminate].
  destruct (take_ranges rs s) as [[t r']|] eqn:E; [|discriminate]. injection H as <- <-. apply IH in E. destruct E as [-> E]. split; [reflexivity|].
  constructor; [|exact E]. unfold within in W. cbn. lia.
Qed.
(** The ranges are those of RFC 3629. *)
Lemma ranges_char c p rs : 128 <= byte c -> follow_ranges (byte c) = Some rs -> Forall2 (fun r c => fst r <= byte c <= snd r) rs p -> utf8_char (bytes_of (c :: p)).
Proof.
  intros Hc. unfold follow_ranges, within. cbn [bytes_of map]. fold (byte c).
  assert (T : forall x, (128, 191) = x \/ True) by tauto. clear T.
  repeat match goal with |- (if ?b then _ else _) = _ -> _ => destruct b eqn:? end; try discriminate; intros [= <-] H;
    repeat match goal with H : Forall2 _ _ _ |- _ => inversion H; clear H; subst end; cbn [map fst snd] in *;
    repeat match goal with |- context [?x mod 256] => fold (byte x) end;
    first [apply u8_2; [lia|assumption] | replace (byte c) with 224 by lia; now apply u8_3a | replace (byte c) with 237 by lia; now apply u8_3c
    | replace (byte c) with 240 by lia; now apply u8_4a | replace (byte c) with 244 by lia; now apply u8_4c | apply u8_4b; [lia|assumption..] | idtac].
  assert (D : 225 <= byte c <= 236 \/ 238 <= byte c <= 239) by lia. destruct D; [now apply u8_3b|now apply u8_3d].
Qed.
Lemma char_ranges c p : utf8_char (bytes_of (c :: p)) -> 128 <= byte c -> exists rs, follow_ranges (byte c) = Some rs /\ Forall2 (fun r c => fst r <= byte c <= snd r) rs p.
Proof.
  cbn [bytes_of map]. fold (byte c). intros H Hc. unfold follow_ranges, within.
  inversion H; subst; try lia;
    repeat (match goal with H : _ :: _ = map _ ?p |- _ => destruct p as [|? p]; cbn [map] in H; [discriminate H|] end;
            match goal with H : _ :: _ = _ :: _ |- _ => injection H as -> H end);
    repeat match goal with H : [] = map _ ?p |- _ => destruct p; [clear H|discriminate H] end;
    repeat match goal with |- context [if ?b then _ else _] => let E := fresh in destruct b eqn:E; [try lia|try lia] end;
    eexists; (split; [reflexivity|]); repeat constructor; unfold tail_byte, byte in *; cbn [fst snd]; lia.
Qed.

Lemma piece_scan p q rest : piece p q -> chars p -> scan_char (p ++ rest) = Some (Some q, rest).
Proof.
  intros [c H1 H2|e x H1|h n b H1 H2 H3 H4|h n h' n' b H1 H2 H3 H4 H5 H6] C.
  - destruct c as [|c u]; [inversion H1|]. cbn [app scan_char]. inversion C as [|? ? Cc Cu]; subst.
    destruct (Z_lt_le_dec (byte c) 128) as [L|L].
    + assert (Ep : u = []). { cbn [bytes_of map] in H1. fold (byte c) in H1. inversion H1; subst; try lia; try (destruct u; [reflexivity|discriminate]). }
      subst u. destruct (H2 c eq_refl) as (A & B & D). fold (byte c) in A.
      destruct (Z.eqb_spec c 34); [contradiction|]. destruct (Z.eqb_spec c 92); [contradiction|]. destruct (Z.ltb_spec (byte c) 32); [lia|]. destruct (Z.ltb_spec (byte c) 128); [reflexivity|lia].
    + assert (c < 0) by (unfold byte in L; destruct (Z_lt_le_dec c 0); [assumption|rewrite Z.mod_small in L; lia]).
      destruct (Z.eqb_spec c 34); [lia|]. destruct (Z.eqb_spec c 92); [lia|]. destruct (Z.ltb_spec (byte c) 32); [lia|]. destruct (Z.ltb_spec (byte c) 128); [lia|].
      destruct (char_ranges H1 L) as (rs & -> & Hr). now rewrite (take_all _ Hr).
  - cbn [app scan_char]. cbn in H1. repeat (destruct H1 as [[= <- <-]|H1]; [reflexivity|]). contradiction.
  - cbn [app scan_char]. change (92 =? 34) with false. change (92 =? 92) with true. cbv iota. change (simple_escape 117) with (@None Z). change (117 =? 117) with true. cbv iota.
    unfold scan_unicode. assert (E : get_codepoint (h ++ rest) = Some (n, rest)) by (apply codepoint_iff; now exists h). rewrite E.
    pose proof (hex4_range H1). unfold within. destruct ((55296 <=? n) && (n <=? 56319))%bool eqn:W; [lia|]. destruct ((56320 <=? n) && (n <=? 57343))%bool eqn:W'; [lia|].
    rewrite (@code_bytes n b); [reflexivity|lia|exact H3|exact H4].
  - change (92 :: 117 :: h ++ 92 :: 117 :: h') with ((92 :: 117 :: h) ++ [92; 117] ++ h'). rewrite <- !app_assoc. cbn [app scan_char]. change (92 =? 34) with false. change (92 =? 92) with true. cbv iota. change (simple_escape 117) with (@None Z). change (117 =? 117) with true. cbv iota.
    unfold scan_unicode. assert (E : get_codepoint (h ++ 92 :: 117 :: h' ++ rest) = Some (n, 92 :: 117 :: h' ++ rest)) by (apply codepoint_iff; now exists h). rewrite E.
    pose proof (hex4_range H1). pose proof (hex4_range H3). unfold within. destruct ((55296 <=? n) && (n <=? 56319))%bool eqn:W; [|lia]. change ((92 =? 92) && (117 =? 117))%bool with true. cbv iota.
    assert (E' : get_codepoint (h' ++ rest) = Some (n', rest)) by (apply codepoint_iff; now exists h'). rewrite E'.
    destruct ((56320 <=? n') && (n' <=? 57343))%bool eqn:W'; [|lia]. replace (n * 1024 + n' - 56613888) with (65536 + 1024 * (n - 55296) + (n' - 56320)) by lia.
    rewrite (@code_bytes (65536 + 1024 * (n - 55296) + (n' - 56320)) b); [reflexivity|lia|exact H5|exact H6].
Qed.
Lemma scan_piece s q rest : scan_char s = Some (Some q, rest) -> chars s -> exists p, piece p q /\ s = p ++ rest /\ p <> [].
Proof.
  destruct s as [|c s]; [discriminate|]. cbn [scan_char]. intros H C. inversion C as [|? ? Cc Cs]; subst.
  destruct (Z.eqb_spec c 34) as [|N0]; [discriminate|]. destruct (Z.eqb_spec c 92) as [->|N].
  - destruct s as [|e s]; [discriminate|]. destruct (simple_escape e) as [x|] eqn:E.
    + injection H as <- <-. exists [92; e]. split; [constructor|now split]. unfold simple_escape in E.
      repeat match type of E with (if Z.eqb ?a ?b then _ else _) = _ => destruct (Z.eqb_spec a b); [subst; injection E as <-; cbn; tauto|] end. discriminate.
    + destruct (Z.eqb_spec e 117) as [->|]; [|discriminate]. destruct (scan_unicode s) as [[t r2]|] eqn:U; [|discriminate]. injection H as <- <-.
      unfold scan_unicode in U. destruct (get_codepoint s) as [[n r]|] eqn:G; [|discriminate]. apply codepoint_iff in G. destruct G as (h & Hh & ->). pose proof (hex4_range Hh).
      unfold within in U. destruct ((55296 <=? n) && (n <=? 56319))%bool eqn:W.
      * destruct r as [|x [|y r1]]; try discriminate. destruct ((x =? 92) && (y =? 117))%bool eqn:Q; [|discriminate]. assert (x = 92 /\ y = 117) as [-> ->] by lia.
        destruct (get_codepoint r1) as [[n' r']|] eqn:G; [|discriminate]. apply codepoint_iff in G. destruct G as (h' & Hh' & ->). pose proof (hex4_range Hh').
        destruct ((56320 <=? n') && (n' <=? 57343))%bool eqn:W'; [|discriminate]. injection U as <- <-.
        exists (92 :: 117 :: h ++ 92 :: 117 :: h'). split; [|split; [cbn; now rewrite <- app_assoc|discriminate]].
        replace (n * 1024 + n' - 56613888) with (65536 + 1024 * (n - 55296) + (n' - 56320)) by lia.
        assert (R : 0 <= 65536 + 1024 * (n - 55296) + (n' - 56320) < 1114112) by lia. rewrite (utf8_bytes_of R). destruct (schars (utf8_of_range R)).
        apply pc_pair with n n'; trivial; lia.
      * destruct ((56320 <=? n) && (n <=? 57343))%bool eqn:W'; [discriminate|]. injection U as <- <-.
        exists (92 :: 117 :: h). split; [|split; [reflexivity|discriminate]].
        assert (R : 0 <= n < 1114112) by lia. rewrite (utf8_bytes_of R). destruct (schars (utf8_of_range R)). apply pc_code with n; trivial; lia.
  - destruct (Z.ltb_spec (byte c) 32); [discriminate|]. destruct (Z.ltb_spec (byte c) 128).
    + injection H as <- <-. exists [c]. split; [|now split]. constructor; [cbn; constructor; unfold byte in *; lia|]. intros a [= <-]. unfold byte in *. repeat split; assumption || lia.
    + destruct (follow_ranges (byte c)) as [rs|] eqn:Fr; [|discriminate]. destruct (take_ranges rs s) as [[t r']|] eqn:E; [|discriminate]. injection H as <- <-.
      apply take_only in E. destruct E as [-> E]. exists (c :: t). split; [|now split]. constructor; [now apply (@ranges_char c t rs)|].
      intros a [= <- ->]. inversion E; subst. unfold follow_ranges in Fr. repeat match type of Fr with (if ?b then _ else _) = _ => destruct b end; discriminate.
Qed.

Lemma string_reads t s rest : string_text t s -> chars t -> forall f, (length t < f)%nat -> scan_string f (t ++ 34 :: rest) = Some (s, rest).
Proof.
  intros H. apply string_pieces in H. destruct H as (ps & Hp & -> & ->). induction Hp as [|[p q] ps Hp _ IH]; intros C f Hf.
  - destruct f; [lia|]. reflexivity.
  - cbn [flat_map fst snd] in *. apply Forall_app in C. destruct C as [C1 C2]. destruct f as [|f]; [lia|]. cbn [scan_string]. rewrite <- app_assoc, (piece_scan _ Hp C1).
    rewrite IH; [reflexivity|exact C2|]. rewrite app_length in Hf. assert (p <> []) by (intros ->; inversion Hp as [c H1 H2| | |]; subst; inversion H1). destruct p; [contradiction|cbn in Hf; lia].
Qed.
Lemma string_only : forall f r s rest, scan_string f r = Some (s, rest) -> chars r -> exists t, string_text t s /\ r = t ++ 34 :: rest.
Proof.
  induction f as [|f IH]; intros r s rest H C; [discriminate|]. cbn [scan_string] in H. destruct (scan_char r) as [[[q|] r1]|] eqn:E; [| |discriminate].
  - destruct (scan_string f r1) as [[s' r']|] eqn:E'; [|discriminate]. injection H as <- <-. destruct (scan_piece E C) as (p & Hp & -> & _).
    apply Forall_app in C. destruct C as [_ C]. destruct (IH _ _ _ E' C) as (t & Ht & ->). exists (p ++ t). split; [|now rewrite <- app_assoc].
    apply string_pieces in Ht. destruct Ht as (ps & Hps & -> & ->). apply string_pieces. exists ((p, q) :: ps). split; [now constructor|]. now split.
  - injection H as <- <-. exists []. split; [constructor|]. destruct r as [|c r]; [discriminate|]. cbn [scan_char] in E. destruct (Z.eqb_spec c 34) as [->|]; [now injection E as <-|].
    exfalso. clear IH C. destruct (c =? 92); [destruct r as [|e r]; [discriminate|]; destruct (simple_escape e); [discriminate|]; destruct (e =? 117); [|discriminate]; destruct (scan_unicode r) as [[? ?]|]; discriminate|].
    destruct (byte c <? 32); [discriminate|]. destruct (byte c <? 128); [discriminate|]. destruct (follow_ranges (byte c)) as [rs|]; [|discriminate]. destruct (take_ranges rs r) as [[? ?]|]; discriminate.
Qed.

(** ** Numbers *)
Lemma span_only : forall s a b, span_digits s = (a, b) -> s = a ++ b /\ Forall digit a.
Proof.
  induction s as [|c s IH]; intros a b H; cbn in H; [injection H as <- <-; split; [reflexivity|constructor]|].
  destruct (is_digit c) eqn:D; [|injection H as <- <-; split; [reflexivity|constructor]].
  destruct (span_digits s) as [a' b']. injection H as <- <-. destruct (IH _ _ eq_refl) as [-> Ha]. split; [reflexivity|]. constructor; [|exact Ha].
  unfold is_digit, within, digit in *. lia.
Qed.
Lemma int_only s i r : scan_int s = Some (i, r) -> s = i ++ r /\ numeral i (digits_value i).
Proof.
  unfold scan_int. destruct s as [|c s]; [discriminate|]. destruct (Z.eqb_spec c 48) as [->|N].
  - intros [= <- <-]. split; [reflexivity|]. repeat split; try discriminate. repeat constructor; unfold digit; lia.
  - destruct (is_digit c) eqn:D; [|discriminate]. destruct (span_digits s) as [a b] eqn:E. intros [= <- <-]. apply span_only in E. destruct E as [-> Ha].
    split; [reflexivity|]. repeat split; try discriminate; [constructor; [unfold is_digit, within, digit in *; lia|exact Ha]|]. cbn. congruence.
Qed.
Section T.
  Context {F : Type} (io : float_io F).
  Notation token := (@token F). Notation json := (json F).

  Inductive token_text : text -> token -> Prop :=
  | tt_begin_arr : token_text [91] KBeginArr | tt_end_arr : token_text [93] KEndArr
  | tt_begin_obj : token_text [123] KBeginObj | tt_end_obj : token_text [125] KEndObj
  | tt_colon : token_text [58] KColon | tt_comma : token_text [44] KComma
  | tt_true : token_text [116; 114; 117; 101] KTrue | tt_false : token_text [102; 97; 108; 115; 101] KFalse | tt_null : token_text [110; 117; 108; 108] KNull
  | tt_str t s : string_text t s -> token_text (34 :: t ++ [34]) (KStr s)
  | tt_int t z : int_literal t z -> fits z -> token_text t (KInt z)
  | tt_big t z x : int_literal t z -> ~ fits z -> io_read io t = Some x -> token_text t (KFloat x)
  | tt_float t x : float_literal t -> io_read io t = Some x -> token_text t (KFloat x).

  Lemma number_only s k r : scan_number io s = (k, r) -> stops k = false -> exists t, s = t ++ r /\ token_text t k.
  Proof.
    unfold scan_number. destruct (scan_minus s) as [m s1] eqn:E1.
    destruct (scan_int s1) as [[i s2]|] eqn:E2; [|intros [= <- <-]; discriminate].
    destruct (scan_frac s2) as [[fr s3]|] eqn:E3; [|intros [= <- <-]; discriminate].
    destruct (scan_exp s3) as [[ex s4]|] eqn:E4; [|intros [= <- <-]; discriminate].
    intros [= <- <-] N. apply int_only in E2. destruct E2 as [-> Hi].
    assert (Hm : s = m ++ i ++ s2 /\ (m = [] \/ m = [45])).
    { unfold scan_minus in E1. destruct s as [|c s]; [injection E1 as <- E; split; [exact E|auto]|]. destruct (Z.eqb_spec c 45) as [->|]; injection E1 as <- E; (split; [cbn; now f_equal|auto]). }
    assert (Hfr : s2 = fr ++ s3 /\ (fr = [] \/ exists d, d <> [] /\ Forall digit d /\ fr = 46 :: d)).
    { unfold scan_frac in E3. destruct s2 as [|c s2]; [injection E3 as <- <-; auto|]. destruct (Z.eqb_spec c 46) as [->|]; [|injection E3 as <- <-; auto].
      destruct (span_digits s2) as [a b] eqn:E. apply span_only in E. destruct E as [-> Ha]. destruct a as [|x a]; [discriminate|]. injection E3 as <- <-. split; [reflexivity|]. right. now exists (x :: a). }
    assert (Hex : s3 = ex ++ s4 /\ (ex = [] \/ exists g d, (g = [] \/ g = [43] \/ g = [45]) /\ d <> [] /\ Forall digit d /\ (ex = 101 :: g ++ d \/ ex = 69 :: g ++ d))).
    { unfold scan_exp in E4. destruct s3 as [|c s3]; [injection E4 as <- <-; auto|]. destruct ((c =? 101) || (c =? 69))%bool eqn:Hc; [|injection E4 as <- <-; auto].
      destruct (scan_sign s3) as [g r1] eqn:Eg. destruct (span_digits r1) as [a b] eqn:E. apply span_only in E. destruct E as [-> Ha]. destruct a as [|x a]; [discriminate|]. injection E4 as <- <-.
      assert (Hg : s3 = g ++ (x :: a) ++ b /\ (g = [] \/ g = [43] \/ g = [45])).
      { unfold scan_sign in Eg. destruct s3 as [|y s3]; [discriminate|]. destruct ((y =? 43) || (y =? 45))%bool eqn:Hy; injection Eg as <- E; (split; [cbn in *; now f_equal|]); [|auto].
        assert (y = 43 \/ y = 45) as [-> | ->] by lia; auto. }
      destruct Hg as [-> Hg]. split; [cbn; f_equal; now rewrite <- app_assoc|]. right. exists g, (x :: a). repeat split; trivial; [discriminate|]. assert (c = 101 \/ c = 69) as [-> | ->] by lia; auto. }
    destruct Hm as [-> Hm], Hfr as [-> Hfr], Hex as [-> Hex]. exists (m ++ i ++ fr ++ ex). split; [now rewrite <- !app_assoc|].
    unfold number_token in *. set (lex := (if match m with [] => false | _ => true end then [45] else []) ++ i ++ fr ++ ex) in *.
    assert (El : lex = m ++ i ++ fr ++ ex) by (unfold lex; destruct Hm as [-> | ->]; reflexivity). clearbody lex.
    destruct (match fr, ex with [], [] => true | _, _ => false end) eqn:Q.
    - assert (fr = [] /\ ex = []) as [-> ->] by (destruct fr, ex; try discriminate; auto). rewrite !app_nil_r in *.
      assert (L : int_literal (m ++ i) (match m with [] => digits_value i | _ => - digits_value i end)).
      { destruct Hm as [-> | ->]; [now left|]. right. now exists i, (digits_value i). }
      assert (V0 : 0 <= digits_value i).
      { assert (G : forall l a, Forall digit l -> 0 <= a -> 0 <= fold_left (fun a c => 10 * a + (c - 48)) l a).
        { induction l as [|y l IH]; intros a Hl Ha; [exact Ha|]. inversion Hl; subst. cbn [fold_left]. apply IH; [assumption|]. unfold digit in *. lia. }
        apply G; [apply Hi|lia]. }
      destruct Hm as [-> | ->]; cbn [app] in *.
      + destruct (Z.ltb_spec (digits_value i) (2 ^ 64)); [constructor; [exact L|unfold fits; lia]|]. subst lex. destruct (io_read io i) eqn:R; [|discriminate].
        apply (tt_big L); [unfold fits; lia|exact R].
      + destruct (Z.leb_spec (digits_value i) (2 ^ 63)); [constructor; [exact L|unfold fits; lia]|]. subst lex. destruct (io_read io (45 :: i)) eqn:R; [|discriminate].
        apply (tt_big L); [unfold fits; lia|exact R].
    - assert (E : (match io_read io lex with Some x => KFloat x | None => KErr end) = match fr, ex with
        | [], [] => if match m with [] => false | _ => true end then (if Z.leb (digits_value i) (2 ^ 63) then KInt (- digits_value i) else match io_read io lex with Some x => KFloat x | None => KErr end) else (if Z.ltb (digits_value i) (2 ^ 64) then KInt (digits_value i) else match io_read io lex with Some x => KFloat x | None => KErr end)
        | _, _ => match io_read io lex with Some x => KFloat x | None => KErr end end) by (destruct fr, ex; try discriminate; reflexivity).
      cbv zeta in *. rewrite <- E in *. destruct (io_read io lex) as [x|] eqn:R; [|discriminate]. rewrite El in R. apply tt_float; [|exact R].
      exists m, i, fr, ex. repeat split; trivial; [now exists (digits_value i)|]. destruct fr, ex; try discriminate; [right|left..]; discriminate.
  Qed.

  Lemma token_only s k r : scan io s = (k, r) -> stops k = false -> chars s -> exists w t, blank w /\ s = w ++ t ++ r /\ token_text t k.
  Proof.
    unfold scan. destruct (skip_blank s) as (w & Hw & E). intros H S C. rewrite E in C. apply Forall_app in C. destruct C as [_ C].
    assert (G : exists t, skip_space s = t ++ r /\ token_text t k); [|destruct G as (t & Et & Ht); exists w, t; rewrite <- Et; auto].
    destruct (skip_space s) as [|c t]; [injection H as <- <-; discriminate|]. clear s E Hw w.
    assert (L : forall lit k0, scan_literal lit k0 t = (k, r) -> k = k0 /\ t = lit ++ r).
    { unfold scan_literal. intros lit k0. destruct (strip lit t) as [t'|] eqn:E; [|intros [= <- <-]; discriminate]. intros [= <- <-]. split; [reflexivity|].
      clear - E. revert t t' E. induction lit as [|a l IH]; intros t t' E; [now injection E as <-|]. destruct t as [|c t]; [discriminate|]. cbn in E.
      destruct (Z.eqb_spec a c) as [->|]; [|discriminate]. cbn. f_equal. now apply IH. }
    repeat match type of H with (if Z.eqb c ?n then _ else _) = _ => destruct (Z.eqb_spec c n) as [->|] end.
    1-6: injection H as <- <-; eexists [_]; split; [reflexivity|constructor].
    - apply L in H. destruct H as [-> ->]. eexists. split; [|constructor]. reflexivity.
    - apply L in H. destruct H as [-> ->]. eexists. split; [|constructor]. reflexivity.
    - apply L in H. destruct H as [-> ->]. eexists. split; [|constructor]. reflexivity.
    - destruct (scan_string (length t) t) as [[s r']|] eqn:E; [|injection H as <- <-; discriminate]. injection H as <- <-. inversion C; subst.
      apply string_only in E; [|assumption]. destruct E as (q & Hq & ->). exists (34 :: q ++ [34]). split; [cbn; now rewrite <- app_assoc|now constructor].
    - destruct ((c =? 45) || is_digit c)%bool; [now apply number_only|]. destruct (Z.eqb_spec c 0); injection H as <- <-; discriminate.
  Qed.

  Definition separated (k : token) (rest : text) : Prop := is_number k = true -> apart rest.
  Lemma token_reads w t k rest : token_text t k -> blank w -> chars t -> separated k rest -> scan io (w ++ t ++ rest) = (k, rest).
  Proof.
    intros H Hw C A. apply blank_space in Hw. rewrite (scan_space _ _ Hw). clear w Hw.
    assert (L : forall z, int_literal t z -> apart rest -> scan io (t ++ rest) = (if Z_le_dec (- 2 ^ 63) z then if Z_lt_dec z (2 ^ 64) then KInt z else match io_read io t with Some x => KFloat x | None => KErr end else match io_read io t with Some x => KFloat x | None => KErr end, rest)).
    { intros z [Hi|(i & n & -> & Hi & ->)] A'.
      - pose proof (@parts_back _ io [] t _ [] [] rest (or_introl eq_refl) Hi (or_introl eq_refl) (or_introl eq_refl) A') as P. rewrite !app_nil_r in P. cbn [app] in P. rewrite P.
        unfold number_token. rewrite !app_nil_r. cbn [app]. cbv zeta. destruct Hi as (_ & Hd & V & _). change digits_value with SpecVGram.value. rewrite V.
        assert (0 <= z). { rewrite <- V. clear -Hd. unfold SpecVGram.value. assert (G : forall l a, Forall digit l -> 0 <= a -> 0 <= fold_left (fun a c => 10 * a + (c - 48)) l a); [|apply G; [exact Hd|lia]].
          induction l as [|y l IH]; intros a Hl Ha; [exact Ha|]. inversion Hl; subst. cbn [fold_left]. apply IH; [assumption|]. unfold digit in *. lia. }
        destruct (Z.ltb_spec z (2 ^ 64)), (Z_le_dec (- 2 ^ 63) z), (Z_lt_dec z (2 ^ 64)); try lia; reflexivity.
      - pose proof (@parts_back _ io [45] i _ [] [] rest (or_intror eq_refl) Hi (or_introl eq_refl) (or_introl eq_refl) A') as P. rewrite !app_nil_r in P. cbn [app] in P |- *. rewrite P.
        unfold number_token. rewrite !app_nil_r. cbn [app]. cbv zeta. destruct Hi as (_ & Hd & V & _). change digits_value with SpecVGram.value. rewrite V.
        assert (0 <= n). { rewrite <- V. clear -Hd. unfold SpecVGram.value. assert (G : forall l a, Forall digit l -> 0 <= a -> 0 <= fold_left (fun a c => 10 * a + (c - 48)) l a); [|apply G; [exact Hd|lia]].
          induction l as [|y l IH]; intros a Hl Ha; [exact Ha|]. inversion Hl; subst. cbn [fold_left]. apply IH; [assumption|]. unfold digit in *. lia. }
        destruct (Z.leb_spec n (2 ^ 63)), (Z_le_dec (- 2 ^ 63) (- n)), (Z_lt_dec (- n) (2 ^ 64)); try lia; reflexivity. }
    destruct H as [| | | | | | | | |t s H|t z H1 H2|t z x H1 H2 H3|t x H1 H2]; try reflexivity.
    - cbn [app]. rewrite <- app_assoc. cbn [app]. unfold scan. cbn [skip_space]. change (is_space 34) with false. cbv iota.
      change (34 =? 91) with false. change (34 =? 93) with false. change (34 =? 123) with false. change (34 =? 125) with false. change (34 =? 58) with false.
      change (34 =? 44) with false. change (34 =? 116) with false. change (34 =? 102) with false. change (34 =? 110) with false. change (34 =? 34) with true. cbv iota.
      rewrite (string_reads rest H); [reflexivity| |].
      + inversion C; subst. match goal with H : Forall _ (t ++ _) |- _ => apply Forall_app in H; apply H end.
      + rewrite app_length. cbn. lia.
    - rewrite (L z H1 (A eq_refl)). unfold fits in H2. destruct (Z_le_dec (- 2 ^ 63) z), (Z_lt_dec z (2 ^ 64)); try lia; reflexivity.
    - rewrite (L z H1 (A eq_refl)), H3. unfold fits in H2. destruct (Z_le_dec (- 2 ^ 63) z), (Z_lt_dec z (2 ^ 64)); try lia; reflexivity.
    - exact (@float_back _ io t x rest H1 H2 (A eq_refl)).
  Qed.
End T.

(** ** Objects *)
Lemma key_trans : forall a b c, key_ltb a b = true -> key_ltb b c = true -> key_ltb a c = true.
Proof.
  induction a as [|x a IH]; intros [|y b] [|z c] H1 H2; cbn in *; try discriminate; try reflexivity.
  destruct (Z.ltb_spec (byte x) (byte y)), (Z.ltb_spec (byte y) (byte z)), (Z.ltb_spec (byte x) (byte z)); try reflexivity; try lia;
    destruct (Z.ltb_spec (byte y) (byte x)); try discriminate; destruct (Z.ltb_spec (byte z) (byte y)); try discriminate; try lia.
  destruct (Z.ltb_spec (byte z) (byte x)); [lia|]. now apply (IH b).
Qed.
Lemma key_irrefl a : key_ltb a a = false.
Proof. induction a as [|x a IH]; [reflexivity|]. cbn. now rewrite Z.ltb_irrefl. Qed.
Lemma key_total : forall a b, chars a -> chars b -> key_ltb a b = false -> key_ltb b a = false -> a = b.
Proof.
  intros a b Ha. revert b. induction Ha as [|x a Hx _ IH]; intros [|y b] Hb H1 H2; cbn in *; try discriminate; [reflexivity|]. inversion Hb; subst.
  destruct (Z.ltb_spec (byte x) (byte y)); [discriminate|]. destruct (Z.ltb_spec (byte y) (byte x)); [discriminate|].
  f_equal; [|now apply IH]. unfold byte in *. pose proof (Z.div_mod x 256 ltac:(lia)). pose proof (Z.div_mod y 256 ltac:(lia)). lia.
Qed.
Lemma sorted_unique {A} : forall m m' : list (text * A), StronglySorted key_lt m -> StronglySorted key_lt m' -> (forall p, In p m <-> In p m') -> m = m'.
Proof.
  induction m as [|p m IH]; intros m' H H' E.
  - destruct m' as [|p' m']; [reflexivity|]. exfalso. apply (proj2 (E p')). now left.
  - destruct m' as [|p' m']; [exfalso; apply (proj1 (E p)); now left|]. apply StronglySorted_inv in H. destruct H as [H Hp]. apply StronglySorted_inv in H'. destruct H' as [H' Hp'].
    rewrite Forall_forall in Hp, Hp'. assert (p = p').
    { destruct (proj1 (E p) (or_introl eq_refl)) as [Q|Q]; [now rewrite Q|]. destruct (proj2 (E p') (or_introl eq_refl)) as [Q'|Q']; [exact Q'|].
      specialize (Hp p' Q'). specialize (Hp' p Q). unfold key_lt in *. rewrite (key_ltb_asym _ _ Hp) in Hp'. discriminate. }
    subst p'. f_equal. apply IH; trivial. intro q. split; intro Q.
    + destruct (proj1 (E q) (or_intror Q)) as [->|]; [|assumption]. specialize (Hp q Q). unfold key_lt in Hp. rewrite key_irrefl in Hp. discriminate.
    + destruct (proj2 (E q) (or_intror Q)) as [->|]; [|assumption]. specialize (Hp' q Q). unfold key_lt in Hp'. rewrite key_irrefl in Hp'. discriminate.
Qed.
Lemma oset_in {A} k (v : A) : chars k -> forall m, Forall (fun p => chars (fst p)) m -> StronglySorted key_lt m ->
  forall k' v', In (k', v') (oset m k v) <-> (k' = k /\ v' = v) \/ (k' <> k /\ In (k', v') m).
Proof.
  intros Ck. induction m as [|[a x] m IH]; intros C S k' v'.
  - cbn. split; [intros [[= <- <-]|[]]; auto|intros [[-> ->]|[_ []]]; auto].
  - inversion C; subst. apply StronglySorted_inv in S. destruct S as [S Hs]. rewrite Forall_forall in Hs. cbn [oset]. cbn [fst] in *.
    assert (NE : forall b, key_ltb b k = true \/ key_ltb k b = true -> b <> k) by (intros b [Q|Q] ->; rewrite key_irrefl in Q; discriminate).
    destruct (key_ltb k a) eqn:E1; [|destruct (key_ltb a k) eqn:E2].
    + split.
      * intros [[= <- <-]|[[= <- <-]|H]]; [auto|right; split; [now apply NE; right|now left]|]. right. split; [|now right]. apply NE. right. apply (key_trans _ a); [exact E1|]. apply (Hs _ H).
      * intros [[-> ->]|[_ [H|H]]]; [now left|right; now left|right; now right].
    + cbn [In]. rewrite IH by assumption. split.
      * intros [[= <- <-]|[H|[N H]]]; [right; split; [now apply NE; left|now left]|auto|right; split; [exact N|now right]].
      * intros [H|[N [H|H]]]; auto.
    + assert (a = k) by now apply key_total. subst a. split.
      * intros [[= <- <-]|H]; [auto|]. right. split; [|now right]. apply NE. right. apply (Hs _ H).
      * intros [[-> ->]|[N [[= <- <-]|H]]]; [now left|contradiction|now right].
Qed.
Lemma oset_chars {A} k (v : A) : chars k -> forall m, Forall (fun p => chars (fst p)) m -> Forall (fun p => chars (fst p)) (oset m k v).
Proof.
  intros Ck. induction 1 as [|[a x] m Ha Hm IH]; cbn; [repeat constructor; exact Ck|]. destruct (key_ltb k a); [now repeat constructor|]. destruct (key_ltb a k); constructor; assumption.
Qed.
Lemma oset_sorted {A} k (v : A) : chars k -> forall m, Forall (fun p => chars (fst p)) m -> StronglySorted key_lt m -> StronglySorted key_lt (oset m k v).
Proof.
  intros Ck. induction m as [|[a x] m IH]; intros C S; [repeat constructor|]. inversion C; subst. pose proof S as S0. apply StronglySorted_inv in S. destruct S as [S Hs]. cbn [oset fst] in *.
  destruct (key_ltb k a) eqn:E1; [|destruct (key_ltb a k) eqn:E2].
  - constructor; [exact S0|]. constructor; [exact E1|]. rewrite Forall_forall in *. intros p Hp. apply (key_trans _ a); [exact E1|]. apply (Hs _ Hp).
  - constructor; [now apply IH|]. rewrite Forall_forall in *. intros [k' v'] Hp. apply oset_in in Hp; [|exact Ck|now apply Forall_forall|exact S].
    destruct Hp as [[-> ->]|[_ Hp]]; [exact E2|now apply Hs].
  - constructor; [exact S|]. rewrite Forall_forall in *. intros p Hp. apply (Hs _ Hp).
Qed.
Definition oput {A} (acc kvs : list (text * A)) : list (text * A) := fold_left (fun m p => oset m (fst p) (snd p)) kvs acc.
Lemma oput_object {A} (kvs : list (text * A)) : Forall (fun p => chars (fst p)) kvs -> object_of kvs (oput [] kvs).
Proof.
  enough (G : Forall (fun p => chars (fst p)) kvs -> Forall (fun p => chars (fst p)) (oput [] kvs) /\ object_of kvs (oput [] kvs)) by (intro H; now apply G).
  induction kvs as [|[k v] kvs IH] using rev_ind; intros C.
  - split; [constructor|]. split; [constructor|]. intros k v. split; [intros []|]. intros (pre & post & E & _). destruct pre; discriminate.
  - apply Forall_app in C. destruct C as [C Ck]. inversion Ck; subst. cbn [fst] in *. destruct (IH C) as [Cm [Sm Hm]]. unfold oput in *. rewrite fold_left_app. cbn [fold_left fst snd].
    set (m := fold_left _ kvs []) in *. split; [now apply oset_chars|]. split; [now apply oset_sorted|]. intros k' v'. rewrite oset_in by assumption. rewrite Hm. split.
    + intros [[-> ->]|[N (pre & post & -> & H)]]; [exists kvs, []; now split|]. exists pre, (post ++ [(k, v)]). split; [now rewrite <- app_assoc|].
      rewrite map_app, in_app_iff. cbn. intros [Q|[Q|[]]]; [contradiction|congruence].
    + intros (pre & post & E & H). destruct post as [|q post] using rev_ind.
      * apply app_inj_tail in E. destruct E as [_ [= <- <-]]. auto.
      * clear IHpost. rewrite app_comm_cons, app_assoc in E. apply app_inj_tail in E. destruct E as [-> <-]. rewrite map_app, in_app_iff in H. cbn in H. right. split; [intros ->; tauto|].
        exists pre, post. split; [reflexivity|tauto].
Qed.
Lemma object_unique {A} (kvs m m' : list (text * A)) : object_of kvs m -> object_of kvs m' -> m = m'.
Proof. intros [S H] [S' H']. apply sorted_unique; trivial. intros [k v]. now rewrite H, H'. Qed.

Lemma string_chars t s : string_text t s -> chars t -> chars s.
Proof.
  assert (R : forall a b, chars (a ++ b) <-> chars a /\ chars b) by (intros; apply Forall_app).
  induction 1 as [|c t s H1 H2 _ IH|e x t s H1 _ IH|h n b t s H1 H2 H3 H4 _ IH|h n h' n' b t s H1 H2 H3 H4 H5 H6 _ IH]; intro C; trivial.
  - rewrite R in *. intuition.
  - inversion C as [|? ? _ C']; subst. inversion C' as [|? ? _ C'']; subst. constructor; [|now apply IH]. cbn in H1. repeat (destruct H1 as [[= <- <-]|H1]; [lia|]). contradiction.
  - inversion C as [|? ? _ C']; subst. inversion C' as [|? ? _ C'']; subst. rewrite R. split; [exact H3|]. apply IH. apply R in C''. apply C''.
  - inversion C as [|? ? _ C']; subst. inversion C' as [|? ? _ C'']; subst. rewrite R. split; [exact H5|]. apply IH. apply R in C''. destruct C'' as [_ C''].
    inversion C'' as [|? ? _ C1]; subst. inversion C1 as [|? ? _ C2]; subst. apply R in C2. apply C2.
Qed.

(** ** Values *)
Scheme value_mut := Minimality for value_text Sort Prop with elements_mut := Minimality for elements_text Sort Prop with members_mut := Minimality for members_text Sort Prop.
Combined Scheme text_mut from value_mut, elements_mut, members_mut.

Section V.
  Context {F : Type} (io : float_io F).
  Notation token := (@token F). Notation json := (json F).

  Lemma members_chars t kvs : members_text io t kvs -> chars t -> Forall (fun p => chars (fst p)) kvs.
  Proof.
    assert (R : forall a b, chars (a ++ b) <-> chars a /\ chars b) by (intros; apply Forall_app).
    assert (R1 : forall a b, chars (a :: b) <-> -128 <= a < 128 /\ chars b) by (intros; split; [intro H; now inversion H|intros [? ?]; now constructor]).
    induction 1 as [w k key w1 w2 t v w' _ H|w k key w1 w2 t v w' r kvs _ H _ _ _ _ _ IH]; rewrite !R, R1, !R, R1, !R, R1, !R in *.
    - intro C. constructor; [|constructor]. apply (string_chars H). tauto.
    - rewrite R1. intro C. constructor; [apply (string_chars H); tauto|]. apply IH. tauto.
  Qed.
  Lemma blank_then w c s : blank w -> c = 44 \/ c = 93 \/ c = 125 -> apart (w ++ c :: s).
  Proof. intros Hw Hc. destruct Hw as [|x w Hx _]; cbn; unfold is_digit, within; lia. Qed.
  Lemma apart_blank (v : json) w c s : blank w -> c = 44 \/ c = 93 \/ c = 125 -> apart_from v (w ++ c :: s).
  Proof.
    intros Hw Hc. pose proof (blank_then s Hw Hc) as H. unfold apart_from. destruct v; trivial; destruct (w ++ c :: s); trivial; cbn in H; unfold is_digit, within in H; lia.
  Qed.
  Lemma apart_number (v : json) rest : apart_from v rest -> match v with JInt _ | JFloat _ => apart rest | _ => True end.
  Proof. destruct v; trivial; destruct rest; trivial; cbn; unfold is_digit, within; lia. Qed.
  Lemma literal_nonempty t z : int_literal t z -> (1 <= length t)%nat.
  Proof. intros [(N & _)|(i & n & -> & _)]; [destruct t; [now elim N|cbn; lia]|cbn; lia]. Qed.
  Lemma float_nonempty t : float_literal t -> (1 <= length t)%nat.
  Proof. intros (m & i & fr & ex & -> & _ & [n (N & _)] & _). rewrite !app_length. destruct i; [now elim N|cbn; lia]. Qed.

  Lemma texts_read :
    (forall t v, value_text io t v -> chars t -> forall rest f, apart_from v rest -> (2 * length t <= f)%nat ->
      exists k r, (forall w, blank w -> scan io (w ++ t ++ rest) = (k, r)) /\ opens k = true /\ jvalue io f k r = Ok (v, rest)) /\
    (forall t l, elements_text io t l -> chars t -> forall rest f acc, (2 * length t + 1 <= f)%nat ->
      exists k r, scan io (t ++ 93 :: rest) = (k, r) /\ opens k = true /\ jelements io f k r acc = Ok (JArr (acc ++ l), rest)) /\
    (forall t kvs, members_text io t kvs -> chars t -> forall rest f acc, (2 * length t + 1 <= f)%nat ->
      exists key r, scan io (t ++ 125 :: rest) = (KStr key, r) /\ jmembers io f (KStr key) r acc = Ok (JObj (oput acc kvs), rest)).
  Proof.
    assert (R : forall a b, chars (a ++ b) <-> chars a /\ chars b) by (intros; apply Forall_app).
    assert (R1 : forall a b, chars (a :: b) <-> -128 <= a < 128 /\ chars b) by (intros; split; [intro H; now inversion H|intros [? ?]; now constructor]).
    assert (K : forall k t, token_text io t k -> chars t -> forall rest f (v : json), (is_number k = true -> apart rest) -> (1 <= length t)%nat -> (2 * length t <= f)%nat ->
       opens k = true -> (forall f, jvalue io (S f) k rest = Ok (v, rest)) ->
       exists k r, (forall w, blank w -> scan io (w ++ t ++ rest) = (k, r)) /\ opens k = true /\ jvalue io f k r = Ok (v, rest)).
    { intros k t H C rest f v A L Hf O V. exists k, rest. split; [intros w Hw; now apply token_reads|]. split; [exact O|]. destruct f; [lia|apply V]. }
    assert (ONE : forall c k rest w, token_text io [c] k -> blank w -> -128 <= c < 128 -> is_number k = false -> scan io (w ++ c :: rest) = (k, rest)).
    { intros c k rest w H Hw Hc N. change (c :: rest) with ([c] ++ rest). apply token_reads; trivial; [repeat constructor; lia|]. intro Q. rewrite N in Q. discriminate. }
    apply text_mut.
    - intros C rest f _ Hf. apply (K KNull); trivial; [constructor|discriminate|cbn; lia].
    - intros C rest f _ Hf. apply (K KTrue); trivial; [constructor|discriminate|cbn; lia].
    - intros C rest f _ Hf. apply (K KFalse); trivial; [constructor|discriminate|cbn; lia].
    - intros t z H1 H2 C rest f A Hf. apply apart_number in A. apply (K (KInt z)); trivial; [now constructor|now apply literal_nonempty in H1].
    - intros t z x H1 H2 H3 C rest f A Hf. apply apart_number in A. apply (K (KFloat x)); trivial; [now apply tt_big with z|now apply literal_nonempty in H1].
    - intros t x H1 H2 C rest f A Hf. apply apart_number in A. apply (K (KFloat x)); trivial; [now apply tt_float|now apply float_nonempty in H1].
    - intros t s H C rest f _ Hf. apply (K (KStr s)); trivial; [now constructor|discriminate|cbn; lia].
    - intros w Hw C rest f _ Hf. exists KBeginArr, (w ++ 93 :: rest). split; [|split; [reflexivity|]].
      + intros w0 Hw0. cbn [app]. rewrite <- app_assoc. cbn [app]. apply ONE; trivial; [constructor|lia].
      + destruct f; [cbn in Hf; lia|]. rewrite jvalue_S, (ONE 93 KEndArr); trivial; [constructor|lia].
    - intros t l _ IH C rest f _ Hf. apply R1 in C. destruct C as [_ C]. apply R in C. destruct C as [C _]. cbn [length] in Hf. rewrite app_length in Hf. cbn [length] in Hf.
      exists KBeginArr, (t ++ 93 :: rest). split; [|split; [reflexivity|]].
      + intros w0 Hw0. cbn [app]. rewrite <- app_assoc. cbn [app]. apply ONE; trivial; [constructor|lia].
      + destruct f as [|f]; [lia|]. rewrite jvalue_S. destruct (IH C rest f [] ltac:(lia)) as (k & r & E & O & J). rewrite E. destruct k; try discriminate; exact J.
    - intros w Hw C rest f _ Hf. exists KBeginObj, (w ++ 125 :: rest). split; [|split; [reflexivity|]].
      + intros w0 Hw0. cbn [app]. rewrite <- app_assoc. cbn [app]. apply ONE; trivial; [constructor|lia].
      + destruct f; [cbn in Hf; lia|]. rewrite jvalue_S, (ONE 125 KEndObj); trivial; [constructor|lia].
    - intros t kvs m HM IH HO C rest f _ Hf. apply R1 in C. destruct C as [_ C]. apply R in C. destruct C as [C _]. cbn [length] in Hf. rewrite app_length in Hf. cbn [length] in Hf.
      exists KBeginObj, (t ++ 125 :: rest). split; [|split; [reflexivity|]].
      + intros w0 Hw0. cbn [app]. rewrite <- app_assoc. cbn [app]. apply ONE; trivial; [constructor|lia].
      + destruct f as [|f]; [lia|]. rewrite jvalue_S. destruct (IH C rest f [] ltac:(lia)) as (k & r & E & J). rewrite E, J.
        rewrite (object_unique HO (oput_object (members_chars HM C))). reflexivity.
    - intros w t v w' Hw Ht IH Hw' C rest f acc Hf. rewrite !R in C. rewrite !app_length in Hf. destruct f as [|f]; [lia|].
      destruct (IH ltac:(tauto) (w' ++ 93 :: rest) f) as (k & r & E & O & J); [now apply apart_blank; auto|lia|].
      exists k, r. rewrite <- !app_assoc. split; [now apply E|]. split; [exact O|]. rewrite jelements_S, J. cbn [bind]. rewrite (ONE 93 KEndArr); trivial; [constructor|lia].
    - intros w t v w' r0 l Hw Ht IH Hw' _ IHl C rest f acc Hf. rewrite !R, R1 in C. rewrite !app_length in Hf. cbn [length] in Hf. destruct f as [|f]; [lia|].
      destruct (IH ltac:(tauto) (w' ++ 44 :: r0 ++ 93 :: rest) f) as (k & r & E & O & J); [now apply apart_blank; auto|lia|].
      destruct (IHl ltac:(tauto) rest f (acc ++ [v]) ltac:(lia)) as (k2 & r2 & E2 & O2 & J2).
      exists k, r. rewrite <- !app_assoc. cbn [app]. split; [now apply E|]. split; [exact O|]. rewrite jelements_S, J. cbn [bind]. rewrite (ONE 44 KComma); trivial; [|constructor|lia].
      rewrite E2, J2. now rewrite <- app_assoc.
    - intros w k key w1 w2 t v w' Hw Hk Hw1 Hw2 Ht IH Hw' C rest f acc Hf. rewrite !R, R1, !R, R1, !R, R1, !R in C. rewrite !app_length in Hf. cbn [length] in Hf. rewrite !app_length in Hf. cbn [length] in Hf. rewrite !app_length in Hf. cbn [length] in Hf. rewrite !app_length in Hf.
      destruct f as [|f]; [lia|]. destruct (IH ltac:(tauto) (w' ++ 125 :: rest) f) as (k1 & r1 & E & O & J); [now apply apart_blank; auto|lia|].
      exists key, (w1 ++ 58 :: w2 ++ t ++ w' ++ 125 :: rest). split.
      + rewrite <- app_assoc. cbn [app]. rewrite <- app_assoc. cbn [app]. rewrite <- app_assoc. cbn [app]. rewrite <- !app_assoc.
        change (34 :: k ++ 34 :: w1 ++ 58 :: w2 ++ t ++ w' ++ 125 :: rest) with ((34 :: k) ++ [34] ++ w1 ++ 58 :: w2 ++ t ++ w' ++ 125 :: rest). rewrite (app_assoc (34 :: k)).
        apply token_reads; trivial; [now apply tt_str|cbn [app]; rewrite R1, R, R1; repeat split; try lia; [tauto|constructor]|discriminate].
      + rewrite jmembers_S. rewrite (ONE 58 KColon); trivial; [|constructor|lia]. rewrite (E w2 Hw2), J. cbn [bind]. rewrite (ONE 125 KEndObj); trivial; [constructor|lia].
    - intros w k key w1 w2 t v w' r0 kvs Hw Hk Hw1 Hw2 Ht IH Hw' _ IHl C rest f acc Hf. rewrite !R, R1, !R, R1, !R, R1, !R, R1 in C. rewrite !app_length in Hf. cbn [length] in Hf. rewrite !app_length in Hf. cbn [length] in Hf. rewrite !app_length in Hf. cbn [length] in Hf. rewrite !app_length in Hf. cbn [length] in Hf.
      destruct f as [|f]; [lia|]. destruct (IH ltac:(tauto) (w' ++ 44 :: r0 ++ 125 :: rest) f) as (k1 & r1 & E & O & J); [now apply apart_blank; auto|lia|].
      destruct (IHl ltac:(tauto) rest f (oset acc key v) ltac:(lia)) as (k2 & r2 & E2 & J2).
      exists key, (w1 ++ 58 :: w2 ++ t ++ w' ++ 44 :: r0 ++ 125 :: rest). split.
      + rewrite <- app_assoc. cbn [app]. rewrite <- app_assoc. cbn [app]. rewrite <- app_assoc. cbn [app]. rewrite <- !app_assoc. cbn [app].
        change (34 :: k ++ 34 :: w1 ++ 58 :: w2 ++ t ++ w' ++ 44 :: r0 ++ 125 :: rest) with ((34 :: k) ++ [34] ++ w1 ++ 58 :: w2 ++ t ++ w' ++ 44 :: r0 ++ 125 :: rest). rewrite (app_assoc (34 :: k)).
        apply token_reads; trivial; [now apply tt_str|cbn [app]; rewrite R1, R, R1; repeat split; try lia; [tauto|constructor]|discriminate].
      + rewrite jmembers_S. rewrite (ONE 58 KColon); trivial; [|constructor|lia]. rewrite (E w2 Hw2), J. cbn [bind]. rewrite (ONE 44 KComma); trivial; [|constructor|lia].
        rewrite E2, J2. reflexivity.
  Qed.

  Lemma texts_only : forall f,
    (forall k s r v rest, scan io s = (k, r) -> chars s -> jvalue io f k r = Ok (v, rest) -> exists w t, blank w /\ s = w ++ t ++ rest /\ value_text io t v) /\
    (forall k s r acc v rest, scan io s = (k, r) -> chars s -> jmembers io f k r acc = Ok (v, rest) ->
       exists t kvs, members_text io t kvs /\ s = t ++ 125 :: rest /\ v = JObj (oput acc kvs)) /\
    (forall k s r acc v rest, scan io s = (k, r) -> chars s -> jelements io f k r acc = Ok (v, rest) ->
       exists t l, elements_text io t l /\ s = t ++ 93 :: rest /\ v = JArr (acc ++ l)).
  Proof.
    assert (R : forall a b, chars (a ++ b) -> chars b) by (intros a b H; now apply Forall_app in H).
    assert (TK : forall s k r, scan io s = (k, r) -> chars s -> stops k = false -> exists w t, blank w /\ s = w ++ t ++ r /\ token_text io t k /\ chars r).
    { intros s k r E C S. destruct (token_only io E S C) as (w & t & Hw & -> & Ht). exists w, t. repeat split; trivial. apply R in C. now apply R in C. }
    assert (ONE : forall s k r c, scan io s = (k, r) -> chars s -> stops k = false -> (forall t, token_text io t k -> t = [c]) -> exists w, blank w /\ s = w ++ c :: r /\ chars r).
    { intros s k r c E C S U. destruct (TK _ _ _ E C S) as (w & t & Hw & -> & Ht & Cr). exists w. apply U in Ht. subst t. auto. }
    assert (UC : forall t, token_text io t KComma -> t = [44]) by (intros t H; now inversion H).
    assert (UO : forall t, token_text io t KEndObj -> t = [125]) by (intros t H; now inversion H).
    assert (UA : forall t, token_text io t KEndArr -> t = [93]) by (intros t H; now inversion H).
    assert (UL : forall t, token_text io t KColon -> t = [58]) by (intros t H; now inversion H).
    induction f as [|f [IV [IM IE]]]; [repeat split; intros; discriminate|]. split; [|split].
    - intros k s r v rest E C H. rewrite jvalue_S in H.
      assert (S : stops k = false) by (destruct k; try reflexivity; discriminate). destruct (TK _ _ _ E C S) as (w & t & Hw & -> & Ht & Cr).
      destruct k; try discriminate; try (injection H as <- <-; exists w, t; repeat split; trivial; inversion Ht; subst; now constructor).
      + exists w. inversion Ht; subst. destruct (scan io r) as [k1 r1] eqn:E1. destruct (match k1 with KEndArr => true | _ => false end) eqn:Q.
        * destruct k1; try discriminate. injection H as <- <-. destruct (ONE _ _ _ 93 E1 Cr eq_refl UA) as (w' & Hw' & -> & _).
          exists (91 :: w' ++ [93]). split; [exact Hw|]. split; [cbn; now rewrite <- app_assoc|]. now constructor.
        * assert (H' : jelements io f k1 r1 [] = Ok (v, rest)) by (destruct k1; try discriminate; exact H). destruct (IE _ _ _ _ _ _ E1 Cr H') as (t & l & Hl & -> & ->).
          exists (91 :: t ++ [93]). split; [exact Hw|]. split; [cbn; now rewrite <- app_assoc|]. now constructor.
      + exists w. inversion Ht; subst. destruct (scan io r) as [k1 r1] eqn:E1. destruct (match k1 with KEndObj => true | _ => false end) eqn:Q.
        * destruct k1; try discriminate. injection H as <- <-. destruct (ONE _ _ _ 125 E1 Cr eq_refl UO) as (w' & Hw' & -> & _).
          exists (123 :: w' ++ [125]). split; [exact Hw|]. split; [cbn; now rewrite <- app_assoc|]. now constructor.
        * assert (H' : jmembers io f k1 r1 [] = Ok (v, rest)) by (destruct k1; try discriminate; exact H). destruct (IM _ _ _ _ _ _ E1 Cr H') as (t & kvs & Hl & -> & ->).
          exists (123 :: t ++ [125]). split; [exact Hw|]. split; [cbn; now rewrite <- app_assoc|]. apply vt_obj with kvs; [exact Hl|]. apply oput_object. apply (members_chars Hl). now apply Forall_app in Cr.
      + injection H as <- <-. exists w, t. repeat split; trivial. inversion Ht; subst; [now apply vt_big with z|now apply vt_float].
    - intros k s r acc v rest E C H. rewrite jmembers_S in H. destruct k as [| | | | | | | | |key| | | |]; try discriminate.
      destruct (TK _ _ _ E C eq_refl) as (w & t & Hw & -> & Ht & Cr). inversion Ht as [| | | | | | | | |k s Hk| | |]; subst.
      destruct (scan io r) as [k1 s1] eqn:E1. destruct k1; try discriminate. destruct (ONE _ _ _ 58 E1 Cr eq_refl UL) as (w1 & Hw1 & -> & C1).
      destruct (scan io s1) as [k2 s2] eqn:E2. destruct (jvalue io f k2 s2) as [[x s3]| | |] eqn:EV; try discriminate. cbn [bind] in H.
      destruct (IV _ _ _ _ _ E2 C1 EV) as (w2 & t2 & Hw2 & -> & Hx). assert (C3 : chars s3) by (apply R in C1; now apply R in C1).
      destruct (scan io s3) as [k4 s4] eqn:E4. destruct k4; try discriminate.
      + injection H as <- <-. destruct (ONE _ _ _ 125 E4 C3 eq_refl UO) as (w' & Hw' & -> & _).
        exists (w ++ 34 :: k ++ 34 :: w1 ++ 58 :: w2 ++ t2 ++ w'), [(key, x)]. split; [now constructor|]. split; [|reflexivity].
        repeat (rewrite <- app_assoc || cbn [app]). reflexivity.
      + destruct (ONE _ _ _ 44 E4 C3 eq_refl UC) as (w' & Hw' & -> & C4). destruct (scan io s4) as [k5 s5] eqn:E5. destruct (IM _ _ _ _ _ _ E5 C4 H) as (t' & kvs & Hl & -> & ->).
        exists (w ++ 34 :: k ++ 34 :: w1 ++ 58 :: w2 ++ t2 ++ w' ++ 44 :: t'), ((key, x) :: kvs). split; [now constructor|]. split; [|reflexivity].
        repeat (rewrite <- app_assoc || cbn [app]). reflexivity.
    - intros k s r acc v rest E C H. rewrite jelements_S in H. destruct (jvalue io f k r) as [[x s3]| | |] eqn:EV; try discriminate. cbn [bind] in H.
      destruct (IV _ _ _ _ _ E C EV) as (w2 & t2 & Hw2 & -> & Hx). assert (C3 : chars s3) by (apply R in C; now apply R in C).
      destruct (scan io s3) as [k4 s4] eqn:E4. destruct k4; try discriminate.
      + injection H as <- <-. destruct (ONE _ _ _ 93 E4 C3 eq_refl UA) as (w' & Hw' & -> & _).
        exists (w2 ++ t2 ++ w'), [x]. split; [now constructor|]. split; [|reflexivity]. repeat (rewrite <- app_assoc || cbn [app]). reflexivity.
      + destruct (ONE _ _ _ 44 E4 C3 eq_refl UC) as (w' & Hw' & -> & C4). destruct (scan io s4) as [k5 s5] eqn:E5. destruct (IE _ _ _ _ _ _ E5 C4 H) as (t' & l & Hl & -> & ->).
        exists (w2 ++ t2 ++ w' ++ 44 :: t'), (x :: l). split; [now constructor|]. split; [repeat (rewrite <- app_assoc || cbn [app]); reflexivity|]. now rewrite <- app_assoc.
  Qed.
End V.
