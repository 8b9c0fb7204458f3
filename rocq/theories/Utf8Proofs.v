(** Utf8Proofs: the decoder in json.h accepts well-formed UTF-8 and nothing else. *)
From Verif Require Import Base FloatOps ModelTok ModelJson SpecSave.
Local Open Scope Z_scope.

Definition nx (st b : Z) : Z := nth (Z.to_nat (st * 16 + nth (Z.to_nat b) utf8_types 0)) utf8_states 0.
Fixpoint accepts (st : Z) (l : list Z) : bool :=
  match l with
  | [] => st =? 0
  | b :: r => let st' := nx st b in if st' =? 1 then false else accepts st' r
  end.
Lemma dump_accepts : forall s st cp, (exists t, dump_escaped st cp s = Ok t) <-> accepts st (map byte s) = true.
Proof.
  induction s as [|c s IH]; intros st cp; cbn [dump_escaped map accepts].
  - destruct (st =? 0); split; try easy; [now exists []|now intros [t E]].
  - unfold utf8_decode. fold (nx st (byte c)). set (cp' := if st =? 0 then _ else _). specialize (IH (nx st (byte c)) cp').
    destruct (Z.eqb_spec (nx st (byte c)) 0) as [E|E].
    + rewrite E in *. cbn [Z.eqb]. rewrite <- IH. split; intros [t H].
      * destruct (dump_escaped 0 cp' s) as [u| | |]; try discriminate. now exists u.
      * rewrite H. now eexists.
    + destruct (nx st (byte c) =? 1); [split; [now intros [t H]|discriminate]|]. rewrite <- IH. split; intros [t H].
      * destruct (dump_escaped _ cp' s) as [u| | |]; try discriminate. now exists u.
      * rewrite H. now eexists.
Qed.
Lemma dump_throws : forall s st cp, (exists t, dump_escaped st cp s = Ok t) \/ dump_escaped st cp s = Throw JsonType.
Proof.
  induction s as [|c s IH]; intros st cp; cbn [dump_escaped].
  - destruct (st =? 0); [left; now eexists|now right].
  - destruct (utf8_decode st cp (byte c)) as [st' cp']. destruct (st' =? 0); [|destruct (st' =? 1); [now right|]];
      (destruct (IH st' cp') as [[t ->]| ->]; [left; now eexists|now right]).
Qed.

(** The table by ranges. *)
Definition sp (st b : Z) : Z :=
  if st =? 0 then
    if b <=? 127 then 0 else if b <=? 193 then 1 else if b <=? 223 then 2 else if b <=? 224 then 4 else if b <=? 236 then 3 else if b <=? 237 then 5
    else if b <=? 239 then 3 else if b <=? 240 then 6 else if b <=? 243 then 7 else if b <=? 244 then 8 else 1
  else if st =? 1 then 1
  else if st =? 2 then if within 128 191 b then 0 else 1
  else if st =? 3 then if within 128 191 b then 2 else 1
  else if st =? 4 then if within 160 191 b then 2 else 1
  else if st =? 5 then if within 128 159 b then 2 else 1
  else if st =? 6 then if within 144 191 b then 3 else 1
  else if st =? 7 then if within 128 191 b then 3 else 1
  else if within 128 143 b then 3 else 1.
Lemma table : forallb (fun st => forallb (fun b => nx (Z.of_nat st) (Z.of_nat b) =? sp (Z.of_nat st) (Z.of_nat b)) (List.seq 0 256)) (List.seq 0 9) = true.
Proof. vm_compute. reflexivity. Qed.
Lemma nx_sp st b : 0 <= st <= 8 -> 0 <= b < 256 -> nx st b = sp st b.
Proof.
  intros Hs Hb. pose proof table as T. rewrite forallb_forall in T. specialize (T (Z.to_nat st)). rewrite forallb_forall in T.
  assert (Hb' : In (Z.to_nat b) (List.seq 0 256)) by (apply in_seq; lia). specialize (fun H => T H _ Hb').
  rewrite !Z2Nat.id in T by lia. apply Z.eqb_eq, T, in_seq. lia.
Qed.
Lemma sp_range st b : 0 <= sp st b <= 8.
Proof. unfold sp. repeat match goal with |- context [if ?x then _ else _] => destruct x end; lia. Qed.

(** What has to follow in a state. *)
Inductive follows : Z -> list Z -> Prop :=
| fo_2 b : tail_byte b -> follows 2 [b]
| fo_3 b c : tail_byte b -> tail_byte c -> follows 3 [b; c]
| fo_4 b c : 160 <= b <= 191 -> tail_byte c -> follows 4 [b; c]
| fo_5 b c : 128 <= b <= 159 -> tail_byte c -> follows 5 [b; c]
| fo_6 b c d : 144 <= b <= 191 -> tail_byte c -> tail_byte d -> follows 6 [b; c; d]
| fo_7 b c d : tail_byte b -> tail_byte c -> tail_byte d -> follows 7 [b; c; d]
| fo_8 b c d : 128 <= b <= 143 -> tail_byte c -> tail_byte d -> follows 8 [b; c; d]
| fo_0 : follows 0 [].
Definition bytes (l : list Z) : Prop := Forall (fun b => 0 <= b < 256) l.
Definition dec (l : list Z) : Prop := exists cs, Forall utf8_char cs /\ l = concat cs.

Ltac ranges := repeat match goal with
  | H : context [?a <=? ?b] |- _ => destruct (Z.leb_spec a b); cbn [andb] in H
  | |- context [?a <=? ?b] => destruct (Z.leb_spec a b); cbn [andb]
  end.
Lemma first_char a t : 0 <= a -> follows (sp 0 a) t -> utf8_char (a :: t).
Proof.
  intros Ha H. unfold sp in H. cbn [Z.eqb] in H. ranges; inversion H; subst; try (exfalso; lia);
    repeat match goal with H1 : ?x <= a, H2 : a < ?x |- _ => exfalso; lia end;
    first [apply u8_1; lia | apply u8_2; [lia|assumption] | replace a with 224 by lia; now apply u8_3a | apply u8_3b; [lia|assumption..]
      | replace a with 237 by lia; now apply u8_3c | apply u8_3d; [lia|assumption..] | replace a with 240 by lia; now apply u8_4a
      | apply u8_4b; [lia|assumption..] | replace a with 244 by lia; now apply u8_4c].
Qed.
Lemma later_char st b t : 2 <= st <= 8 -> follows (sp st b) t -> sp st b <> 1 -> follows st (b :: t).
Proof.
  intros Hs H N. assert (st = 2 \/ st = 3 \/ st = 4 \/ st = 5 \/ st = 6 \/ st = 7 \/ st = 8) as C by lia.
  repeat (destruct C as [->|C]); subst; unfold sp, within in *; cbn [Z.eqb] in *; cbn in H, N; ranges; inversion H; subst; try congruence; constructor; unfold tail_byte in *; assumption || lia.
Qed.
Lemma accepts_dec : forall l st, bytes l -> 0 <= st <= 8 -> st <> 1 -> accepts st l = true -> exists t r, l = t ++ r /\ follows st t /\ dec r.
Proof.
  induction l as [|b l IH]; intros st Hb Hs N; cbn [accepts].
  - destruct (Z.eqb_spec st 0); [|discriminate]. subst. intros _. exists [], []. split; [easy|]. split; [constructor|]. now exists [].
  - inversion Hb as [|? ? B Hl]; subst. rewrite (nx_sp st b Hs B). destruct (Z.eqb_spec (sp st b) 1) as [|N']; [discriminate|]. intro H.
    destruct (IH (sp st b) Hl (sp_range _ _) N' H) as (t & r & -> & Hf & Hd). destruct (Z.eq_dec st 0) as [->|].
    + exists [], (b :: t ++ r). split; [easy|]. split; [constructor|]. destruct Hd as (cs & Hc & ->). exists ((b :: t) :: cs). split; [|reflexivity].
      constructor; [apply first_char; [lia|exact Hf]|exact Hc].
    + exists (b :: t), r. split; [easy|]. split; [|exact Hd]. apply later_char; [lia|exact Hf|exact N'].
Qed.
Lemma accepts_step st st' b r : 0 <= st <= 8 -> 0 <= b < 256 -> sp st b = st' -> st' <> 1 -> accepts st (b :: r) = accepts st' r.
Proof. intros Hs Hb <- N. cbn [accepts]. rewrite (nx_sp st b Hs Hb). destruct (Z.eqb_spec (sp st b) 1); [contradiction|reflexivity]. Qed.
Lemma char_accepts c r : utf8_char c -> accepts 0 (c ++ r) = accepts 0 r.
Proof.
  assert (S : forall st st' b q, 0 <= st <= 8 -> 0 <= b < 256 -> sp st b = st' -> st' <> 1 -> accepts st' q = accepts 0 r -> accepts st (b :: q) = accepts 0 r).
  { intros st st' b q Hs Hb E N <-. now apply accepts_step. }
  intro H. inversion H; subst; cbn [app]; unfold tail_byte in *.
  all: repeat (first [reflexivity | eapply S; [lia|lia|unfold sp, within; cbn [Z.eqb Pos.eqb]; ranges; try lia; reflexivity|lia|]]).
Qed.
Lemma dec_accepts l : dec l -> accepts 0 l = true.
Proof. intros (cs & H & ->). induction H as [|c cs Hc _ IH]; [reflexivity|]. cbn [concat]. now rewrite char_accepts. Qed.
Lemma bytes_of s : bytes (map byte s).
Proof. apply Forall_map, Forall_forall. intros c _. apply Z.mod_pos_bound. lia. Qed.
Theorem utf8_dump s : utf8 s <-> exists t, dump_string s = Ok t.
Proof.
  assert (G : (exists t, dump_string s = Ok t) <-> exists t, dump_escaped 0 0 s = Ok t).
  { unfold dump_string. split; intros [t H]; [|rewrite H; now eexists]. destruct (dump_escaped 0 0 s) as [u| | |]; try discriminate. now exists u. }
  rewrite G, dump_accepts. change (utf8 s) with (dec (map byte s)). split; [apply dec_accepts|]. intro H.
  destruct (accepts_dec _ 0 (bytes_of s) ltac:(lia) ltac:(lia) H) as (t & r & E & Hf & Hd). inversion Hf; subst. now rewrite E.
Qed.
Lemma not_utf8_dump s : ~ utf8 s <-> dump_string s = Throw JsonType.
Proof.
  rewrite utf8_dump. unfold dump_string. destruct (dump_throws s 0 0) as [[t ->]| ->]; cbn [bind]; split; try easy.
  - intro N. elim N. now eexists.
  - intros _ [t H]. discriminate.
Qed.
Lemma utf8_nil : utf8 [].
Proof. now exists []. Qed.
Lemma utf8_app a b : utf8 a -> utf8 b -> utf8 (a ++ b).
Proof.
  intros (x & Hx & Ex) (y & Hy & Ey). exists (x ++ y). split; [now apply Forall_app|]. now rewrite map_app, concat_app, Ex, Ey.
Qed.
Lemma utf8_ascii s : Forall (fun c => 0 <= c < 128) s -> utf8 s.
Proof.
  induction 1 as [|c s Hc _ IH]; [exact utf8_nil|]. change (c :: s) with ([c] ++ s). apply utf8_app; [|exact IH]. exists [[c]]. split.
  - repeat constructor; lia.
  - cbn. f_equal. apply Z.mod_small. lia.
Qed.

(** ** Pieces of a text *)
Definition after (st : Z) (l : list Z) : Z := fold_left nx l st.
Lemma after_reject l : bytes l -> after 1 l = 1.
Proof. induction 1 as [|b l Hb _ IH]; [reflexivity|]. cbn [after fold_left]. rewrite nx_sp by lia. exact IH. Qed.
Lemma accepts_after : forall l st, bytes l -> 0 <= st <= 8 -> accepts st l = (after st l =? 0).
Proof.
  induction l as [|b l IH]; intros st Hb Hs; [reflexivity|]. inversion Hb as [|? ? B Hl]; subst. cbn [accepts after fold_left]. rewrite nx_sp by assumption.
  destruct (Z.eqb_spec (sp st b) 1) as [->|N]; [|apply IH; [exact Hl|apply sp_range]]. fold (after 1 l). now rewrite after_reject.
Qed.
Lemma utf8_after s : utf8 s <-> after 0 (map byte s) = 0.
Proof.
  change (utf8 s) with (dec (map byte s)). rewrite <- Z.eqb_eq, <- accepts_after; [|apply bytes_of|lia]. split; [apply dec_accepts|]. intro H.
  destruct (accepts_dec _ 0 (bytes_of s) ltac:(lia) ltac:(lia) H) as (t & r & E & Hf & Hd). inversion Hf; subst. now rewrite E.
Qed.
Lemma after_range l : forall st, bytes l -> 0 <= st <= 8 -> 0 <= after st l <= 8.
Proof.
  induction l as [|b l IH]; intros st Hb Hs; [exact Hs|]. inversion Hb; subst. cbn [after fold_left]. apply IH; [assumption|]. rewrite nx_sp by assumption. apply sp_range.
Qed.
(** A space is a character of its own. *)
Lemma space_boundary st l : 0 <= st <= 8 -> bytes l -> after (nx st 32) l = 0 -> st = 0.
Proof.
  intros Hs Hl H. destruct (Z.eq_dec st 0) as [|N]; [assumption|exfalso]. rewrite nx_sp in H by lia.
  assert (E : sp st 32 = 1).
  { assert (st = 1 \/ st = 2 \/ st = 3 \/ st = 4 \/ st = 5 \/ st = 6 \/ st = 7 \/ st = 8) as C by lia. clear - C. repeat (destruct C as [->|C]); subst; reflexivity. }
  rewrite E, after_reject in H by assumption. discriminate.
Qed.
Lemma words_utf8 : forall s cur, after 0 (map byte (cur ++ s)) = 0 -> Forall utf8 (word_loop s cur).
Proof.
  induction s as [|c s IH]; intros cur H; cbn [word_loop].
  - rewrite app_nil_r in H. destruct cur as [|x cur]; [constructor|]. constructor; [now apply utf8_after|constructor].
  - destruct (Z.eqb_spec c 32) as [->|Nc]; [destruct cur as [|x cur]|]; cbn [andb negb]; [apply IH; exact H| |apply IH; now rewrite <- app_assoc].
    rewrite map_app in H. unfold after in H. rewrite fold_left_app in H. cbn [map fold_left] in H.
    set (st := after 0 (map byte (x :: cur))). change (after (nx st 32) (map byte s) = 0) in H.
    assert (Hs : 0 <= st <= 8) by (apply after_range; [apply bytes_of|lia]).
    assert (E : st = 0) by (now apply (space_boundary st (map byte s)); [| apply bytes_of|]). constructor; [now apply utf8_after|]. apply IH. rewrite E in H. exact H.
Qed.
Lemma tokens_utf8 s : utf8 s -> Forall utf8 (tokenize WordTok s).
Proof. intro H. apply words_utf8. cbn [app]. now apply utf8_after. Qed.
