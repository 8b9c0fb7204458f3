(** SpecCounts: what the frequencies of a short training count, and of text objects; the reported minimum probability. *)
From Verif Require Import Base Spec FloatOps ModelDict ModelTok Maps ModelStat ModelBuilder ModelStream ModelVGram ModelString
  SpecTok SpecStat SpecBuilder SpecStream SpecVGram SpecString.

(** The words are the symbols of [data], each once, and the frequencies say how often each occurs. *)
Definition symbol_counts (data : list Z) (al : list seq) (fs : list Z) : Prop :=
  NoDup al /\ (forall w, In w al <-> exists c, In c data /\ w = [c]) /\
  Forall2 (fun w f => exists c, w = [c] /\ f = Z.of_nat (count_occ Z.eq_dec data c)) al fs.
(** The same for tokens. *)
Definition text_dec : forall a b : text, {a = b} + {a <> b} := list_eq_dec Z.eq_dec.
Definition token_counts (toks words : list text) (fs : list Z) : Prop :=
  NoDup words /\ (forall w, In w words <-> In w toks) /\ Forall2 (fun w f => f = Z.of_nat (count_occ text_dec toks w)) words fs.

(** The text that the tokens of [s] make up: the normal form, or the words without the blanks. *)
Definition plain (k : tok_kind) (s p : text) : Prop := exists ws, tokens_of k s ws /\ p = concat ws.

Section S.
  Context (fl : fops).
  (** Text histories with the window of accepted texts that are counted, as in SpecStream.v. *)
  Definition twindow_step (ops : list (top fl)) (z : tstream fl) (op : top fl) (z' : tstream fl) (w : window) : window :=
    match op with
    | TAccept _ _ => window_next (is_updated fl (zb (tst z)) (zb (tst z'))) (bpop (zb (tst z))) (S (length (tfed fl ops))) w
    | _ => w
    end.
  Inductive twhist (z0 : tstream fl) (ph0 : phase) : list (top fl) -> window -> tstream fl -> Prop :=
  | tw_nil : twhist z0 ph0 [] (0, 0, ph0) z0
  | tw_step ops w z op z' : twhist z0 ph0 ops w z -> tstep fl z op z' ->
      twhist z0 ph0 (ops ++ [op]) (twindow_step ops z op z' w) z'.

  (** The requested size leaves room for all tokens, and no score overflows. *)
  Definition troomy (k : tok_kind) (size : Z) (ops : list (top fl)) : Prop :=
    (forall e s, In (TAccept e s) ops -> draws_ok fl e) /\ (1 <= size)%Z /\
    exists vocab, (Z.of_nat (length vocab) <= size)%Z /\ forall w, token_in k (tfed fl ops) w -> In w vocab.

  (** A history of a builder with the minimum probability right after its latest reduction, if any. *)
  Inductive mhist (b0 : builder fl) : list (bop fl) -> option (F fl) -> builder fl -> Prop :=
  | mh_nil : mhist b0 [] None b0
  | mh_reduction ops m b op b' : mhist b0 ops m b -> bstep fl b op b' -> reduced fl b b' ->
      mhist b0 (ops ++ [op]) (Some (minp (bcur b'))) b'
  | mh_other ops m b op b' : mhist b0 ops m b -> bstep fl b op b' -> ~ reduced fl b b' ->
      mhist b0 (ops ++ [op]) m b'.
End S.
