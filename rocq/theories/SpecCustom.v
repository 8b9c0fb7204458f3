(** SpecCustom: histories and vocabulary for objects with a tokenizer of the user's own. *)
From Verif Require Import Base Spec FloatOps ModelDict ModelCoder ModelTok Maps ModelStat ModelBuilder ModelStream ModelVGram ModelString ModelCustom
  SpecTok SpecStat SpecBuilder SpecStream SpecVGram SpecString.

Section C.
  Context (fl : fops) (norm : text -> outcome text) (toks : text -> outcome (list text)).

  (** The tokens of a text. *)
  Definition cut (s : text) (ws : list text) : Prop := exists n, norm s = Ok n /\ toks n = Ok ws.
  Definition cut_in (texts : list text) (w : text) : Prop := exists s ws, In s texts /\ cut s ws /\ In w ws.
  (** The number of tokens of a text. *)
  Definition width (s : text) : Z := match (n <- norm s ;; toks n) with Ok ws => Z.of_nat (length ws) | _ => 0%Z end.

  Definition cstep (z : tstream fl) (op : top fl) (z' : tstream fl) : Prop :=
    match op with
    | TAccept e s => c_accept fl norm toks e z s = Ok z'
    | TParse s => exists pieces, c_parse fl norm toks z s = Ok (pieces, z')
    | TUpdate => t_update fl z = Ok z'
    end.
  Inductive chist (z0 : tstream fl) : list (top fl) -> tstream fl -> Prop :=
  | ch_nil : chist z0 [] z0
  | ch_step ops z op z' : chist z0 ops z -> cstep z op z' -> chist z0 (ops ++ [op]) z'.

  Definition cop_handled (op : top fl) : Z := match op with TAccept _ s | TParse s => width s | TUpdate => 0%Z end.
  Definition chandled (ops : list (top fl)) : Z := zsum (map cop_handled ops).
  (** The limits of SpecStream.v, counted in tokens. *)
  Definition cnormal (N : Z) (ops : list (top fl)) : Prop :=
    (forall e s, In (TAccept e s) ops -> env_ok fl e) /\ (0 <= N <= 2 ^ 40)%Z /\ Forall (fun s => width s <= N)%Z (tfed fl ops) /\
    (chandled ops <= 2 ^ 48)%Z /\ (tupdates fl ops * (20000000 + N) <= 2 ^ 50)%Z.

  (** Objects that result from [v] by transforms of texts of at most 2^40 tokens. *)
  Inductive applied (v : tvgram fl) : tvgram fl -> Prop :=
  | ap_refl : applied v v
  | ap_step v1 w xs r v2 : applied v v1 -> Forall (fun s => width s <= 2 ^ 40)%Z xs -> c_apply fl norm toks w v1 xs = Ok (r, v2) -> applied v v2.

  (** What a text [y] is turned into by an object fitted on [texts], whose alphabet is [words]. *)
  Definition turned (texts : list text) (words : list text) (y out : text) : Prop :=
    exists ws ks pieces, cut y ws /\ only (cut_in texts) ws ks /\ spaced out pieces /\ incl pieces words /\ concat pieces = concat ks.
End C.
