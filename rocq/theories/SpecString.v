(** SpecString: text histories and vocabulary for the string interfaces. *)
From Verif Require Import Base Spec FloatOps ModelDict ModelCoder ModelTok Maps ModelStat ModelBuilder ModelStream ModelVGram ModelString
  SpecTok SpecStat SpecBuilder SpecStream SpecVGram.

(** The tokens of a text: the characters of its normal form, or its words (C22). *)
Definition tokens_of (k : tok_kind) (s : text) (ws : list text) : Prop :=
  match k with
  | CharTok => exists n, normal_form s n /\ ws = map (fun c => [c]) n
  | WordTok => ws = tokenize WordTok s
  end.
(** The character tokenizer is for ASCII texts (C21). *)
Definition readable (k : tok_kind) (s : text) : Prop := match k with CharTok => ascii_text s | WordTok => True end.
(** [w] is a token of one of the [texts]. *)
Definition token_in (k : tok_kind) (texts : list text) (w : text) : Prop :=
  exists s ws, In s texts /\ tokens_of k s ws /\ In w ws.
(** [l] is [ws] without the elements that are not [P]. *)
Inductive only {A} (P : A -> Prop) : list A -> list A -> Prop :=
| only_nil : only P [] []
| only_keep x l r : P x -> only P l r -> only P (x :: l) (x :: r)
| only_drop x l r : ~ P x -> only P l r -> only P (x :: l) r.

Section S.
  Context (fl : fops).

  Inductive top := TAccept (e : env fl) (s : text) | TParse (s : text) | TUpdate.
  Definition tstep (z : tstream fl) (op : top) (z' : tstream fl) : Prop :=
    match op with
    | TAccept e s => t_accept fl true e z s = Ok z'
    | TParse s => exists pieces, t_parse fl true z s = Ok (pieces, z')
    | TUpdate => t_update fl z = Ok z'
    end.
  Inductive thist (z0 : tstream fl) : list top -> tstream fl -> Prop :=
  | tt_nil : thist z0 [] z0
  | tt_step ops z op z' : thist z0 ops z -> tstep z op z' -> thist z0 (ops ++ [op]) z'.

  Definition top_fed (op : top) : list text := match op with TAccept _ s => [s] | _ => [] end.
  (** The texts accepted. *)
  Definition tfed (ops : list top) : list text := flat_map top_fed ops.
  Definition top_handled (op : top) : Z :=
    match op with TAccept _ s | TParse s => Z.of_nat (length s) | TUpdate => 0%Z end.
  Definition thandled (ops : list top) : Z := zsum (map top_handled ops).
  Definition is_tupdate (op : top) : bool := match op with TUpdate => true | _ => false end.
  Definition tupdates (ops : list top) : Z := Z.of_nat (length (filter is_tupdate ops)).
  (** The limits of SpecStream.v, counted in characters. *)
  Definition tnormal (N : Z) (ops : list top) : Prop :=
    (forall e s, In (TAccept e s) ops -> env_ok fl e) /\
    (0 <= N <= 2 ^ 40)%Z /\ Forall (fun s : text => Z.of_nat (length s) <= N)%Z (tfed ops) /\
    (thandled ops <= 2 ^ 48)%Z /\ (tupdates ops * (20000000 + N) <= 2 ^ 50)%Z.

  (** Objects that result from [v] by transforms of texts of at most 2^40 characters. *)
  Inductive transformed (v : tvgram fl) : tvgram fl -> Prop :=
  | tf_refl : transformed v v
  | tf_step v1 w xs r v2 : transformed v v1 -> Forall (fun s : text => Z.of_nat (length s) <= 2 ^ 40)%Z xs ->
      tv_transform fl true w v1 xs = Ok (r, v2) -> transformed v v2.
End S.
Arguments TAccept {fl}. Arguments TParse {fl}. Arguments TUpdate {fl}.

(** [out] is the nonempty [pieces] separated by single spaces. *)
Definition spaced (out : text) (pieces : list text) : Prop := ~ In [] pieces /\ out = join pieces.
Definition no_spaces (s : text) : text := filter (fun c => negb (Z.eqb c 32)) s.
(** What a text [y] is turned into by an object fitted on [texts], whose alphabet is [words]. *)
Definition reads (k : tok_kind) (texts : list text) (words : list text) (y out : text) : Prop :=
  exists ws ks pieces, tokens_of k y ws /\ only (token_in k texts) ws ks /\ spaced out pieces /\ incl pieces words /\ concat pieces = concat ks.
