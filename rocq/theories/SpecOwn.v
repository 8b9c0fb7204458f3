(** SpecOwn: vocabulary for C86 - a text object beside an integer object that is given the numbered tokens of the same texts. *)
From Verif Require Import Base Spec FloatOps ModelDict ModelCoder ModelTok Maps ModelStat ModelBuilder ModelStream ModelVGram ModelString
  SpecTok SpecStat SpecBuilder SpecStream SpecVGram SpecExtra SpecString.

(** A numbering of tokens that gives different numbers to different tokens. *)
Definition numbering (k : tok_kind) (num : text -> Z) : Prop :=
  forall s s' w w', token_in k [s] w -> token_in k [s'] w' -> num w = num w' -> w = w'.
(** [q] is the text [s], its tokens numbered. *)
Definition numbers (k : tok_kind) (num : text -> Z) (s : text) (q : seq) : Prop := exists ws, tokens_of k s ws /\ q = map num ws.

(** Two calls come out alike: both are defined, with results related by [R], or they fail in the same way. *)
Definition alike {A B} (R : A -> B -> Prop) (o : outcome A) (o' : outcome B) : Prop :=
  match o, o' with
  | Ok a, Ok b => R a b
  | UB k, UB k' => k = k'
  | Throw e, Throw e' => e = e'
  | NoTerm, NoTerm => True
  | _, _ => False
  end.

(** The texts [ts] and the number sequences [al] are the same words. *)
Definition same_words (num : text -> Z) (ts : list text) (al : list seq) : Prop :=
  exists ws : list (list text), ts = map (@concat Z) ws /\ al = map (map num) ws.
(** [pieces] are the texts of the words of [al] with the indices [ids]. *)
Definition texts_at (num : text -> Z) (al : list seq) (ids : list nat) (pieces : list text) : Prop :=
  exists ws : list (list text), Forall2 (fun i w => nth_error al i = Some (map num w)) ids ws /\ pieces = map (@concat Z) ws.

Section S.
  Context (fl : fops).
  (** Calls on a StringVGram that all came back. *)
  Inductive tcall := TFit (w : world fl) (xs : list text) | TTransform (w : world fl) (xs : list text).
  Definition tvstep (v : tvgram fl) (c : tcall) (v' : tvgram fl) : Prop :=
    match c with
    | TFit w xs => tv_fit fl true w v xs = Ok v'
    | TTransform w xs => exists r, tv_transform fl true w v xs = Ok (r, v')
    end.
  Inductive tvlife (v0 : tvgram fl) : list tcall -> tvgram fl -> Prop :=
  | tl_nil : tvlife v0 [] v0
  | tl_step cs v c v' : tvlife v0 cs v -> tvstep v c v' -> tvlife v0 (cs ++ [c]) v'.

  (** The same call with numbered tokens: on an IntVGram, on an IntStreamVGram. *)
  Definition own_call (k : tok_kind) (num : text -> Z) (c : tcall) (c' : vcall fl) : Prop :=
    match c, c' with
    | TFit w xs, VFit w' qs | TTransform w xs, VTransform w' qs => w' = w /\ Forall2 (numbers k num) xs qs
    | _, _ => False
    end.
  Definition own_op (k : tok_kind) (num : text -> Z) (op : top fl) (op' : sop fl) : Prop :=
    match op, op' with
    | TAccept e s, SAccept e' q => e' = e /\ numbers k num s q
    | TParse s, SParse q => numbers k num s q
    | TUpdate, SUpdate => True
    | _, _ => False
    end.
End S.
Arguments TFit {fl}. Arguments TTransform {fl}.
