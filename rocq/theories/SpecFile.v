(** SpecFile: what a model file says, after docs/source/save.rst. *)
From Coq Require Import Ascii String Permutation.
From Verif Require Import Base FloatOps ModelTok ModelJson SpecJson SpecGrammar.
Local Open Scope Z_scope.
Local Open Scope list_scope.

(** The different elements of a list, in the order of their first occurrences. *)
Fixpoint firsts {A} (dec : forall x y : A, {x = y} + {x <> y}) (l : list A) : list A :=
  match l with [] => [] | x :: r => x :: remove dec x (firsts dec r) end.

(** One v-gram of a file. *)
Record item := mkItem { it_freq : Z; it_vec : list Z; it_text : option text }.
(** [w] is the word of an item: its numbers are positions in the list [coder]. *)
Definition stands_for {A} (coder : list A) (it : item) (w : list A) : Prop :=
  Forall2 (fun k c => 0 <= k /\ nth_error coder (Z.to_nat k) = Some c) (it_vec it) w.

Section S.
  Context {F : Type} (io : float_io F).
  Notation json := (json F).
  Definition item_value (it : item) (j : json) : Prop := exists m, j = JObj m /\
    Permutation m ([(txt "freq"%string, JInt (it_freq it)); (txt "vec"%string, JArr (map JInt (it_vec it)))] ++ match it_text it with Some t => [(txt "text"%string, JStr t)] | None => [] end).
  (** A list; the empty list is written as null. *)
  Definition listing (l : list json) (j : json) : Prop := (l = [] /\ j = JNull) \/ (l <> [] /\ j = JArr l).
  (** A number; one that is not finite is written as null. *)
  Definition number (x : F) (j : json) : Prop := (io_show io x = None /\ j = JNull) \/ (io_show io x <> None /\ j = JFloat x).
  (** The file [s] is a text of the JSON grammar and a newline, for an object with exactly these members. *)
  Definition model_file (s : text) (size : Z) (minp : F) (coder : list Z) (items : list item) (flags : option (bool * bool)) : Prop :=
    exists m a c x js, file_text io s (JObj m) [10] /\
      Permutation m ([(txt "alphabet"%string, a); (txt "coder"%string, c); (txt "size"%string, JInt size); (txt "min_prob"%string, x)] ++
        match flags with Some (f, g) => [(txt "fitted"%string, JBool f); (txt "freqs_computed"%string, JBool g)] | None => [] end) /\
      listing js a /\ Forall2 item_value items js /\ listing (map JInt coder) c /\ number minp x.
End S.
