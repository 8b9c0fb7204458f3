(** SpecTok: vocabulary for the tokenizer properties. *)
From Coq Require Import String.
From Verif Require Import Base ModelTok.
Local Open Scope Z_scope.

(** A tokenizer as it is after a series of transform calls on [t0]. *)
Inductive tok_history (rhs_first : bool) (t0 : tokenizer) : tokenizer -> Prop :=
| th_start : tok_history rhs_first t0 t0
| th_step t s ids t' : tok_history rhs_first t0 t -> tok_transform rhs_first t s = Ok (ids, t') ->
    tok_history rhs_first t0 t'.

(** ASCII text. *)
Definition ascii_text (s : text) : Prop := forall c, In c s -> 0 <= c < 128.

(** The characters kept by normalization, each with its lower-case form. *)
Definition upper_letters : text := txt "ABCDEFGHIJKLMNOPQRSTUVWXYZ".
Definition lower_letters : text := txt "abcdefghijklmnopqrstuvwxyz".
Definition digits : text := txt "0123456789".
Definition kept : list (Z * Z) :=
  combine upper_letters lower_letters ++ combine lower_letters lower_letters ++ combine digits digits.
(** Normalization of a text, character by character. *)
Inductive normal_form : text -> text -> Prop :=
| nf_nil : normal_form [] []
| nf_keep c l s r : In (c, l) kept -> normal_form s r -> normal_form (c :: s) (l :: r)
| nf_drop c s r : (forall l, ~ In (c, l) kept) -> normal_form s r -> normal_form (c :: s) r.

(** Words joined with single spaces. *)
Fixpoint join (ws : list text) : text :=
  match ws with
  | [] => []
  | [w] => w
  | w :: t => w ++ 32 :: join t
  end.
