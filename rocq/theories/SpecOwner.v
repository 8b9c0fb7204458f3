(** SpecOwner: who is in charge of a pointer, read off the calls alone, without counters. *)
From Verif Require Import Base ModelOwner.

(** How many things were allocated; for each hand what it points to and whether it is alive. *)
Definition view := (nat * list (nat * bool))%type.

Definition end_of (l : list (nat * bool)) (h : nat) : list (nat * bool) :=
  firstn h l ++ match skipn h l with (a, _) :: r => (a, false) :: r | [] => [] end.

Definition see (v : view) (p : oop) : view :=
  let '(n, l) := v in
  match p with
  | ONew => (S n, l)
  | OMake => (S n, l ++ [(n, true)])
  | OHand a => (n, l ++ [(a, true)])
  | OShare h => (n, l ++ [(fst (nth h l (0, false)), true)])
  | ODrop h => (n, end_of l h)
  | OUse _ | OCall _ | ODelete _ => v
  end.

Definition seen (ps : list oop) : view := fold_left see ps (0, []).

(** The hands alive after [ps] that point to [a], and whether there is one. *)
Definition held (ps : list oop) (a : nat) : Prop := In (a, true) (snd (seen ps)).

(** Those who were made responsible for [a]: a hand that was given the pointer, or that made the thing itself, and the
    caller who deletes it. *)
Fixpoint charges (n : nat) (ps : list oop) (a : nat) : nat :=
  match ps with
  | [] => 0
  | ONew :: r => charges (S n) r a
  | OMake :: r => (if n =? a then 1 else 0) + charges (S n) r a
  | OHand b :: r | ODelete b :: r => (if b =? a then 1 else 0) + charges n r a
  | _ :: r => charges n r a
  end.

(** A program that can be written: hands are used while they live, pointers after they were made. *)
Definition can (v : view) (p : oop) : Prop :=
  match p with
  | ONew | OMake => True
  | OHand a | OCall a | ODelete a => a < fst v
  | OShare h | OUse h | ODrop h => exists a, nth_error (snd v) h = Some (a, true)
  end.
Definition written (ps : list oop) : Prop := forall u p w, ps = u ++ p :: w -> can (seen u) p.

(** Nobody calls through a raw pointer when a hand was in charge and none is left, or the caller deleted it. *)
Definition calls_held (ps : list oop) : Prop :=
  forall u a w, ps = u ++ OCall a :: w -> charges 0 u a = 0 \/ held u a.

(** Everything has one responsible at most. *)
Definition one_charge (ps : list oop) : Prop := forall a, charges 0 ps a <= 1.
