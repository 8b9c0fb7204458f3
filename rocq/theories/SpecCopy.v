(** SpecCopy: what can happen to objects that are copies of each other. *)
From Verif Require Import Base Spec FloatOps ModelDict Maps ModelStat ModelBuilder ModelStream ModelVGram ModelCopy SpecStat SpecBuilder SpecStream SpecVGram SpecMixed.

Section S.
  Context (fl : fops).

  (** Copying object [i]; assigning object [j] to object [i]; any call of SpecMixed.v on object [i]. *)
  Inductive cop := CCopy (i : nat) | CAssign (i j : nat) | CCall (i : nat) (op : vop fl).

  (** One such step, all of it defined. [calls]: the calls made before on any of the objects; [new]: by this one. *)
  Definition cstep (calls : list (sop fl)) (c : copies fl) (op : cop) (new : list (sop fl)) (c' : copies fl) : Prop :=
    match op with
    | CCopy i => copy fl c i = Ok c' /\ new = []
    | CAssign i j => assign fl c i j = Ok c' /\ new = []
    | CCall i op => exists o v, nth_error (c_parts c) i = Some o /\ vstep fl calls (object fl c o) op new v /\ c' = after_call fl c i v
    end.
  Inductive chist (c0 : copies fl) : list cop -> list (sop fl) -> copies fl -> Prop :=
  | ch_nil : chist c0 [] [] c0
  | ch_step ops calls c op new c' : chist c0 ops calls c -> cstep calls c op new c' -> chist c0 (ops ++ [op]) (calls ++ new) c'.

  (** The object that a step changes, if it is not a new one. *)
  Definition changes (op : cop) (i : nat) : Prop := match op with CCopy _ => False | CAssign k _ | CCall k _ => k = i end.
End S.
Arguments CCopy {fl}. Arguments CAssign {fl}. Arguments CCall {fl}.
