(** SpecLoadMixed: the calls of a loaded IntVGram in any order. As SpecMixed.v, but the data that fit counts may also have
    the symbols of the file. *)
From Verif Require Import Base Spec FloatOps ModelDict Maps ModelStat ModelBuilder ModelStream ModelVGram SpecStat SpecBuilder SpecStream SpecVGram SpecMixed.

Section S.
  Context (fl : fops) (syms : list Z).

  (** The data that fit counts has symbols of the file and accepted ones only. *)
  Definition countable_from (xs : list seq) (calls : list (sop fl)) : Prop :=
    forall x, In x xs -> (Z.of_nat (length x) <= 2 ^ 40)%Z /\ forall c, In c x -> In c (syms ++ seen fl calls).

  (** One call, all of it defined. [calls]: the calls made on the stream since the load; [new]: by this call. *)
  Definition lstep (calls : list (sop fl)) (v : vgram fl) (op : vop fl) (new : list (sop fl)) (v' : vgram fl) : Prop :=
    match op with
    | VFit w xs => exists ok, fit fl w v xs = Ok (ok, v') /\ fit_calls fl w v xs ok new /\ (ok = true -> countable_from xs (calls ++ new))
    | VTransform w xs => (exists r, transform fl w v xs = Ok (r, v')) /\ new = map SParse xs
    | VCall op => sstep fl (vs v) op (vs v') /\ v' = on_stream fl v (vs v') /\ new = [op]
    end.

  Inductive lhist (v0 : vgram fl) : list (vop fl) -> list (sop fl) -> vgram fl -> Prop :=
  | lh_nil : lhist v0 [] [] v0
  | lh_step ops calls v op new v' : lhist v0 ops calls v -> lstep calls v op new v' -> lhist v0 (ops ++ [op]) (calls ++ new) v'.
End S.
