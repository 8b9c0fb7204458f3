(** SpecMixed: the calls of an IntVGram in any order - fit, transform and the calls of a stream. *)
From Verif Require Import Base Spec FloatOps ModelDict Maps ModelStat ModelBuilder ModelStream ModelVGram SpecStat SpecBuilder SpecStream SpecVGram.

Section S.
  Context (fl : fops).

  Inductive vop := VFit (w : world fl) (xs : list seq) | VTransform (w : world fl) (xs : list seq) | VCall (op : sop fl).

  (** The calls on the stream that a call of fit comes to; [ok]: it completed. The counting of the data is listed as
      parses: sampling and counting if the object was not fitted, counting only if the frequencies are to be computed,
      nothing otherwise. An interrupted fit has done [m] rounds and accepted [j] + 1 sequences of the next one, up to
      the first call of isTerminated that answers true. *)
  Definition fit_calls (w : world fl) (v : vgram fl) (xs : list seq) (ok : bool) (new : list (sop fl)) : Prop :=
    if vfitted v then new = if vcomputed v then [] else map SParse xs
    else if ok then new = sampling fl w xs (Z.to_nat (viter v)) ++ map SParse xs
    else exists m j, j < length xs /\ w_term w (m * length xs + j) = true /\ undisturbed fl w (m * length xs + j) /\
      new = sampling fl w xs m ++ map (draw fl w xs) (List.seq (m * length xs) (S j)).

  (** The data that fit counts has no symbol that was never accepted (C44_refuted_not_drawn shows a fit where it has). *)
  Definition countable (xs : list seq) (calls : list (sop fl)) : Prop :=
    forall x, In x xs -> (Z.of_nat (length x) <= 2 ^ 40)%Z /\ forall c, In c x -> In c (seen fl calls).

  (** One call, all of it defined. [calls]: the calls made on the stream before it; [new]: by it. *)
  Definition vstep (calls : list (sop fl)) (v : vgram fl) (op : vop) (new : list (sop fl)) (v' : vgram fl) : Prop :=
    match op with
    | VFit w xs => exists ok, fit fl w v xs = Ok (ok, v') /\ fit_calls w v xs ok new /\ (ok = true -> countable xs (calls ++ new))
    | VTransform w xs => (exists r, transform fl w v xs = Ok (r, v')) /\ new = map SParse xs
    | VCall op => sstep fl (vs v) op (vs v') /\ v' = on_stream fl v (vs v') /\ new = [op]
    end.

  (** [vhist v0 ops calls v]: the calls [ops] lead from [v0] to [v]; they come to [calls] on the stream. *)
  Inductive vhist (v0 : vgram fl) : list vop -> list (sop fl) -> vgram fl -> Prop :=
  | vh_nil : vhist v0 [] [] v0
  | vh_step ops calls v op new v' : vhist v0 ops calls v -> vstep calls v op new v' -> vhist v0 (ops ++ [op]) (calls ++ new) v'.
End S.
Arguments VFit {fl}. Arguments VTransform {fl}. Arguments VCall {fl}.
