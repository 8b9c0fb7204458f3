(** SpecShared: vocabulary for C73. *)
From Verif Require Import Base FloatOps ModelTok ModelStream ModelVGram ModelString ModelShared.

Section S.
  Context (fl : fops).
  (** An object nothing was done with yet. *)
  Inductive fresh_member : member fl -> Prop :=
  | fresh_stream size w n : fresh_member (MStream (new_stream fl size) w n)
  | fresh_vgram size iter : fresh_member (MVGram (new_vgram fl size iter)).

  (** Calls on objects with a common tokenizer that all came back, with what they returned. *)
  Inductive ghist (g0 : group fl) : list (gcall fl * answer) -> group fl -> Prop :=
  | gh_nil : ghist g0 [] g0
  | gh_step log g c a g' : ghist g0 log g -> g_call fl g c = Ok (a, g') -> ghist g0 (log ++ [(c, a)]) g'.

  (** Calls on one object with a tokenizer of its own. *)
  Inductive mhist (m0 : member fl) (t0 : tokenizer) : list (mcall fl * answer) -> member fl -> tokenizer -> Prop :=
  | mh_nil : mhist m0 t0 [] m0 t0
  | mh_step log m t k a m' t' : mhist m0 t0 log m t -> m_call fl m t k = Ok (a, m', t') -> mhist m0 t0 (log ++ [(k, a)]) m' t'.

  (** The calls on object [i], with what they returned. *)
  Definition own (i : nat) (x : gcall fl * answer) : list (mcall fl * answer) :=
    match x with (On j k, a) => if Nat.eqb j i then [(k, a)] else [] | (Direct _, _) => [] end.
  Definition of_member (i : nat) (log : list (gcall fl * answer)) : list (mcall fl * answer) := flat_map (own i) log.
End S.
