(** SpecCoder: vocabulary for the symbol coder properties. *)
From Verif Require Import Base ModelCoder.

(** A coder as it is after a series of encode calls, with everything those calls returned. *)
Inductive coder_history : list seq -> list seq -> coder -> Prop :=
| ch_new : coder_history [] [] new_coder
| ch_encode ins outs c s v c' : coder_history ins outs c -> encode c s = (v, c') ->
    coder_history (ins ++ [s]) (outs ++ [v]) c'.

(** The distinct symbols of [h] in order of first occurrence: [x] at position [n] iff [x] occurs in [h]
    and exactly [n] distinct symbols occur in [h] before the first [x]. *)
Definition nth_new (h : seq) (n : nat) (x : Z) : Prop :=
  exists a b, h = a ++ x :: b /\ ~ In x a /\ length (nodup Z.eq_dec a) = n.

(** [b] was coded no earlier than [a]: [b] is reached from [a] by more encode calls. *)
Inductive coder_later : coder -> coder -> Prop :=
| cl_refl c : coder_later c c
| cl_step c s c' c'' : coder_later c c' -> snd (encode c' s) = c'' -> coder_later c c''.
