(** SpecAlike: texts that make no difference. *)
From Verif Require Import Base FloatOps ModelTok ModelStream ModelVGram ModelString ModelShared SpecTok.
Local Open Scope Z_scope.

(** Character tokens: ASCII texts with the same letters and digits, up to case. Word tokens: the same text, up to one space
    at the end after something else. *)
Definition spaced_end (s s' : text) : Prop := exists r c, c <> 32 /\ s = r ++ [c] /\ s' = s ++ [32].
Definition alike (k : tok_kind) (s s' : text) : Prop :=
  match k with
  | CharTok => ascii_text s /\ ascii_text s' /\ exists n, normal_form s n /\ normal_form s' n
  | WordTok => s = s' \/ spaced_end s s' \/ spaced_end s' s
  end.

(** Calls with such texts: the same function, the same environment and random numbers. *)
Inductive calls_alike (fl : fops) (k : tok_kind) : mcall fl -> mcall fl -> Prop :=
| al_same c : calls_alike fl k c c
| al_accept e s s' : alike k s s' -> calls_alike fl k (CAccept e s) (CAccept e s')
| al_parse s s' : alike k s s' -> calls_alike fl k (CParse s) (CParse s')
| al_fit w xs xs' : Forall2 (alike k) xs xs' -> calls_alike fl k (CFit w xs) (CFit w xs')
| al_transform w xs xs' : Forall2 (alike k) xs xs' -> calls_alike fl k (CTransform w xs) (CTransform w xs').
