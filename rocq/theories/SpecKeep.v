(** SpecKeep: vocabulary for saving and loading text streams (C90). *)
From Verif Require Import Base FloatOps ModelTok ModelStream ModelString SpecTok SpecStream SpecString.

Section S.
  Context (fl : fops).
  (** Every text parsed in [ops] has only characters that no accepted text had, or that are words of the alphabet at that time. *)
  Definition tcalm (z0 : tstream fl) (ops : list (top fl)) : Prop :=
    forall a s b z al, ops = a ++ TParse s :: b -> thist fl z0 a z -> t_alphabet fl z = Ok al ->
    forall w, token_in CharTok [s] w -> token_in CharTok (tfed fl a) w -> In w al.

  (** The results of a series of parse calls. *)
  Fixpoint tparses (z : tstream fl) (ss : list text) : outcome (list (list text)) :=
    match ss with
    | [] => Ok []
    | s :: r => '(pieces, z') <- t_parse fl true z s ;; l <- tparses z' r ;; Ok (pieces :: l)
    end.
End S.
