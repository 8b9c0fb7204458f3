(** SpecPy: vocabulary for C75. *)
From Verif Require Import Base FloatOps ModelTok ModelStream ModelVGram ModelString ModelJson ModelPersist ModelPy SpecInterrupt.

Section S.
  Context (fl : fops).
  (** Calls that all came back, each with the world it ran in and its result. *)
  Inductive pylife (o0 : pyobj fl) : list (world fl * pycall * pyanswer) -> pyobj fl -> Prop :=
  | py_nil : pylife o0 [] o0
  | py_step log o w k a o' : pylife o0 log o -> py_call fl w o k = Ok (a, o') -> pylife o0 (log ++ [(w, k, a)]) o'.

  (** A VGram, or an object that was loaded from a file. *)
  Inductive no_constructed_int : pyobj fl -> Prop :=
  | nc_str size iter : no_constructed_int (py_str fl size iter)
  | nc_load_str io file o : py_load_str fl io file = Ok o -> no_constructed_int o
  | nc_load_int io file o : py_load_int fl io file = Ok o -> no_constructed_int o.

  (** The same calls when no signal comes. *)
  Definition no_signals (x : world fl * pycall * pyanswer) : world fl * pycall * pyanswer := (quiet fl (fst (fst x)), snd (fst x), snd x).
End S.
