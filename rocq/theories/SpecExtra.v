(** SpecExtra: vocabulary for the properties from C63 on. *)
From Verif Require Import Base FloatOps ModelTok ModelStat ModelStream ModelVGram SpecTok SpecStream SpecString.
Local Open Scope Z_scope.

(** A tokenizer after a series of transform calls, with the tokens and the ids that were returned for them so far. *)
Inductive issued (t0 : tokenizer) : tokenizer -> list (text * Z) -> Prop :=
| is_new : issued t0 t0 []
| is_step t g s ids t' ws : issued t0 t g -> tok_transform true t s = Ok (ids, t') -> tokens_of (tkind t0) s ws ->
    issued t0 t' (g ++ combine ws ids).

(** The outcome of a call, its result seen through [g]. *)
Definition through {A B} (g : A -> B) (o : outcome A) : outcome B := a <- o ;; Ok (g a).

(** The same call with the symbols renamed. *)
Definition renamed_op {fl} (f : Z -> Z) (op : sop fl) : sop fl :=
  match op with SAccept e s => SAccept e (map f s) | SParse s => SParse (map f s) | SUpdate => SUpdate end.

(** Two streams that answer alike, whatever is asked next, symbols being renamed by [f]: the same frequencies, the same
    words, the same readings, and the same outcome of accepting or updating. *)
Definition same_answers {fl} (f : Z -> Z) (z z' : stream fl) : Prop :=
  s_freqs fl z' = s_freqs fl z /\ s_alphabet fl z' = through (map (map f)) (s_alphabet fl z) /\
  (forall s, through fst (s_parse fl z' (map f s)) = through fst (s_parse fl z s)) /\
  (forall e s, through (fun _ => tt) (s_accept fl e z' (map f s)) = through (fun _ => tt) (s_accept fl e z s)) /\
  through (fun _ => tt) (s_update fl z') = through (fun _ => tt) (s_update fl z).

(** Calls on an IntVGram, and a series of them that all came back. *)
Inductive vcall fl := VFit (w : world fl) (xs : list seq) | VTransform (w : world fl) (xs : list seq) | VStream (op : sop fl).
Arguments VFit {fl}. Arguments VTransform {fl}. Arguments VStream {fl}.
Section V.
  Context (fl : fops).
  Definition vstep (v : vgram fl) (k : vcall fl) (v' : vgram fl) : Prop :=
    match k with
    | VFit w xs => exists done, fit fl w v xs = Ok (done, v')
    | VTransform w xs => exists r, transform fl w v xs = Ok (r, v')
    | VStream op => exists z, sstep fl (vs v) op z /\ v' = on_stream fl v z
    end.
  Inductive vlife (v0 : vgram fl) : list (vcall fl) -> vgram fl -> Prop :=
  | vl_nil : vlife v0 [] v0
  | vl_step ks v k v' : vlife v0 ks v -> vstep v k v' -> vlife v0 (ks ++ [k]) v'.
End V.
Definition renamed_call {fl} (f : Z -> Z) (k : vcall fl) : vcall fl :=
  match k with
  | VFit w xs => VFit w (map (map f) xs) | VTransform w xs => VTransform w (map (map f) xs) | VStream op => VStream (renamed_op f op)
  end.
