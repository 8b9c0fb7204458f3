(** SpecDisk: histories of saves, and what can be said of the content of a file. *)
From Verif Require Import Base FloatOps ModelDict ModelCoder ModelTok Maps ModelStat ModelBuilder ModelStream ModelVGram ModelString ModelJson ModelPersist ModelSave ModelDisk
  SpecTok SpecJson SpecString SpecPersist.

Section S.
  Context (fl : fops) (io : float_io (F fl)).

  Inductive event := Save (f : fate) (p : text) (o : obj fl).
  (** A series of saves, of any objects under any names, by one program or several. *)
  Inductive dhist (d0 : disk) : list event -> disk -> Prop :=
  | dh_nil : dhist d0 [] d0
  | dh_step evs d f p o d' e : dhist d0 evs d -> disk_save fl io f d p o = Ok (d', e) -> dhist d0 (evs ++ [Save f p o]) d'.
  (** No save under the name [p] opens its file. *)
  Definition untouched (p : text) (evs : list event) : Prop := forall f q o, In (Save f q o) evs -> q = p -> f = Unopened.

  (** What save() of the object writes when nothing fails (C40-C72). *)
  Definition obj_save (o : obj fl) : outcome text :=
    match o with
    | BStream z => save_stream fl io true z
    | BVGram v => save_vgram fl io true v
    | BText z => save_tstream fl io true z
    | BTexts v => save_tvgram fl io true v
    end.
  (** Its integers and characters are values of the types they have in the code, its minimum probability is written and read back
      exactly, and for texts its alphabet can be decoded (C41). *)
  Definition valid (o : obj fl) : Prop :=
    match o with
    | BStream z => int_stream fl z /\ minp_file fl io z
    | BVGram v => int_stream fl (vs v) /\ minp_file fl io (vs v)
    | BText z => int_stream fl (tst z) /\ minp_file fl io (tst z) /\ char_tok (ttok z) /\ exists al, t_alphabet fl z = Ok al
    | BTexts v => int_stream fl (vs (tv v)) /\ minp_file fl io (vs (tv v)) /\ char_tok (tvtok v) /\ exists al, tv_alphabet fl v = Ok al
    end.

  (** No load function reads the text; every load function makes the same of both texts. *)
  Definition unreadable (t : text) : Prop :=
    load_stream fl io t = Throw JsonParse /\ load_vgram fl io t = Throw JsonParse /\ load_tstream fl io t = Throw JsonParse /\ load_tvgram fl io t = Throw JsonParse.
  Definition same_loads (t t' : text) : Prop :=
    load_stream fl io t = load_stream fl io t' /\ load_vgram fl io t = load_vgram fl io t' /\
    load_tstream fl io t = load_tstream fl io t' /\ load_tvgram fl io t = load_tvgram fl io t'.
End S.
Arguments Save {fl}.
