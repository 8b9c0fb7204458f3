(** SpecResave: vocabulary for files of models that were loaded from files (C70). *)
From Verif Require Import Base Spec FloatOps ModelDict ModelCoder ModelTok Maps ModelStat ModelBuilder ModelStream ModelVGram ModelString ModelJson ModelPersist SpecStream.

Section S.
  Context (fl : fops) (io : float_io (F fl)).

  (** What becomes of the stream [z] when it is used for parsing only, and saved and loaded any number of times. [known] are its
      symbols, [al] is its alphabet; the texts parsed contain no known symbol that is not in the alphabet. *)
  Inductive copies (known : list Z) (al : list seq) (z : stream fl) : stream fl -> Prop :=
  | cp_refl : copies known al z z
  | cp_parse z1 s ids z2 : copies known al z z1 -> covers al (restrict known s) -> s_parse fl z1 s = Ok (ids, z2) -> copies known al z z2
  | cp_load z1 file z2 : copies known al z z1 -> save_stream fl io true z1 = Ok file -> load_stream fl io file = Ok z2 -> copies known al z z2.

  (** What becomes of the text model [v] when it is used for transforms only, and saved and loaded any number of times. *)
  Inductive text_copies (v : tvgram fl) : tvgram fl -> Prop :=
  | tc_refl : text_copies v v
  | tc_step v1 w xs r v2 : text_copies v v1 -> Forall (fun s : text => Z.of_nat (length s) <= 2 ^ 40)%Z xs ->
      tv_transform fl true w v1 xs = Ok (r, v2) -> text_copies v v2
  | tc_load v1 file v2 : text_copies v v1 -> save_tvgram fl io true v1 = Ok file -> load_tvgram fl io file = Ok v2 -> text_copies v v2.
End S.
