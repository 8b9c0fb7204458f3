(** SpecPersist: vocabulary for saving and loading. *)
From Verif Require Import Base FloatOps ModelDict ModelCoder ModelTok Maps ModelStat ModelBuilder ModelStream ModelVGram ModelString ModelJson ModelPersist SpecTok SpecJson SpecString.
Local Open Scope Z_scope.

Definition int32 (z : Z) : Prop := - 2 ^ 31 <= z < 2 ^ 31.

Section S.
  Context (fl : fops) (io : float_io (F fl)).

  (** The integers of the object are values of type int (in the code they have that type), and so are the symbols. *)
  Definition int_stream (z : stream fl) : Prop :=
    int32 (zsize z) /\ Forall int32 (zfreqs z) /\ Forall (fun p => int32 (fst p)) (fwd (zcoder z)) /\
    forall p d, zdict z = Some p -> hget fl (zb z) p = Ok d -> Forall (Forall int32) (seqs d).
  (** The texts of a tokenizer are made of chars. *)
  Definition char_tok (t : tokenizer) : Prop := forall i w, mfind Z.eqb (tbwd t) i = Some w -> chars w.
  (** The minimum probability is written and read back exactly; [minp_file] allows one that is written as null. *)
  Definition minp_exact (z : stream fl) : Prop := forall x, zminp z = Some x -> io_ok io x.
  Definition minp_file (z : stream fl) : Prop := forall x, zminp z = Some x -> io_show io x = None \/ io_ok io x.

  (** The results of a series of parse calls. *)
  Fixpoint parses (z : stream fl) (ss : list seq) : outcome (list (list nat)) :=
    match ss with
    | [] => Ok []
    | s :: r => '(ids, z') <- s_parse fl z s ;; l <- parses z' r ;; Ok (ids :: l)
    end.
  (** Two streams that nobody can tell apart by looking at them or by parsing. *)
  Definition same_stream (z z' : stream fl) : Prop :=
    zsize z' = zsize z /\ zminp z' = zminp z /\ s_freqs fl z' = s_freqs fl z /\ s_alphabet fl z' = s_alphabet fl z /\
    (forall s, encode_immutable (zcoder z') s = encode_immutable (zcoder z) s) /\
    (forall v, decode (zcoder z') v = decode (zcoder z) v) /\
    forall ss, parses z' ss = parses z ss.

  (** What a successful call of one of the save functions leaves in the file. *)
  Inductive saved_file : text -> Prop :=
  | sf_stream z file : int_stream z -> minp_file z -> save_stream fl io true z = Ok file -> saved_file file
  | sf_vgram v file : int_stream (vs v) -> minp_file (vs v) -> save_vgram fl io true v = Ok file -> saved_file file
  | sf_tstream z file : int_stream (tst z) -> minp_file (tst z) -> char_tok (ttok z) -> save_tstream fl io true z = Ok file -> saved_file file
  | sf_tvgram v file : int_stream (vs (tv v)) -> minp_file (vs (tv v)) -> char_tok (tvtok v) -> save_tvgram fl io true v = Ok file -> saved_file file.

  (** A text stream that is made, used, and now and then saved and loaded again. *)
  Inductive text_life (size : Z) (inner words : bool) : tstream fl -> Prop :=
  | tl_new z : new_tstream fl size inner words = Ok z -> text_life size inner words z
  | tl_step z op z' : text_life size inner words z -> tstep fl z op z' -> text_life size inner words z'
  | tl_load z file z' : text_life size inner words z -> minp_exact (tst z) -> save_tstream fl io true z = Ok file ->
      load_tstream fl io file = Ok z' -> text_life size inner words z'.
End S.
