(** ModelDisk: saving to and loading from files by name, when the operating system may fail. ModelSave.v gives what is written to the
    ofstream; here the ofstream may not be open, or may lose its tail. *)
From Verif Require Import Base FloatOps ModelDict ModelCoder ModelTok Maps ModelStat ModelBuilder ModelStream ModelVGram ModelString ModelJson ModelPersist ModelSave.

(** The content of the files that exist. *)
Definition disk : Type := text -> option text.
Definition put_file (d : disk) (p t : text) : disk := fun q => if seq_eqb q p then Some t else d q.
(** What becomes of the output: the file cannot be opened, or the first [n] characters are written (all, if there are no more; fewer,
    if the disk is full or the process is killed). *)
Inductive fate := Unopened | Reached (n : nat).

Section Disk.
  Context (fl : fops) (io : float_io (F fl)).

  (** The classes that can be saved. *)
  Inductive obj := BStream (z : stream fl) | BVGram (v : vgram fl) | BText (z : tstream fl) | BTexts (v : tvgram fl).
  (** saver.h:15-40, the json value *)
  Definition obj_info (o : obj) : outcome (list (text * json (F fl))) :=
    match o with
    | BStream z => base_info fl true None z
    | BVGram v => base_info fl true None (vs v)
    | BText z => base_info fl true (Some (ttok z)) (tst z)
    | BTexts v => m <- base_info fl true (Some (tvtok v)) (vs (tv v)) ;; Ok (fitted_info fl m (tv v))
    end.
  (** saver.h:42-47: write_to_file. An ofstream that is not open, or has failed, takes output without complaint: its exception mask is
      not set and its state is not asked for. Opening empties the file. The result is the exception, if there is one. *)
  Definition disk_save (f : fate) (d : disk) (p : text) (o : obj) : outcome (disk * option exn_kind) :=
    match obj_info o with
    | Ok m => let (t, e) := file_effect fl io m in Ok (match f with Unopened => d | Reached n => put_file d p (firstn n t) end, e)
    | Throw e => Ok (d, Some e)
    | UB k => UB k
    | NoTerm => NoTerm
    end.
  (** loader.h:73-79: read_dict_json; an ifstream that cannot be opened gives no characters. The load functions of ModelPersist.v
      take this content. *)
  Definition content (d : disk) (p : text) : text := match d p with Some t => t | None => [] end.
End Disk.
Arguments BStream {fl}. Arguments BVGram {fl}. Arguments BText {fl}. Arguments BTexts {fl}.
