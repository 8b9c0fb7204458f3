(** Properties of saving when files cannot be written: C97. Vocabulary: SpecDisk.v. *)
From Coq Require Import Ascii String.
From Verif Require Import Base FloatOps FloatLaws FloatIEEE FloatExample ModelTok ModelDict ModelCoder ModelStat ModelBuilder ModelStream ModelVGram ModelString ModelJson ModelPersist ModelSave ModelDisk
  DiskProofs DiskRuns SpecTok SpecJson SpecStream SpecVGram SpecString SpecPersist SpecDisk.
Local Open Scope string_scope.
Local Open Scope list_scope.

(** C97: in any series of saves, by any programs, under any names, with files that cannot be opened and output that is lost, what can be
    loaded under a name is decided by the last save there that opened the file: if all of it was written (but perhaps the last newline),
    every load function makes of the file what it makes of the complete one; if not, or if that save threw, every load function throws. *)
Theorem C97_last : forall fl (io : float_io (F fl)) d0 evs1 n p o evs2 d, dhist fl io d0 (evs1 ++ Save (Reached n) p o :: evs2) d ->
  valid fl io o -> untouched fl p evs2 ->
  (forall file, obj_save fl io o = Ok file -> length file <= n + 1 -> same_loads fl io (content d p) file) /\
  (forall file, obj_save fl io o = Ok file -> n + 1 < length file -> unreadable fl io (content d p)) /\
  (forall x, obj_save fl io o = Throw x -> unreadable fl io (content d p)) /\
  (obj_save fl io o = Throw JsonType \/ exists file, obj_save fl io o = Ok file).
Proof. exact disk_left. Qed.
Print Assumptions C97_last.

(** Saves under other names and saves that do not open the file leave it alone. *)
Theorem C97_kept : forall fl (io : float_io (F fl)) d0 evs d p, dhist fl io d0 evs d -> untouched fl p evs -> content d p = content d0 p.
Proof. exact disk_kept. Qed.
Print Assumptions C97_kept.

(** A file that does not exist cannot be loaded. *)
Theorem C97_missing : forall fl (io : float_io (F fl)) (d : disk) p, d p = None -> unreadable fl io (content d p).
Proof. exact missing. Qed.
Print Assumptions C97_missing.

(** But save() does not tell: what it throws depends on the object only, not on what happens to the file. *)
Theorem C97_silent : forall fl (io : float_io (F fl)) f f' d d' p p' o r e, disk_save fl io f d p o = Ok (r, e) ->
  (exists r', disk_save fl io f' d' p' o = Ok (r', e)) /\
  match e with None => exists file, obj_save fl io o = Ok file | Some x => obj_save fl io o = Throw x end.
Proof. exact (fun fl io f f' d d' p p' o r e H => conj (silent fl io f f' d d' p p' o r e H) (agrees fl io f d p o r e H)). Qed.
Print Assumptions C97_silent.

(** So a save that returns may have saved nothing: no file, and nothing to load. *)
Theorem C97_refuted_noticed : exists io o file d p, valid exf io o /\ obj_save exf io o = Ok file /\ disk_save exf io Unopened d p o = Ok (d, None) /\
  d p = None /\ unreadable exf io (content d p).
Proof.
  destruct good_object as (io & z & file & Hv & Hs). exists io, (BStream z), file, (fun _ => None), (txt "m"). split; [exact Hv|]. split; [exact Hs|].
  destruct (one_save exf io _ _ Hv Hs Unopened (fun _ => None) (txt "m")) as (d' & Hd). split; [|split; [reflexivity|now apply missing]].
  unfold disk_save in *. destruct (obj_info exf (BStream z)) as [m|k|x|]; try discriminate Hd. destruct (file_effect exf io m) as [t e]. now injection Hd as _ ->.
Qed.
Print Assumptions C97_refuted_noticed.

(** A complete save, then one under another name and one that does not open the file. *)
Example C97_case : exists io o file d, valid exf io o /\ obj_save exf io o = Ok file /\
  dhist exf io (fun _ => None) ([] ++ Save (Reached (length file)) (txt "a") o :: [Save (Reached 0) (txt "b") o; Save Unopened (txt "a") o]) d /\
  untouched exf (txt "a") [Save (Reached 0) (txt "b") o; Save Unopened (txt "a") o].
Proof.
  destruct good_object as (io & z & file & Hv & Hs). set (o := BStream z) in *.
  destruct (one_save exf io o _ Hv Hs (Reached (length file)) (fun _ => None) (txt "a")) as (d1 & H1). destruct (one_save exf io o _ Hv Hs (Reached 0) d1 (txt "b")) as (d2 & H2).
  destruct (one_save exf io o _ Hv Hs Unopened d2 (txt "a")) as (d3 & H3). exists io, o, file, d3. split; [exact Hv|]. split; [exact Hs|]. split.
  - change ([] ++ ?a :: [?b; ?c]) with ((([] ++ [a]) ++ [b]) ++ [c]). refine (dh_step _ _ _ _ _ _ _ _ _ _ _ H3). refine (dh_step _ _ _ _ _ _ _ _ _ _ _ H2).
    refine (dh_step _ _ _ _ _ _ _ _ _ _ _ H1). constructor.
  - intros f q o' [E|[E|[]]]; injection E as <- <- <-; [discriminate|reflexivity].
Qed.
(** A text model that cannot be saved completely. *)
Example C97_throw_case : exists io z, valid exf io (BText z) /\ obj_save exf io (BText z) = Throw JsonType.
Proof. exact bad_object. Qed.
