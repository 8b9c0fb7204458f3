(** ModelSave: what saving does to the file. ModelJson.v gives the text that a successful dump writes; here the text is followed
    as it is written, so that a save that throws half way can be described: json.h:10853-11270 and saver.h:42-47. Output goes to the
    ofstream at once; its destructor writes out what it holds, also when an exception passes. *)
From Coq Require Import Ascii String.
From Verif Require Import Base FloatOps ModelDict ModelCoder ModelTok Maps ModelStat ModelBuilder ModelStream ModelVGram ModelString ModelJson ModelPersist.
Local Open Scope Z_scope.
Local Open Scope list_scope.

(** The text written, and whether an exception was thrown after it. *)
Definition writing : Type := text * bool.
Definition put (t : text) : writing := (t, false).
Definition wthen (a b : writing) : writing := if snd a then a else (fst a ++ fst b, snd b).
Infix ">>>" := wthen (at level 60, right associativity).

(** json.h:11064-11270: dump_escaped, with the error handler `strict`; [buf] are the bytes in string_buffer, an array of 512 (:11492).
    It is written out when fewer than 13 bytes are left after a complete code point (:11174), and at the end; not when an exception is thrown. *)
Fixpoint emit_escaped (buf : text) (state codep : Z) (s : text) : writing :=
  match s with
  | [] => if Z.eqb state 0 then (buf, false) else ([], true)
  | c :: r =>
      let (state', codep') := utf8_decode state codep (byte c) in
      if Z.eqb state' 0 then
        let buf' := buf ++ escaped codep' c in
        if Z.ltb (512 - Z.of_nat (length buf')) 13 then put buf' >>> emit_escaped [] state' codep' r
        else emit_escaped buf' state' codep' r
      else if Z.eqb state' 1 then ([], true)
      else emit_escaped (buf ++ [c]) state' codep' r
  end.
(** json.h:10888-10889, 10993-10998 *)
Definition emit_string (s : text) : writing := put [34] >>> emit_escaped [] 0 0 s >>> put [34].

Section Emit.
  Context {F : Type} (io : float_io F).

  (** json.h:10853-11047: dump, with pretty_print and an indent step of 2. *)
  Fixpoint emit (ind : nat) (j : json F) : writing :=
    match j with
    | JNull => put (txt "null"%string)
    | JBool true => put (txt "true"%string)
    | JBool false => put (txt "false"%string)
    | JInt z => put (int_to_string z)
    | JFloat x => put (dump_float io x)
    | JStr s => emit_string s
    | JArr [] => put (txt "[]"%string)
    | JArr l =>
        put [91; 10] >>>
        (fix go (l : list (json F)) : writing :=
           match l with
           | [] => put []
           | [v] => put (repeat 32 (2 + ind)) >>> emit (2 + ind) v
           | v :: r => put (repeat 32 (2 + ind)) >>> emit (2 + ind) v >>> put [44; 10] >>> go r
           end) l >>>
        put (10 :: repeat 32 ind ++ [93])
    | JObj [] => put (txt "{}"%string)
    | JObj m =>
        put [123; 10] >>>
        (fix go (m : list (text * json F)) : writing :=
           match m with
           | [] => put []
           | [(k, v)] => put (repeat 32 (2 + ind)) >>> emit_string k >>> put [58; 32] >>> emit (2 + ind) v
           | (k, v) :: r => put (repeat 32 (2 + ind)) >>> emit_string k >>> put [58; 32] >>> emit (2 + ind) v >>> put [44; 10] >>> go r
           end) m >>>
        put (10 :: repeat 32 ind ++ [125])
    end.
End Emit.

Section Save.
  Context (fl : fops) (io : float_io (F fl)) (lax : bool).
  Notation json := (json (F fl)).

  (** What a call of save leaves behind: the content of the file, and the exception if there is one. *)
  Definition effect : Type := text * option exn_kind.
  (** saver.h:42-47: the file is emptied when it is opened; std::endl is reached if dump returns. *)
  Definition file_effect (o : list (text * json)) : effect :=
    let (t, thrown) := emit io 0 (JObj o) in if thrown then (t, Some JsonType) else (t ++ [10], None).
  (** saver.h:15-39: the json value is made before the file is opened; [old] is the content until then. *)
  Definition save_effect (old : text) (info : outcome (list (text * json))) : outcome effect :=
    match info with
    | Ok o => Ok (file_effect o)
    | Throw e => Ok (old, Some e)
    | UB k => UB k
    | NoTerm => NoTerm
    end.
  (** saver.h:15-19; 28-32; 34-39. *)
  Definition stream_effect (old : text) (z : stream fl) : outcome effect := save_effect old (base_info fl lax None z).
  Definition vgram_effect (old : text) (v : vgram fl) : outcome effect := stream_effect old (vs v).
  Definition tstream_effect (old : text) (z : tstream fl) : outcome effect := save_effect old (base_info fl lax (Some (ttok z)) (tst z)).
  Definition tvgram_effect (old : text) (v : tvgram fl) : outcome effect :=
    save_effect old (o <- base_info fl lax (Some (tvtok v)) (vs (tv v)) ;; Ok (fitted_info fl o (tv v))).
End Save.
