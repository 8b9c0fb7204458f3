(** SpecLoad: what a json value has to look like to be read as a model. *)
From Coq Require Import Ascii String.
From Verif Require Import Base FloatOps ModelTok ModelJson SpecPersist.
Local Open Scope Z_scope.
Local Open Scope list_scope.

(** The symbols that the codes of a word stand for, given the list of symbols in the file. *)
Definition decoded (codes : list Z) (w : seq) : seq := map (fun k => nth (Z.to_nat k) codes 0) w.
Definition known_codes (codes : list Z) (w : seq) : Prop := Forall (fun k => 0 <= k < Z.of_nat (length codes)) w.

Section S.
  Context (fl : fops).
  Notation json := (json (F fl)).

  (** A value that is read as the int [n]: an integer modulo 2^32, a number with a fraction cut to an integer, true and false. *)
  Inductive reads_int : json -> Z -> Prop :=
  | ri_int z n k : int32 n -> z = n + k * 2 ^ 32 -> reads_int (JInt z) n
  | ri_float x : int32 (ftrunc fl x) -> reads_int (JFloat x) (ftrunc fl x)
  | ri_bool b : reads_int (JBool b) (if b then 1 else 0).
  Inductive reads_double : json -> F fl -> Prop :=
  | rd_int z : reads_double (JInt z) (fofZ fl z)
  | rd_float x : reads_double (JFloat x) x.

  (** What a loop over a value visits. *)
  Definition visited (j : json) : list json := match j with JNull => [] | JArr l => l | JObj m => map snd m | _ => [j] end.
  Definition elements (m : list (text * json)) (k : text) : list json := match ofind m k with Some j => visited j | None => [] end.

  (** An entry of the alphabet: an object with frequency [f] and word [w]. *)
  Definition entry (j : json) (f : Z) (w : seq) : Prop :=
    exists m jf l, j = JObj m /\ ofind m (txt "freq"%string) = Some jf /\ reads_int jf f /\
      ofind m (txt "vec"%string) = Some (JArr l) /\ Forall2 reads_int l w.
  (** A model file. *)
  Definition model_file (j : json) (size : Z) (mp : F fl) (codes : list Z) (words : list (Z * seq)) : Prop :=
    exists m js jm, j = JObj m /\ ofind m (txt "size"%string) = Some js /\ reads_int js size /\
      ofind m (txt "min_prob"%string) = Some jm /\ reads_double jm mp /\
      Forall2 reads_int (elements m (txt "coder"%string)) codes /\
      Forall2 (fun e p => entry e (fst p) (snd p)) (elements m (txt "alphabet"%string)) words.

  (** The two things in a json value that make loading undefined: an entry that lacks a key, ... *)
  Definition incomplete (keys : list text) (j : json) : Prop :=
    exists m o k, j = JObj m /\ In (JObj o) (elements m (txt "alphabet"%string)) /\ ofind o k = None /\ In k keys.
  Definition int_keys : list text := [txt "freq"; txt "vec"]%string.
  Definition text_keys : list text := [txt "freq"; txt "vec"; txt "text"]%string.
  (** ... and a number outside int that is not written as an integer. *)
  Inductive inside : json -> json -> Prop :=
  | in_here j : inside j j
  | in_arr j l v : In v l -> inside j v -> inside j (JArr l)
  | in_obj j m k v : In (k, v) m -> inside j v -> inside j (JObj m).
  Definition huge (j : json) : Prop := exists x, inside (JFloat x) j /\ ~ int32 (ftrunc fl x).

  (** How a load function may end. *)
  Definition ends {A} (keys : list text) (j : json) (o : outcome A) : Prop :=
    match o with
    | Ok _ | Throw _ => True
    | UB EndDeref => incomplete keys j
    | UB BadCast => huge j
    | _ => False
    end.
End S.
