(** ModelPersist: core/src/main/cpp/interfaces/saver.h and loader.h, and the save functions that call them.
    A file is its content; a file that cannot be opened reads as empty. Writing is taken to succeed (the state of the
    stream is never checked by the code). *)
From Coq Require Import Ascii String.
From Verif Require Import Base FloatOps ModelDict ModelCoder ModelTok Maps ModelStat ModelBuilder ModelStream ModelVGram ModelString ModelJson.
Local Open Scope Z_scope.
Local Open Scope list_scope.

(** static_cast<int> of a 64-bit integer. *)
Definition wrap32 (z : Z) : Z := (z + 2 ^ 31) mod 2 ^ 32 - 2 ^ 31.

(** saver.h:64-65: std::sort by code. The codes are distinct, so that the order is unique. *)
Fixpoint ins_code (p : Z * Z) (l : list (Z * Z)) : list (Z * Z) :=
  match l with
  | [] => [p]
  | q :: t => if Z.ltb (snd q) (snd p) then q :: ins_code p t else p :: l
  end.
Definition sort_codes (l : list (Z * Z)) : list (Z * Z) := fold_right ins_code [] l.

Section Persist.
  Context (fl : fops) (io : float_io (F fl)).
  (** saver.h:63: `pairs(coder->code_map().begin(), coder->code_map().end())`; code_map() returns a copy, so that the two iterators
      belong to different containers. By the standard that is undefined behaviour ([lax] = false). With libstdc++ the end
      iterator of every std::unordered_map is the same null pointer, and the range is the first copy ([lax] = true). *)
  Context (lax : bool).
  Notation json := (json (F fl)).

  (** json j; j.push_back(..): null if nothing is added. *)
  Definition pushed (l : list json) : json := match l with [] => JNull | _ => JArr l end.

  (** saver.h:62-71 *)
  Definition coder_to_json (c : coder) : outcome json :=
    if lax then Ok (pushed (map (fun p => JInt (fst p)) (sort_codes (code_map c)))) else UB MixedIters.

  (** saver.h:78-84: one word; [tok] is the tokenizer, [None] is nullptr. *)
  Definition word_json (tok : option tokenizer) (z : stream fl) (d : dict) (i : nat) : outcome json :=
    w <- get d i ;;
    f <- vget (s_freqs fl z) i ;;
    let o := oset (oset [] (txt "vec"%string) (JArr (map JInt w))) (txt "freq"%string) (JInt f) in
    match tok with
    | None => Ok (JObj o)
    | Some tk => v <- decode (zcoder z) w ;; Ok (JObj (oset o (txt "text"%string) (JStr (tok_decode tk v))))
    end.
  (** saver.h:73-88 *)
  Definition alphabet_to_json (tok : option tokenizer) (z : stream fl) : outcome json :=
    '(_, d) <- the_dict fl z ;;
    ws <- foldM (fun l i => w <- word_json tok z d i ;; Ok (l ++ [w])) (List.seq 0 (dsize d)) [] ;;
    Ok (pushed ws).

  (** saver.h:49-55. min_probability_ is uninitialized as long as dict_ is null ([None]); then the value written here does not
      matter, because the null pointer is dereferenced after it. *)
  Definition base_info (tok : option tokenizer) (z : stream fl) : outcome (list (text * json)) :=
    let o := oset [] (txt "size"%string) (JInt (zsize z)) in
    let o := oset o (txt "min_prob"%string) (match zminp z with Some x => JFloat x | None => JNull end) in
    c <- coder_to_json (zcoder z) ;;
    let o := oset o (txt "coder"%string) c in
    a <- alphabet_to_json tok z ;;
    Ok (oset o (txt "alphabet"%string) a).
  (** saver.h:57-60 *)
  Definition fitted_info (o : list (text * json)) (v : vgram fl) : list (text * json) :=
    oset (oset o (txt "fitted"%string) (JBool (vfitted v))) (txt "freqs_computed"%string) (JBool (vcomputed v)).
  (** saver.h:42-47: the content of the file. If dump throws, the file has been emptied and partly written (ModelSave.v). *)
  Definition write_to_file (o : list (text * json)) : outcome text := t <- dump io 0 (JObj o) ;; Ok (t ++ [10]).

  (** saver.h:15-19, called by int_stream_vgram.cc:71-73; its tokenizer argument is not used. IntVGram has no save of its own:
      bind_vgram.cc:50 binds the inherited one, and the overload is chosen for IntStreamVGram. *)
  Definition save_stream (z : stream fl) : outcome text := o <- base_info None z ;; write_to_file o.
  Definition save_vgram (v : vgram fl) : outcome text := save_stream (vs v).
  (** saver.h:28-32, string_stream_vgram.cc:66-68 *)
  Definition save_tstream (z : tstream fl) : outcome text := o <- base_info (Some (ttok z)) (tst z) ;; write_to_file o.
  (** saver.h:34-39, string_vgram.cc:47-49 *)
  Definition save_tvgram (v : tvgram fl) : outcome text :=
    o <- base_info (Some (tvtok v)) (vs (tv v)) ;; write_to_file (fitted_info o (tv v)).

  (** json.h:15535-15555: non-const operator[] with a key; null becomes an object, a missing key null. *)
  Definition jfield (j : json) (k : text) : outcome json :=
    match j with
    | JNull => Ok JNull
    | JObj m => Ok (match ofind m k with Some v => v | None => JNull end)
    | _ => Throw JsonType
    end.
  (** json.h:15585-15603: const operator[]; a missing key is undefined behaviour. *)
  Definition jmember (j : json) (k : text) : outcome json :=
    match j with
    | JObj m => match ofind m k with Some v => Ok v | None => UB EndDeref end
    | _ => Throw JsonType
    end.
  (** json.h:1455-1495: to int. A double that does not fit is undefined behaviour. *)
  Definition get_int (j : json) : outcome Z :=
    match j with
    | JInt z => Ok (wrap32 z)
    | JFloat x => let n := ftrunc fl x in if ((- 2 ^ 31 <=? n) && (n <? 2 ^ 31))%bool then Ok n else UB BadCast
    | JBool b => Ok (if b then 1 else 0)
    | _ => Throw JsonType
    end.
  (** json.h:1305-1309: to double. *)
  Definition get_double (j : json) : outcome (F fl) :=
    match j with JInt z => Ok (fofZ fl z) | JFloat x => Ok x | _ => Throw JsonType end.
  (** json.h:1269-1286: to bool and std::string. *)
  Definition get_bool (j : json) : outcome bool := match j with JBool b => Ok b | _ => Throw JsonType end.
  Definition get_string (j : json) : outcome text := match j with JStr s => Ok s | _ => Throw JsonType end.
  Fixpoint get_ints (l : list json) : outcome (list Z) :=
    match l with [] => Ok [] | j :: t => z <- get_int j ;; r <- get_ints t ;; Ok (z :: r) end.
  (** json.h:1378-1430: to IntSeq. *)
  Definition get_seq (j : json) : outcome seq := match j with JArr l => get_ints l | _ => Throw JsonType end.
  (** A range-based for loop: the elements of an array, the values of an object, nothing for null, else the value itself. *)
  Definition items (j : json) : list json := match j with JNull => [] | JArr l => l | JObj m => map snd m | _ => [j] end.

  (** loader.h:73-79 *)
  Definition read_dict_json (file : text) : outcome json := parse io file.
  (** loader.h:81-85 *)
  Definition read_coder (j : json) : outcome coder :=
    a <- jfield j (txt "coder"%string) ;;
    foldM (fun c x => n <- get_int x ;; Ok (snd (encode c [n]))) (items a) new_coder.
  (** loader.h:87-92 *)
  Definition read_alphabet (j : json) : outcome (list Z * list seq) :=
    a <- jfield j (txt "alphabet"%string) ;;
    foldM (fun p w =>
             f <- (x <- jmember w (txt "freq"%string) ;; get_int x) ;;
             v <- (x <- jmember w (txt "vec"%string) ;; get_seq x) ;;
             Ok (fst p ++ [f], snd p ++ [v])) (items a) ([], []).
  (** loader.h:59-71 *)
  Record model_data := mkData { md_coder : coder; md_freqs : list Z; md_words : list seq; md_size : Z; md_minp : F fl }.
  Definition read_dict (j : json) : outcome model_data :=
    size <- (x <- jfield j (txt "size"%string) ;; get_int x) ;;
    mp <- (x <- jfield j (txt "min_prob"%string) ;; get_double x) ;;
    c <- read_coder j ;;
    '(fs, ws) <- read_alphabet j ;;
    Ok (mkData c fs ws size mp).
  (** loader.h:13-21 *)
  Definition load_stream (file : text) : outcome (stream fl) :=
    j <- read_dict_json file ;; m <- read_dict j ;;
    loaded_stream fl (md_coder m) (md_freqs m) (md_words m) (md_size m) (md_minp m).
  (** loader.h:23-34 and 50-57 *)
  Definition load_vgram (file : text) : outcome (vgram fl) :=
    j <- read_dict_json file ;; m <- read_dict j ;;
    fitted <- (x <- jfield j (txt "fitted"%string) ;; get_bool x) ;;
    computed <- (x <- jfield j (txt "freqs_computed"%string) ;; get_bool x) ;;
    loaded_vgram fl (md_coder m) (md_freqs m) (md_words m) (md_size m) (md_minp m) fitted computed.
  (** loader.h:94-107: a later word with the same text overwrites; always a CharTokenizer. *)
  Definition load_tokenizer (file : text) (c : coder) : outcome tokenizer :=
    j <- read_dict_json file ;;
    a <- jfield j (txt "alphabet"%string) ;;
    m <- foldM (fun m w =>
                  v <- (x <- jmember w (txt "vec"%string) ;; get_seq x) ;;
                  vec <- decode c v ;;
                  match vec with
                  | [s] => key <- (x <- jmember w (txt "text"%string) ;; get_string x) ;; Ok (mset seq_eqb m key s)
                  | _ => Ok m
                  end) (items a) [] ;;
    Ok (tok_of_map CharTok m).
  (** loader.h:36-40 *)
  Definition load_tstream (file : text) : outcome (tstream fl) :=
    z <- load_stream file ;; tk <- load_tokenizer file (zcoder z) ;; tstream_of fl z tk false false.
  (** loader.h:42-47 *)
  Definition load_tvgram (file : text) : outcome (tvgram fl) :=
    v <- load_vgram file ;; tk <- load_tokenizer file (zcoder (vs v)) ;; Ok (mkTVGram v tk).
End Persist.
Arguments md_coder {fl}. Arguments md_freqs {fl}. Arguments md_words {fl}. Arguments md_size {fl}. Arguments md_minp {fl}. Arguments mkData {fl}.
