(** Properties of loading arbitrary files. *)
From Coq Require Import Ascii String Permutation.
From Verif Require Import Base Spec FloatOps FloatExample ModelTok ModelStream ModelVGram ModelString ModelJson ModelPersist SpecPersist SpecLoad LoadProofs LoadFlags.
Local Open Scope Z_scope.
Local Open Scope list_scope.

(** C67: a text that is not json is rejected by every load function with a parse error. *)
Theorem C67_not_json : forall fl (io : float_io (F fl)) file, (forall j, parse io file <> Ok j) ->
  load_stream fl io file = Throw JsonParse /\ load_vgram fl io file = Throw JsonParse /\
  load_tstream fl io file = Throw JsonParse /\ load_tvgram fl io file = Throw JsonParse.
Proof. exact not_json. Qed.
Print Assumptions C67_not_json.

(** Every json text is loaded or rejected with an exception, with two exceptions: an entry of the alphabet that lacks a key,
    and a number with a fraction or exponent that is outside int. See [ends]. *)
Theorem C67_ends : forall fl (io : float_io (F fl)) file j, parse io file = Ok j ->
  ends fl int_keys j (load_stream fl io file) /\ ends fl int_keys j (load_vgram fl io file) /\
  ends fl text_keys j (load_tstream fl io file) /\ ends fl text_keys j (load_tvgram fl io file).
Proof. exact load_ends. Qed.
Print Assumptions C67_ends.

(** What load_stream accepts are the model files; the other direction is C68. *)
Theorem C67_accepts : forall fl (io : float_io (F fl)) file z, load_stream fl io file = Ok z ->
  exists j size mp codes words, parse io file = Ok j /\ model_file fl j size mp codes words.
Proof. exact loads_only. Qed.
Print Assumptions C67_accepts.

(** A file loads as IntVGram exactly if it loads as a stream and its two flags are there and are true or false. *)
Theorem C67_flags : forall fl (io : float_io (F fl)) file v, load_vgram fl io file = Ok v <->
  exists m, parse io file = Ok (JObj m) /\ load_stream fl io file = Ok (vs v) /\ viter v = 0 /\
    ofind m (txt "fitted") = Some (JBool (vfitted v)) /\ ofind m (txt "freqs_computed") = Some (JBool (vcomputed v)).
Proof. exact flags_needed. Qed.
Print Assumptions C67_flags.

(** To load as a text class, every entry with a single code needs a text. *)
Theorem C67_texts : forall fl (io : float_io (F fl)) file,
  let labelled := exists m, parse io file = Ok (JObj m) /\ forall o l, In (JObj o) (elements fl m (txt "alphabet")) -> ofind o (txt "vec") = Some (JArr l) ->
    length l = 1%nat -> exists s, ofind o (txt "text") = Some (JStr s) in
  (forall t, load_tstream fl io file = Ok t -> load_stream fl io file = Ok (tst t) /\ labelled) /\
  (forall t, load_tvgram fl io file = Ok t -> load_vgram fl io file = Ok (tv t) /\ labelled).
Proof. exact (fun fl io file => conj (text_stream_needed fl io file) (text_vgram_needed fl io file)). Qed.
Print Assumptions C67_texts.

(** A file with everything, and what is missing when it loads as some classes only. *)
Definition full_file (flag1 text1 : string) : text := txt ("{""alphabet"": [{""freq"": 2, ""vec"": [0], ""text"": ""a""}, {""freq"": 7, ""vec"": [1], ""text"": " ++ text1 ++
  "}], ""size"": 5, ""min_prob"": 1, ""coder"": [5, 8], ""freqs_computed"": true, ""fitted"": " ++ flag1 ++ "}")%string.
Definition loads {A} (o : outcome A) : bool := match o with Ok _ => true | _ => false end.
Example C67_flags_case : forall fl (io : float_io (F fl)), let f := full_file in
  map (fun file => (loads (load_stream fl io file), loads (load_vgram fl io file), loads (load_tstream fl io file), loads (load_tvgram fl io file)))
    [f "true" """b"""; f "null" """b"""; f "false" "3"; f "1" "null"]%string =
  [(true, true, true, true); (true, false, true, false); (true, true, false, false); (true, false, false, false)].
Proof. intros fl io. vm_compute. reflexivity. Qed.

Definition bare_file : text := txt "{""size"": 5, ""min_prob"": 1, ""coder"": [5, 8], ""alphabet"": [{""vec"": [0]}]}".
Theorem C67_refuted_missing : forall fl (io : float_io (F fl)), load_stream fl io bare_file = UB EndDeref /\ load_tstream fl io bare_file = UB EndDeref.
Proof. intros fl io. split; vm_compute; reflexivity. Qed.
Print Assumptions C67_refuted_missing.

Definition huge_file : text := txt "{""size"": 1e10, ""min_prob"": 1}".
Theorem C67_refuted_huge : forall fl x, ftrunc fl x = 10 ^ 10 ->
  load_stream fl {| io_show := fun _ => None; io_read := fun t => if seq_eqb t (txt "1e10") then Some x else None |} huge_file = UB BadCast.
Proof.
  intros fl x Ht. unfold load_stream, read_dict_json.
  assert (E : parse {| io_show := fun _ => None; io_read := fun t => if seq_eqb t (txt "1e10") then Some x else None |} huge_file =
    Ok (JObj [(txt "min_prob", JInt 1); (txt "size", JFloat x)])) by (vm_compute; reflexivity).
  rewrite E. cbn [bind]. unfold read_dict. cbn [jfield bind]. change (ofind _ (txt "size")) with (Some (@JFloat (F fl) x)). cbn [bind get_int]. rewrite Ht. reflexivity.
Qed.
Print Assumptions C67_refuted_huge.

Definition good_file : text :=
  txt "{""alphabet"": [{""freq"": 2, ""vec"": [0]}, {""freq"": 7, ""vec"": [1]}], ""size"": 4294967301, ""min_prob"": 1, ""coder"": [5, 8]}".
Definition good_json {A} : json A :=
  JObj [(txt "alphabet", JArr [JObj [(txt "freq", JInt 2); (txt "vec", JArr [JInt 0])]; JObj [(txt "freq", JInt 7); (txt "vec", JArr [JInt 1])]]);
        (txt "coder", JArr [JInt 5; JInt 8]); (txt "min_prob", JInt 1); (txt "size", JInt 4294967301)].
Example C67_case : (forall fl (io : float_io (F fl)), parse io good_file = Ok good_json /\
    model_file fl good_json 5 (fofZ fl 1) [5; 8] [(2, [0]); (7, [1])]) /\
  (forall fl (io : float_io (F fl)) j, parse io (txt "{""size"": 5,}") <> Ok j) /\ ~ incomplete exf int_keys good_json /\ ~ huge exf good_json /\
  exists x, ftrunc exf x = 10 ^ 10.
Proof.
  split; [|split; [|split; [|split]]].
  - intros fl io. split; [vm_compute; reflexivity|].
    assert (Hr : forall n, int32 n -> reads_int fl (JInt n) n) by (intros n Hn; apply (ri_int fl n n 0 Hn); lia).
    assert (He : forall n, -5 <= n <= 10 -> int32 n) by (unfold int32; lia).
    eexists _, _, _. split; [reflexivity|]. split; [reflexivity|]. split; [apply (ri_int fl _ 5 1); [apply He; lia|reflexivity]|]. split; [reflexivity|]. split; [constructor|]. split.
    + repeat constructor; apply Hr, He; lia.
    + constructor; [|constructor; [|constructor]]; cbn [fst snd]; eexists _, _, _; (split; [reflexivity|]); (split; [reflexivity|]); (split; [apply Hr, He; lia|]);
        (split; [reflexivity|]); repeat constructor; apply Hr, He; lia.
  - intros fl io j. vm_compute. discriminate.
  - intros (m & o & k & E & Hi & Hn & Hk). injection E as <-. cbn in Hi, Hk. destruct Hi as [E|[E|[]]]; injection E as <-; destruct Hk as [<-|[<-|[]]]; discriminate Hn.
  - intros (x & Hx & _). repeat (match goal with H : inside _ _ _ |- _ => inversion H; clear H; subst end; cbn in *;
      repeat match goal with H : _ \/ _ |- _ => destruct H as [H|H] | H : False |- _ => destruct H | H : (_, _) = (_, _) |- _ => injection H as <- <- | H : JArr _ = _ |- _ => subst | H : JObj _ = _ |- _ => subst
        | H : JInt _ = _ |- _ => subst end).
  - exists (fofZ exf (10 ^ 10)). vm_compute. reflexivity.
Qed.

(** C68: the loaded stream has the size, the minimum probability and the frequencies of the file, and its words in
    lexicographic order of the codes; if the file has them in this order, every word has its own frequency. *)
Theorem C68_pairs : forall fl (io : float_io (F fl)) file j size mp codes words, parse io file = Ok j -> model_file fl j size mp codes words ->
  exists z, load_stream fl io file = Ok z /\ zsize z = size /\ zminp z = Some mp /\ s_freqs fl z = map fst words /\
    (NoDup codes -> Forall (fun p => known_codes codes (snd p)) words ->
      exists al, s_alphabet fl z = Ok al /\ Permutation al (map (fun p => decoded codes (snd p)) words) /\
        (sorted (map snd words) -> al = map (fun p => decoded codes (snd p)) words)).
Proof. exact loads_model. Qed.
Print Assumptions C68_pairs.

(** In any other order the frequencies go to the wrong words: the file says 7 for the word 8 and 2 for the word 5. *)
Definition swapped_file : text :=
  txt "{""alphabet"": [{""freq"": 7, ""vec"": [1]}, {""freq"": 2, ""vec"": [0]}], ""size"": 5, ""min_prob"": 1, ""coder"": [5, 8]}".
Theorem C68_refuted_order : forall fl (io : float_io (F fl)), exists z, load_stream fl io swapped_file = Ok z /\
  s_alphabet fl z = Ok [[5]; [8]] /\ s_freqs fl z = [7; 2].
Proof. intros fl io. eexists. split; [vm_compute; reflexivity|]. split; vm_compute; reflexivity. Qed.
Print Assumptions C68_refuted_order.

Example C68_case : exists z, load_stream exf {| io_show := fun _ => None; io_read := fun _ => None |} good_file = Ok z /\ s_alphabet exf z = Ok [[5]; [8]] /\ s_freqs exf z = [2; 7].
Proof.
  destruct C67_case as [H _]. destruct (H exf {| io_show := fun _ => None; io_read := fun _ => None |}) as [Ej Hm].
  destruct (C68_pairs exf _ _ _ _ _ _ _ Ej Hm) as (z & Hz & _ & _ & Hf & Ha). exists z. split; [exact Hz|]. split; [|exact Hf].
  assert (Hn : NoDup [5; 8]) by (repeat constructor; cbn; lia).
  assert (Hk : Forall (fun p : Z * seq => known_codes [5; 8] (snd p)) [(2, [0]); (7, [1])]) by (repeat constructor; cbn; lia).
  destruct (Ha Hn Hk) as (al & Hal & _ & Hs). rewrite Hal, Hs; [reflexivity|].
  constructor; [repeat constructor|]. constructor; [|constructor]. right. right. clear. exists [], 0, 1, [], []. repeat split.
Qed.
