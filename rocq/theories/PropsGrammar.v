(** Properties of the json reader: which texts are read, and as what. *)
From Coq Require Import Ascii String Sorted Permutation.
From Verif Require Import Base FloatOps ModelTok ModelJson ModelPersist SpecVGram SpecJson SpecSave SpecPersist SpecGrammar FloatExample PropsGrammarLemmas PropsPersist.
Local Open Scope Z_scope.
Local Open Scope list_scope.

(** C79: a file that begins with a json text, as RFC 8259 defines it, is read as the value of this text. *)
Theorem C79_reads : forall F (io : float_io F) s v rest, chars s -> file_text io s v rest -> apart_from v rest -> parse io s = Ok v.
Proof. exact @file_reads. Qed.
Print Assumptions C79_reads.
(** No other text is read. *)
Theorem C79_only : forall F (io : float_io F) s v, chars s -> parse io s = Ok v -> exists rest, file_text io s v rest.
Proof. exact @file_only. Qed.
Print Assumptions C79_only.
Theorem C79_rejects : forall fl (io : float_io (F fl)) s, chars s -> (forall v rest, ~ file_text io s v rest) ->
  load_stream fl io s = Throw JsonParse /\ load_vgram fl io s = Throw JsonParse /\ load_tstream fl io s = Throw JsonParse /\ load_tvgram fl io s = Throw JsonParse.
Proof. exact no_text. Qed.
Print Assumptions C79_rejects.
(** How the value is written makes no difference for the load functions. *)
Theorem C79_same : forall fl (io : float_io (F fl)) s s' v rest rest', chars s -> chars s' -> file_text io s v rest -> apart_from v rest -> file_text io s' v rest' -> apart_from v rest' ->
  load_stream fl io s = load_stream fl io s' /\ load_vgram fl io s = load_vgram fl io s' /\
  load_tstream fl io s = load_tstream fl io s' /\ load_tvgram fl io s = load_tvgram fl io s'.
Proof. exact same_text. Qed.
Print Assumptions C79_same.
(** Nor does the order of members with different names. *)
Theorem C79_order : forall fl (io : float_io (F fl)) t kvs t' kvs' rest rest', members_text io t kvs -> members_text io t' kvs' -> NoDup (map fst kvs) -> Permutation kvs kvs' ->
  chars t -> chars t' -> chars rest -> chars rest' ->
  load_stream fl io (123 :: t ++ 125 :: rest) = load_stream fl io (123 :: t' ++ 125 :: rest') /\ load_vgram fl io (123 :: t ++ 125 :: rest) = load_vgram fl io (123 :: t' ++ 125 :: rest') /\
  load_tstream fl io (123 :: t ++ 125 :: rest) = load_tstream fl io (123 :: t' ++ 125 :: rest') /\ load_tvgram fl io (123 :: t ++ 125 :: rest) = load_tvgram fl io (123 :: t' ++ 125 :: rest').
Proof. exact same_order. Qed.
Print Assumptions C79_order.
(** What the save functions write is such a text, and a newline. *)
Theorem C79_saved : forall fl (io : float_io (F fl)) file, saved_file fl io file -> exists m, file_text io file (JObj m) [10] /\ chars file.
Proof. exact saved_text. Qed.
Print Assumptions C79_saved.

Lemma chars_by s : forallb (fun c => Z.leb (-128) c && Z.ltb c 128)%bool s = true -> chars s.
Proof. intro H. apply Forall_forall. intros c Hc. rewrite forallb_forall in H. specialize (H c Hc). apply andb_prop in H as [H1 H2]. apply Z.leb_le in H1. apply Z.ltb_lt in H2. lia. Qed.
(** A byte order mark, a name that occurs twice, once with an escape, a surrogate pair, and something behind. *)
Definition odd_text : text := [-17; -69; -65; 10] ++ txt "{""a"":0,""\u0061"" : [ ""\ud83d\uDE00/\/"" ]}" ++ [0; 34].
Example C79_case : forall F (io : float_io F), let v := JObj [([97], JArr [JStr [-16; -97; -104; -128; 47; 47]])] in
  chars odd_text /\ file_text io odd_text v [0; 34] /\ apart_from v [0; 34] /\ parse io odd_text = Ok v.
Proof.
  intros F io v. assert (C : chars odd_text) by (apply chars_by; reflexivity). split; [exact C|].
  assert (P : forall c t s, 32 <= c < 128 -> c <> 34 -> c <> 92 -> string_text t s -> string_text (c :: t) (c :: s)).
  { intros c t s H1 H2 H3 H. apply (st_plain [c]); trivial.
    - cbn. rewrite Z.mod_small by lia. constructor. lia.
    - intros a [= <-]. rewrite Z.mod_small by lia. lia. }
  assert (T : file_text io odd_text v [0; 34]).
  { exists [-17; -69; -65], [10], (txt "{""a"":0,""\u0061"" : [ ""\ud83d\uDE00/\/"" ]}"). split; [reflexivity|].
    split; [right; reflexivity|]. split; [repeat constructor; lia|].
    change (txt "{""a"":0,""\u0061"" : [ ""\ud83d\uDE00/\/"" ]}") with (123 :: ([] ++ 34 :: [97] ++ 34 :: [] ++ 58 :: [] ++ [48] ++ [] ++ 44 ::
      ([] ++ 34 :: (92 :: 117 :: [48; 48; 54; 49] ++ []) ++ 34 :: [32] ++ 58 :: [32] ++ (91 :: ([32] ++ (34 :: (92 :: 117 :: [100; 56; 51; 100] ++ 92 :: 117 :: [68; 69; 48; 48] ++ [47; 92; 47]) ++ [34]) ++ [32]) ++ [93]) ++ [])) ++ [125]).
    apply vt_obj with [([97], JInt 0); ([97], JArr [JStr [-16; -97; -104; -128; 47; 47]])].
    - apply mt_more; try (repeat constructor; lia).
      + apply P; try lia. constructor.
      + apply vt_int; [|unfold fits; lia]. left. repeat split; try discriminate. repeat constructor; unfold digit; lia.
      + apply mt_last; try (repeat constructor; lia).
        * apply (st_code [48; 48; 54; 49] 97 [97] [] []); [|lia|repeat constructor; lia|reflexivity|constructor].
          exists 48, 48, 54, 49, 0, 0, 6, 1. unfold hex_digit. repeat split; lia.
        * apply vt_arr, et_last; try (repeat constructor; lia). apply vt_str.
          apply (st_pair [100; 56; 51; 100] 55357 [68; 69; 48; 48] 56832 [-16; -97; -104; -128] [47; 92; 47] [47; 47]); try lia; try reflexivity.
          -- exists 100, 56, 51, 100, 13, 8, 3, 13. unfold hex_digit. repeat split; lia.
          -- exists 68, 69, 48, 48, 13, 14, 0, 0. unfold hex_digit. repeat split; lia.
          -- repeat constructor; lia.
          -- apply P; try lia. apply (st_letter 47 47); [cbn; tauto|constructor].
    - split; [repeat constructor|]. intros k x. split.
      + intros [[= <- <-]|[]]. exists [([97], JInt 0)], []. split; [reflexivity|intros []].
      + intros (pre & post & E & N). destruct pre as [|p [|q pre]]; injection E as; subst; cbn in N; [tauto|now left|]. destruct pre; discriminate. }
  split; [exact T|]. split; [exact I|]. exact (C79_reads F io odd_text v _ C T I).
Qed.
Example C79_order_case : forall F (io : float_io F), exists t kvs t' kvs', members_text io t kvs /\ members_text io t' kvs' /\ NoDup (map fst kvs) /\ Permutation kvs kvs' /\ kvs <> kvs' /\ chars t /\ chars t'.
Proof.
  intros F io. pose (a := [97] : text). pose (b := [98] : text). pose (N := [110; 117; 108; 108] : text).
  assert (P : forall c, 97 <= c <= 98 -> string_text [c] [c]).
  { intros c H. apply (st_plain [c] [] []); [cbn; rewrite Z.mod_small by lia; constructor; lia| |constructor]. intros x [= <-]. rewrite Z.mod_small by lia. lia. }
  exists ([] ++ 34 :: a ++ 34 :: [] ++ 58 :: [] ++ N ++ [] ++ 44 :: ([] ++ 34 :: b ++ 34 :: [] ++ 58 :: [] ++ [116; 114; 117; 101] ++ [])), [(a, JNull); (b, JBool true)],
    ([] ++ 34 :: b ++ 34 :: [] ++ 58 :: [] ++ [116; 114; 117; 101] ++ [] ++ 44 :: ([] ++ 34 :: a ++ 34 :: [] ++ 58 :: [] ++ N ++ [])), [(b, JBool true); (a, JNull)].
  repeat split.
  - apply mt_more; try constructor; try (apply P; lia); try constructor. all: try (apply P; lia).
  - apply mt_more; try constructor; try (apply P; lia); try constructor. all: try (apply P; lia).
  - repeat constructor; cbn; intuition discriminate.
  - apply perm_swap.
  - discriminate.
  - repeat constructor; lia.
  - repeat constructor; lia.
Qed.
Example C79_rejects_case : forall F (io : float_io F) v rest, chars (txt "{""size"": 5,}") /\ ~ file_text io (txt "{""size"": 5,}") v rest.
Proof.
  intros F io v rest. assert (C : chars (txt "{""size"": 5,}")) by (apply chars_by; reflexivity). split; [exact C|]. intro H. destruct v.
  all: try (apply (C79_reads F io _ _ _ C) in H; [vm_compute in H; discriminate|exact I]).
  all: destruct H as (bom & w & t & E & Hb & Hw & Ht).
  all: assert (bom = []) by (destruct Hb as [|Hb]; [assumption|]; destruct bom as [|y bom]; [reflexivity|]; injection E as <-; vm_compute in Hb; discriminate); subst bom; cbn [app] in E.
  all: assert (w = []) by (destruct w as [|y w]; [reflexivity|]; injection E as <-; inversion Hw; subst; lia); subst w; cbn [app] in E.
  all: inversion Ht as [| | |t0 z0 L _|t0 z0 x0 L _ _|t0 x0 L _| | | | |]; subst.
  1,2: destruct L as [L|(i & n & -> & L & _)]; [|discriminate E]; destruct L as (Ne & Hd & _); destruct t as [|y t]; [now elim Ne|]; injection E as <-; inversion Hd; unfold digit in *; lia.
  destruct L as (m & i & fr & ex & -> & [-> | ->] & [n (Ne & Hd & _)] & _); [|discriminate E]. destruct i as [|y i]; [now elim Ne|]. injection E as <-. inversion Hd; unfold digit in *. lia.
Qed.
Example C79_saved_case : exists io file, saved_file exf io file.
Proof. exact C54_case. Qed.
