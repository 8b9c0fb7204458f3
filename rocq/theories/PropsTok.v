(** PropsTok: properties C20-C23 of the tokenizers. *)
From Coq Require Import String Permutation.
From Verif Require Import Base Maps ModelTok SpecTok CoderProofs TokProofs TokBatch.
Local Open Scope Z_scope.
Local Open Scope string_scope.

(** C20, when the right-hand side of the assignment is evaluated first. *)
Theorem C20_roundtrip : forall k t s ids t' t'',
  tok_history true (new_tok k) t -> tok_transform true t s = Ok (ids, t') -> tok_history true t' t'' ->
  exists n, normalize k s = Ok n /\ tok_decode t'' ids = concat (tokenize k n) /\
    tok_transform true t'' s = Ok (ids, t'').
Proof. exact tok_roundtrip. Qed.
Print Assumptions C20_roundtrip.

(** Many texts in one call: the ids are those that each text gets from then on, and decode gives the texts in order. *)
Theorem C20_batch : forall k ss t cs t' t'', tok_history true (new_tok k) t -> tok_transform_all true t ss = Ok (cs, t') -> tok_history true t' t'' ->
  Forall2 (fun s ids => exists n, normalize k s = Ok n /\ tok_decode t'' ids = concat (tokenize k n) /\ tok_transform true t'' s = Ok (ids, t'')) ss cs.
Proof. exact tok_batch. Qed.
Print Assumptions C20_batch.
Theorem C20_batch_again : forall k ss t cs t' t'', tok_history true (new_tok k) t -> tok_transform_all true t ss = Ok (cs, t') -> tok_history true t' t'' ->
  tok_transform_all true t'' ss = Ok (cs, t'') /\ Forall2 (fun s out => exists n, normalize k s = Ok n /\ out = concat (tokenize k n)) ss (tok_decode_all t'' cs).
Proof. exact batch_decode. Qed.
Print Assumptions C20_batch_again.
Example C20_batch_case : exists t, tok_transform_all true (new_tok CharTok) [txt "ab"; txt "ba"; txt "c"] = Ok ([[0; 1]; [1; 0]; [2]], t).
Proof. eexists. vm_compute. reflexivity. Qed.

(** With the other permitted evaluation order the ids of the two maps differ by one. *)
Theorem C20_refuted_lhs_first : exists t,
  tok_transform false (new_tok CharTok) (txt "ab") = Ok ([1; 2], t) /\
  normalize CharTok (txt "ab") = Ok (txt "ab") /\ tok_decode t [1; 2] = txt "b".
Proof. eexists. split; [vm_compute; reflexivity|]. split; vm_compute; reflexivity. Qed.
Print Assumptions C20_refuted_lhs_first.

Example C20_case : exists t t' t'', tok_history true (new_tok WordTok) t /\
  tok_transform true t (txt "to be or not to be") = Ok ([0; 1; 2; 3; 0; 1], t') /\
  tok_history true t' t'' /\ t'' <> t'.
Proof.
  do 3 eexists. split; [apply th_start|]. split; [vm_compute; reflexivity|]. split.
  - eapply th_step with (s := txt "more"); [apply th_start|vm_compute; reflexivity].
  - discriminate.
Qed.

(** C21 *)
Theorem C21_normal_form : forall s, ascii_text s ->
  exists n, normalize CharTok s = Ok n /\ normal_form s n /\
  (forall n', normal_form s n' -> n' = n) /\ normalize CharTok n = Ok n.
Proof. exact char_normalize. Qed.
Print Assumptions C21_normal_form.

Theorem C21_tokenize_chars : forall s,
  List.concat (tokenize CharTok s) = s /\ forall w, In w (tokenize CharTok s) -> List.length w = 1%nat.
Proof. exact char_tokens. Qed.
Print Assumptions C21_tokenize_chars.

Theorem C21_char_roundtrip : forall s t, ascii_text s -> tok_history true (new_tok CharTok) t ->
  exists n ids t', normalize CharTok s = Ok n /\ tok_transform true t s = Ok (ids, t') /\
    List.length ids = List.length n /\ tok_decode t' ids = n.
Proof. exact char_roundtrip. Qed.
Print Assumptions C21_char_roundtrip.

(** Outside ASCII the behaviour is undefined: isalnum is called on a negative char. *)
Theorem C21_refuted_non_ascii : forall s a c b, s = (a ++ c :: b)%list ->
  (forall x, In x a -> 0 <= x < 128) -> c < -1 ->
  forall rf t, tkind t = CharTok -> tok_transform rf t s = UB BadCtype.
Proof. exact char_non_ascii. Qed.
Print Assumptions C21_refuted_non_ascii.

Example C21_case : normalize CharTok (txt "Hi, Bob-42!") = Ok (txt "hibob42") /\
  ascii_text (txt "Hi, Bob-42!").
Proof.
  split; [vm_compute; reflexivity|]. apply ascii_check. vm_compute. reflexivity.
Qed.

(** C22 *)
Theorem C22_word_tokens : forall s,
  (forall w, In w (tokenize WordTok s) -> w <> [] /\ ~ In 32 (tl w)) /\
  (s = join (tokenize WordTok s) \/
   (s = (join (tokenize WordTok s) ++ [32])%list /\ last s 0 = 32)).
Proof. exact word_tokens. Qed.
Print Assumptions C22_word_tokens.

Theorem C22_normalize_identity : forall s, normalize WordTok s = Ok s.
Proof. exact word_normalize. Qed.
Print Assumptions C22_normalize_identity.

Example C22_case : tokenize WordTok (txt "to be  or ") = [txt "to"; txt "be"; txt " or"].
Proof. vm_compute. reflexivity. Qed.

(** C23, for maps whose ids are exactly 0..n-1. *)
Theorem C23_fresh_ids_dense : forall k m t s1 ids1 t1 t1' s2 ids2 t2 n1 n2 i j z,
  dense_map m ->
  tok_history true (tok_of_map k m) t -> tok_transform true t s1 = Ok (ids1, t1) ->
  tok_history true t1 t1' -> tok_transform true t1' s2 = Ok (ids2, t2) ->
  normalize k s1 = Ok n1 -> normalize k s2 = Ok n2 ->
  nth_error ids1 i = Some z -> nth_error ids2 j = Some z ->
  nth_error (tokenize k n1) i = nth_error (tokenize k n2) j.
Proof. exact tok_fresh_dense. Qed.
Print Assumptions C23_fresh_ids_dense.

Theorem C23_roundtrip_dense : forall k m t s ids t' t'', dense_map m ->
  tok_history true (tok_of_map k m) t -> tok_transform true t s = Ok (ids, t') ->
  tok_history true t' t'' ->
  exists n, normalize k s = Ok n /\ tok_decode t'' ids = List.concat (tokenize k n) /\
    tok_transform true t'' s = Ok (ids, t'').
Proof. exact tok_roundtrip_dense. Qed.
Print Assumptions C23_roundtrip_dense.

(** A map with a gap: the first new token gets an id already in use. *)
Theorem C23_refuted_sparse : exists t,
  tok_transform true (tok_of_map CharTok [(txt "a", 1)]) (txt "ab") = Ok ([1; 1], t).
Proof. eexists. vm_compute. reflexivity. Qed.
Print Assumptions C23_refuted_sparse.

Example C23_case : dense_map [(txt "b", 1); (txt "a", 0)] /\ exists t,
  tok_transform true (tok_of_map CharTok [(txt "b", 1); (txt "a", 0)]) (txt "abc") = Ok ([0; 1; 2], t).
Proof.
  split; [|eexists; vm_compute; reflexivity]. split.
  - repeat constructor; simpl; intuition discriminate.
  - simpl. apply perm_swap.
Qed.
