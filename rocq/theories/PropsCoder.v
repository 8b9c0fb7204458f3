(** PropsCoder: properties C16-C19 of the symbol coder (seq_coder.cc). *)
From Verif Require Import Base ModelCoder SpecCoder CoderProofs.

(** C16 *)
Theorem C16_decode_encode : forall ins outs c s v c1 c2,
  coder_history ins outs c -> encode c s = (v, c1) -> coder_later c1 c2 -> decode c2 v = Ok s.
Proof. exact coder_roundtrip. Qed.
Print Assumptions C16_decode_encode.

Example C16_case : exists c c1 c2, coder_history [[7; 5; 7]]%Z [[0; 1; 0]]%Z c /\
  encode c [9; 5]%Z = ([2; 1]%Z, c1) /\ coder_later c1 c2 /\ c2 <> c1 /\ decode c2 [2; 1]%Z = Ok [9; 5]%Z.
Proof.
  do 3 eexists. split; [apply (ch_encode [] [] new_coder [7; 5; 7]%Z); [constructor|reflexivity]|].
  split; [reflexivity|]. split.
  - eapply cl_step with (s := [100]%Z); [apply cl_refl|reflexivity].
  - split; [discriminate|reflexivity].
Qed.

(** C17 *)
Theorem C17_codes_dense : forall ins outs c z, coder_history ins outs c ->
  ((exists o, In o outs /\ In z o) <->
   (0 <= z < Z.of_nat (length (nodup Z.eq_dec (concat ins))))%Z).
Proof. exact coder_dense. Qed.
Print Assumptions C17_codes_dense.

Theorem C17_first_occurrence_order : forall ins outs c s v c',
  coder_history ins outs c -> encode c s = (v, c') ->
  Forall2 (fun x z => exists n, z = Z.of_nat n /\ nth_new (concat ins ++ s) n x) s v.
Proof. exact coder_first_occurrence. Qed.
Print Assumptions C17_first_occurrence_order.

Theorem C17_codes_stable : forall ins outs c s v c1 c2,
  coder_history ins outs c -> encode c s = (v, c1) -> coder_later c1 c2 -> encode c2 s = (v, c2).
Proof. exact coder_stable. Qed.
Print Assumptions C17_codes_stable.

Example C17_case : exists c, coder_history [[7; 5; 7]; [5; 9]]%Z [[0; 1; 0]; [1; 2]]%Z c /\
  nth_new [7; 5; 7; 5; 9]%Z 2 9%Z.
Proof.
  eexists. split.
  - eapply (ch_encode [[7; 5; 7]]%Z [[0; 1; 0]]%Z);
      [apply (ch_encode [] [] new_coder [7; 5; 7]%Z); [constructor|reflexivity]|reflexivity].
  - exists [7; 5; 7; 5]%Z, []. split; [reflexivity|]. split; [simpl; intuition discriminate|reflexivity].
Qed.

(** C18 *)
Theorem C18_drops_unknown : forall ins outs c s, coder_history ins outs c ->
  exists known, (forall x, In x known -> In x (concat ins)) /\
    known = filter (fun x => if in_dec Z.eq_dec x (concat ins) then true else false) s /\
    encode c known = (encode_immutable c s, c).
Proof. exact coder_immutable. Qed.
Print Assumptions C18_drops_unknown.

Theorem C18_all_known : forall ins outs c s, coder_history ins outs c ->
  (forall x, In x s -> In x (concat ins)) -> encode c s = (encode_immutable c s, c).
Proof. exact coder_immutable_all. Qed.
Print Assumptions C18_all_known.

Example C18_case : exists c, coder_history [[7; 5]]%Z [[0; 1]]%Z c /\
  encode_immutable c [5; 8; 7; 9]%Z = [1; 0]%Z.
Proof.
  eexists. split; [apply (ch_encode [] [] new_coder [7; 5]%Z); [constructor|reflexivity]|reflexivity].
Qed.

(** C19 *)
Theorem C19_decode_throws_exactly : forall ins outs c v, coder_history ins outs c ->
  (decode c v = Throw OutOfRange <-> exists z, In z v /\ forall o, In o outs -> ~ In z o) /\
  (decode c v = Throw OutOfRange \/ exists s, decode c v = Ok s /\ encode c s = (v, c)).
Proof. exact coder_decode_throws. Qed.
Print Assumptions C19_decode_throws_exactly.

Example C19_case : exists c, coder_history [[7; 5]]%Z [[0; 1]]%Z c /\
  decode c [1; 2; 0]%Z = Throw OutOfRange /\ decode c [-1]%Z = Throw OutOfRange /\
  decode c [1; 0]%Z = Ok [5; 7]%Z.
Proof.
  eexists. split; [apply (ch_encode [] [] new_coder [7; 5]%Z); [constructor|reflexivity]|].
  repeat split; reflexivity.
Qed.
