(** ModelCoder: core/src/main/cpp/interfaces/seq_coder.cc, class SeqCoder. *)
From Verif Require Import Base Maps.

(** seq_coder.h:24-25: forward_code_ (symbol -> code) and backward_code_ (code -> symbol). *)
Record coder := mkCoder { fwd : list (Z * Z); bwd : list (Z * Z) }.

(** seq_coder.cc:12-15: SeqCoder(). *)
Definition new_coder : coder := mkCoder [] [].

(** seq_coder.cc:20-25: one round of the loop of encode. `forward_code_[symbol]` on an absent key
    would insert 0; the preceding lines make the key present. *)
Definition encode_symbol (c : coder) (symbol : Z) : Z * coder :=
  let c1 :=
    match mfind Z.eqb (fwd c) symbol with
    | None =>
        let size := Z.of_nat (length (fwd c)) in
        mkCoder (mset Z.eqb (fwd c) symbol size) (mset Z.eqb (bwd c) size symbol)
    | Some _ => c
    end in
  match mfind Z.eqb (fwd c1) symbol with
  | Some v => (v, c1)
  | None => (0%Z, mkCoder (mset Z.eqb (fwd c1) symbol 0%Z) (bwd c1))
  end.

(** seq_coder.cc:17-28: encode. *)
Fixpoint encode (c : coder) (s : seq) : seq * coder :=
  match s with
  | [] => ([], c)
  | x :: t =>
      let (v, c1) := encode_symbol c x in
      let (vs, c2) := encode c1 t in
      (v :: vs, c2)
  end.

(** seq_coder.cc:30-38: encode_immutable. *)
Fixpoint encode_immutable (c : coder) (s : seq) : seq :=
  match s with
  | [] => []
  | x :: t =>
      match mfind Z.eqb (fwd c) x with
      | Some v => v :: encode_immutable c t
      | None => encode_immutable c t
      end
  end.

(** seq_coder.cc:40-47: decode; `.at` throws std::out_of_range. *)
Fixpoint decode (c : coder) (s : seq) : outcome seq :=
  match s with
  | [] => Ok []
  | x :: t =>
      match mfind Z.eqb (bwd c) x with
      | Some v => r <- decode c t ;; Ok (v :: r)
      | None => Throw OutOfRange
      end
  end.

(** seq_coder.cc:49-51: code_map. *)
Definition code_map (c : coder) : list (Z * Z) := fwd c.
