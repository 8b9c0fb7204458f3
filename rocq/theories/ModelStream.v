(** ModelStream: core/src/main/cpp/interfaces/vgram_builders/int_stream_vgram.cc, class IntStreamVGram.
    Printing (std::cout) is not modelled. *)
From Verif Require Import Base FloatOps ModelDict ModelCoder Maps ModelStat ModelBuilder.

(** std::accumulate(v.begin(), v.end(), 0) on ints.
    Simplification: ints are unbounded here. *)
Definition isum (l : list Z) : Z := fold_left Z.add l 0%Z.

Section Stream.
  Context (fl : fops).

  (** int_stream_vgram.h:46-53. dict_ is a pointer into the heap kept in the builder, [None] is nullptr.
      min_probability_ is not initialized by the constructor: [None]. *)
  Record stream := mkStream {
    zsize : Z;               (* size_ *)
    zb : builder fl;         (* *builder_ *)
    zdict : option nat;      (* dict_ *)
    zcoder : coder;          (* *coder_ *)
    zfreqs : list Z;         (* freqs_ *)
    ztotal : Z;              (* total_freqs_ *)
    zminp : option (F fl)    (* min_probability_ *)
  }.

  (** int_stream_vgram.cc:15-26 *)
  Definition new_stream (size : Z) : stream :=
    mkStream size (new_builder fl (size - 1)) None new_coder [] 0 None.

  (** int_stream_vgram.cc:83-97: the constructor used by loading. The builder has its own copy of the
      dictionary; dict_ points to a second one, which the builder does not know. *)
  Definition loaded_stream (c : coder) (freqs : list Z) (alphabet : list seq) (size : Z) (mp : F fl)
    : outcome stream :=
    d <- mk_dict alphabet ;;
    b <- new_builder_loaded fl d freqs alphabet mp ;;
    Ok (mkStream size
          (mkBuilder (bheap b ++ [d]) (bsize b) (bsymb b) (bptr b) (bcur b) (bres b) (bpop b)
             (bprob b) (bbest b) (bturns b))
          (Some (length (bheap b))) c freqs (isum freqs) (Some mp)).

  (** int_stream_vgram.cc:28-30 *)
  Definition s_accept (e : env fl) (z : stream) (s : seq) : outcome stream :=
    let (codes, c) := encode (zcoder z) s in
    b <- accept fl e (zb z) codes ;;
    Ok (mkStream (zsize z) b (zdict z) c (zfreqs z) (ztotal z) (zminp z)).

  (** dict_-> *)
  Definition the_dict (z : stream) : outcome (nat * dict) :=
    match zdict z with
    | None => UB NullDeref
    | Some p => d <- hget fl (zb z) p ;; Ok (p, d)
    end.
  Definition put_dict (z : stream) (p : nat) (d : dict) : stream :=
    mkStream (zsize z) (hput fl (zb z) p d) (zdict z) (zcoder z) (zfreqs z) (ztotal z) (zminp z).

  (** int_stream_vgram.cc:32-48. The copy made by alpha() is discarded. parse is const, but the
      dictionary behind dict_ may learn a symbol. *)
  Definition s_parse (z : stream) (s : seq) : outcome (list nat * stream) :=
    let q := encode_immutable (zcoder z) s in
    _ <- alpha fl (zb z) ;;
    '(p, d) <- the_dict z ;;
    '(ids, _, d') <- parse_weighted fl d q (zfreqs z) (fofZ fl (ztotal z)) [] ;;
    Ok (ids, put_dict z p d').

  (** int_stream_vgram.cc:50-57 *)
  Definition s_update (z : stream) : outcome stream :=
    let p := result_ptr fl (zb z) in
    match zdict z with
    | Some q => if Nat.eqb q p then Ok z
                else '(fs, b) <- result_freqs fl (zb z) (zfreqs z) ;;
                     Ok (mkStream (zsize z) b (Some p) (zcoder z) fs (isum fs) (Some (get_min_probability fl b)))
    | None => '(fs, b) <- result_freqs fl (zb z) (zfreqs z) ;;
              Ok (mkStream (zsize z) b (Some p) (zcoder z) fs (isum fs) (Some (get_min_probability fl b)))
    end.

  (** int_stream_vgram.cc:59-65; decode may throw. *)
  Fixpoint decode_all (c : coder) (ws : list seq) : outcome (list seq) :=
    match ws with
    | [] => Ok []
    | w :: t => v <- decode c w ;; r <- decode_all c t ;; Ok (v :: r)
    end.
  Definition s_alphabet (z : stream) : outcome (list seq) :=
    '(_, d) <- the_dict z ;; decode_all (zcoder z) (seqs d).

  (** int_stream_vgram.cc:67-69, 75-81: freqs, get_coder, get_dict are the fields. *)
  Definition s_freqs (z : stream) : list Z := zfreqs z.
End Stream.
Arguments mkStream {fl}. Arguments zsize {fl}. Arguments zb {fl}. Arguments zdict {fl}. Arguments zcoder {fl}.
Arguments zfreqs {fl}. Arguments ztotal {fl}. Arguments zminp {fl}.
