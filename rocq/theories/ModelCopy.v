(** ModelCopy: copies of IntStreamVGram and IntVGram objects. The classes declare no copy constructor and no operator=, so the
    compiler makes them, member by member: builder_, coder_ and dict_ are shared_ptr (int_stream_vgram.h:48-50), so all copies of an
    object use one builder, one coder and the dictionaries these made; the other members (int_stream_vgram.h:47,51-54, int_vgram.h:34-36)
    are copied. verbose_ is not modelled. *)
From Verif Require Import Base FloatOps ModelDict ModelCoder Maps ModelStat ModelBuilder ModelStream ModelVGram.

Section Copy.
  Context (fl : fops).

  (** What each copy has of its own; dict_ is a pointer into the heap kept in the builder. For an IntStreamVGram the last three are
      not used. *)
  Record part := mkPart { o_size : Z; o_dict : option nat; o_freqs : list Z; o_total : Z; o_minp : option (F fl); o_iter : Z; o_fitted : bool; o_computed : bool }.
  (** Objects that are copies of each other. *)
  Record copies := mkCopies { c_builder : builder fl; c_coder : coder; c_parts : list part }.

  (** The object with the part [o]. *)
  Definition object (c : copies) (o : part) : vgram fl :=
    mkVGram (mkStream (o_size o) (c_builder c) (o_dict o) (c_coder c) (o_freqs o) (o_total o) (o_minp o)) (o_iter o) (o_fitted o) (o_computed o).
  Definition part_of (v : vgram fl) : part :=
    mkPart (zsize (vs v)) (zdict (vs v)) (zfreqs (vs v)) (ztotal (vs v)) (zminp (vs v)) (viter v) (vfitted v) (vcomputed v).
  (** An object without copies. *)
  Definition alone (v : vgram fl) : copies := mkCopies (zb (vs v)) (zcoder (vs v)) [part_of v].
  (** A call on object [i] has made it [v]: the builder and the coder are changed for all. *)
  Definition after_call (c : copies) (i : nat) (v : vgram fl) : copies := mkCopies (zb (vs v)) (zcoder (vs v)) (upd (c_parts c) i (part_of v)).

  (** The implicit copy constructor: a new object, a copy of object [i]. *)
  Definition copy (c : copies) (i : nat) : outcome copies := o <- vget (c_parts c) i ;; Ok (mkCopies (c_builder c) (c_coder c) (c_parts c ++ [o])).
  (** The implicit operator=: object [i] becomes a copy of object [j]. *)
  Definition assign (c : copies) (i j : nat) : outcome copies :=
    _ <- vget (c_parts c) i ;; o <- vget (c_parts c) j ;; Ok (mkCopies (c_builder c) (c_coder c) (upd (c_parts c) i o)).

  (** parse, alphabet, freqs of object [i] (int_stream_vgram.cc:32-48, 59-69) *)
  Definition c_parse (c : copies) (i : nat) (s : seq) : outcome (list nat * copies) :=
    o <- vget (c_parts c) i ;; '(ids, z) <- s_parse fl (vs (object c o)) s ;; Ok (ids, after_call c i (on_stream fl (object c o) z)).
  Definition c_alphabet (c : copies) (i : nat) : outcome (list seq) := o <- vget (c_parts c) i ;; s_alphabet fl (vs (object c o)).
  Definition c_freqs (c : copies) (i : nat) : outcome (list Z) := o <- vget (c_parts c) i ;; Ok (s_freqs fl (vs (object c o))).
  (** accept and update_dict of object [i] (int_stream_vgram.cc:28-30, 50-57) *)
  Definition c_accept (e : env fl) (c : copies) (i : nat) (s : seq) : outcome copies :=
    o <- vget (c_parts c) i ;; z <- s_accept fl e (vs (object c o)) s ;; Ok (after_call c i (on_stream fl (object c o) z)).
  Definition c_update (c : copies) (i : nat) : outcome copies :=
    o <- vget (c_parts c) i ;; z <- s_update fl (vs (object c o)) ;; Ok (after_call c i (on_stream fl (object c o) z)).
End Copy.
Arguments mkPart {fl}. Arguments o_size {fl}. Arguments o_dict {fl}. Arguments o_freqs {fl}. Arguments o_total {fl}. Arguments o_minp {fl}. Arguments o_iter {fl}.
Arguments o_fitted {fl}. Arguments o_computed {fl}. Arguments mkCopies {fl}. Arguments c_builder {fl}. Arguments c_coder {fl}. Arguments c_parts {fl}.
