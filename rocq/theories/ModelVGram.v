(** ModelVGram: core/src/main/cpp/interfaces/vgram_builders/int_vgram.cc, class IntVGram (which derives
    from IntStreamVGram), with isTerminated as overridden in binding/src/main/cpp/py_int_vgram_builder.h:32-35.
    Printing is not modelled. *)
From Verif Require Import Base FloatOps ModelDict ModelCoder ModelTok Maps ModelStat ModelBuilder ModelStream.

(** std::to_string(int) for a non-negative argument: decimal digits, most significant first.
    [fuel] bounds the number of digits. *)
Fixpoint digits (fuel : nat) (n : Z) : text :=
  match fuel with
  | O => []
  | S f => if Z.ltb n 10 then [(48 + n)%Z] else digits f (n / 10) ++ [(48 + n mod 10)%Z]
  end.
Definition dec (n : Z) : text := digits (S (Z.to_nat (Z.log2 n))) n.
(** ... and for any int. *)
Definition int_to_string (n : Z) : text := if Z.ltb n 0 then 45%Z :: dec (- n) else dec n.

Section VGram.
  Context (fl : fops).

  (** int_vgram.h:35-37 *)
  Record vgram := mkVGram { vs : stream fl; viter : Z; vfitted : bool; vcomputed : bool }.

  (** int_vgram.cc:20-26 *)
  Definition new_vgram (size iter : Z) : vgram := mkVGram (new_stream fl size) iter false false.

  (** int_vgram.cc:119-133 *)
  Definition loaded_vgram (c : coder) (freqs : list Z) (alphabet : list seq) (size : Z) (mp : F fl)
      (fitted computed : bool) : outcome vgram :=
    z <- loaded_stream fl c freqs alphabet size mp ;; Ok (mkVGram z 0 fitted computed).

  (** What the calls of rand() and isTerminated() return and the environments of the updates, by call
      number. rand() is not negative. *)
  Record world := mkWorld { w_rand : nat -> Z; w_term : nat -> bool; w_env : nat -> env fl }.

  Definition on_stream (v : vgram) (z : stream fl) : vgram := mkVGram z (viter v) (vfitted v) (vcomputed v).

  (** int_vgram.cc:41-46: the loop over k. [n] rounds are left; [t] counts the calls of rand and
      isTerminated. [None]: interrupted. The flag returned is isTerminated's last answer. *)
  Fixpoint sample (w : world) (xs : list seq) (n t : nat) (z : stream fl) : outcome (bool * nat * stream fl) :=
    match n with
    | O => Ok (false, t, z)
    | S n' =>
        x <- vget xs (Z.to_nat (w_rand w t mod Z.of_nat (length xs))) ;;
        z' <- s_accept fl (w_env w t) z x ;;
        if w_term w t then Ok (true, S t, z') else sample w xs n' (S t) z'
    end.

  (** int_vgram.cc:37-53: the loop over i. *)
  Fixpoint rounds (w : world) (xs : list seq) (n t : nat) (z : stream fl) : outcome (bool * nat * stream fl) :=
    match n with
    | O => Ok (false, t, z)
    | S n' =>
        '(stop, t', z') <- sample w xs (length xs) t z ;;
        if (stop : bool) then Ok (true, t', z')
        else z'' <- s_update fl z' ;; rounds w xs n' t' z''
    end.

  (** int_vgram.cc:67-77: the loop of recompute_freqs; the new freqs_ are in [acc]. parse is called with
      the frequencies [fs] of the builder and their sum. `dict_->` is evaluated only if there is a sequence. *)
  Fixpoint recount (w : world) (fs : list Z) (xs : list seq) (t : nat) (z : stream fl) (acc : list Z)
    : outcome (bool * nat * stream fl * list Z) :=
    match xs with
    | [] => Ok (false, t, z, acc)
    | x :: rest =>
        let (q, c) := encode (zcoder z) x in
        '(p, d) <- the_dict fl z ;;
        '(ids, _, d') <- parse_weighted fl d q fs (fofZ fl (isum fs)) [] ;;
        acc' <- foldM (fun a i => vadd a i 1) ids acc ;;
        let z' := mkStream (zsize z) (hput fl (zb z) p d') (zdict z) c (zfreqs z) (ztotal z) (zminp z) in
        if w_term w t then Ok (true, S t, z', acc') else recount w fs rest (S t) z' acc'
    end.

  (** int_vgram.cc:59-80: recompute_freqs. When interrupted, total_freqs_ is left as it was. *)
  Definition recompute_freqs (w : world) (xs : list seq) (t : nat) (z : stream fl) : outcome (nat * stream fl) :=
    '(fs, b) <- result_freqs fl (zb z) [] ;;
    let z0 := mkStream (zsize z) b (zdict z) (zcoder z) (zfreqs z) (ztotal z) (zminp z) in
    '(stop, t', z', acc) <- recount w fs xs t z0 (repeat 0%Z (length fs)) ;;
    Ok (t', mkStream (zsize z') (zb z') (zdict z') (zcoder z') acc
              (if (stop : bool) then ztotal z' else isum acc) (zminp z')).

  (** int_vgram.cc:28-57: fit. The flag is false when nullptr is returned. *)
  Definition fit (w : world) (v : vgram) (xs : list seq) : outcome (bool * vgram) :=
    if vfitted v then
      if vcomputed v then Ok (true, v)
      else '(_, z) <- recompute_freqs w xs 0 (vs v) ;; Ok (true, mkVGram z (viter v) true true)
    else
      '(stop, t, z) <- rounds w xs (Z.to_nat (viter v)) 0 (vs v) ;;
      if (stop : bool) then Ok (false, on_stream v z)
      else '(_, z') <- recompute_freqs w xs t z ;; Ok (true, mkVGram z' (viter v) true true).

  (** int_vgram.cc:102-113: transform; isTerminated is called after each sequence. *)
  Fixpoint transform_loop (w : world) (xs : list seq) (t : nat) (z : stream fl)
    : outcome (list (list nat) * stream fl) :=
    match xs with
    | [] => Ok ([], z)
    | x :: rest =>
        '(ids, z') <- s_parse fl z x ;;
        if w_term w t then Ok ([ids], z')
        else '(r, z'') <- transform_loop w rest (S t) z' ;; Ok (ids :: r, z'')
    end.
  Definition transform (w : world) (v : vgram) (xs : list seq) : outcome (list (list nat) * vgram) :=
    '(r, z) <- transform_loop w xs 0 (vs v) ;; Ok (r, on_stream v z).

  (** int_vgram.cc:86-94: the string for one sequence. *)
  Definition ids_string (ids : list nat) : text :=
    let str := flat_map (fun i => 32%Z :: int_to_string (Z.of_nat i)) ids in
    match str with [] => [45; 49]%Z (* "-1" *) | _ => str end.

  (** int_vgram.cc:84-99: the loop of transform_to_string; isTerminated after each string. *)
  Fixpoint to_strings (w : world) (t : nat) (l : list (list nat)) : list text :=
    match l with
    | [] => []
    | ids :: rest => ids_string ids :: (if w_term w t then [] else to_strings w (S t) rest)
    end.
  Definition transform_to_string (w : world) (v : vgram) (xs : list seq) : outcome (list text * vgram) :=
    '(r, v') <- transform w v xs ;; Ok (to_strings w (length r) r, v').
End VGram.
Arguments mkVGram {fl}. Arguments vs {fl}. Arguments viter {fl}. Arguments vfitted {fl}. Arguments vcomputed {fl}.
Arguments mkWorld {fl}. Arguments w_rand {fl}. Arguments w_term {fl}. Arguments w_env {fl}.
