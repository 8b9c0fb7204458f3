(** ModelOwner: who deletes what the objects point to. A StringVGram can be given its tokenizer as a raw pointer
    (string_vgram.h:22-24, string_vgram.cc:17-23), of which it makes a std::shared_ptr (string_vgram.h:42); the other
    constructors make the tokenizer themselves (string_vgram.cc:13-15, string_stream_vgram.cc:14-22, loader.h:106) or take
    a shared_ptr (string_vgram.cc:59-60, string_stream_vgram.cc:30-36). Copies of an object copy its shared_ptr, and the
    destructors (string_vgram.h:28, base_tokenizer.h:21) are the default ones.
    What a std::shared_ptr is to do is taken from the C++ standard: a control block with the pointer and a counter.
    Simplifications: the tokenizer has no content here (see ModelShared.v for what objects with one tokenizer do to each
    other); null pointers, assignment to an object (a drop and a share) and threads are left out. *)
From Verif Require Import Base.

(** A live object or variable that has a shared_ptr is called a hand. *)
Inductive oop :=
| ONew                 (* new CharTokenizer(): the caller has the raw pointer *)
| OMake                (* std::make_shared: a hand with something of its own *)
| OHand (a : nat)      (* a constructor that is given the raw pointer *)
| OShare (h : nat)     (* a copy of a hand, or a constructor that is given a shared_ptr *)
| OUse (h : nat)       (* a member function of the object, such as fit or transform, that works with the tokenizer *)
| OCall (a : nat)      (* a call through the raw pointer *)
| ODrop (h : nat)      (* the end of a hand *)
| ODelete (a : nat).   (* delete by the caller *)

(** What goes wrong: undefined behaviour in the first two cases; the third is a call on a hand that has ended or a pointer
    that never was, which C++ programs do not contain by themselves. *)
Inductive mishap := DeletedTwice (a : nat) | UsedDeleted (a : nat) | NoSuch.
Inductive result (A : Type) := Fine (x : A) | Bad (m : mishap).
Arguments Fine {A} x.
Arguments Bad {A} m.

(** [cells]: for everything that was allocated, whether it is still there; [blocks]: the control blocks, pointer and counter;
    [hands]: the control block of each hand, None when it has ended; [gone]: what was deleted, in order. *)
Record own := mkOwn { cells : list bool; blocks : list (nat * nat); hands : list (option nat); gone : list nat }.

Definition nothing : own := mkOwn [] [] [] [].

Fixpoint put {A} (l : list A) (i : nat) (x : A) : list A :=
  match l, i with
  | [], _ => []
  | _ :: l', O => x :: l'
  | y :: l', S i' => y :: put l' i' x
  end.

(** The block of a live hand, and its contents. *)
Definition block_of (o : own) (h : nat) : option (nat * (nat * nat)) :=
  match nth_error (hands o) h with
  | Some (Some b) => match nth_error (blocks o) b with Some p => Some (b, p) | None => None end
  | _ => None
  end.

(** delete, with the destructor (base_tokenizer.h:21). *)
Definition delete (o : own) (a : nat) : result own :=
  match nth_error (cells o) a with
  | Some true => Fine (mkOwn (put (cells o) a false) (blocks o) (hands o) (gone o ++ [a]))
  | Some false => Bad (DeletedTwice a)
  | None => Bad NoSuch
  end.

Definition touch (o : own) (a : nat) : result own :=
  match nth_error (cells o) a with
  | Some true => Fine o
  | Some false => Bad (UsedDeleted a)
  | None => Bad NoSuch
  end.

Definition ostep (o : own) (p : oop) : result own :=
  match p with
  | ONew => Fine (mkOwn (cells o ++ [true]) (blocks o) (hands o) (gone o))
  | OMake => Fine (mkOwn (cells o ++ [true]) (blocks o ++ [(length (cells o), 1)]) (hands o ++ [Some (length (blocks o))]) (gone o))
  | OHand a =>
      if a <? length (cells o)
      then Fine (mkOwn (cells o) (blocks o ++ [(a, 1)]) (hands o ++ [Some (length (blocks o))]) (gone o))
      else Bad NoSuch
  | OShare h =>
      match block_of o h with
      | Some (b, (a, n)) => Fine (mkOwn (cells o) (put (blocks o) b (a, S n)) (hands o ++ [Some b]) (gone o))
      | None => Bad NoSuch
      end
  | OUse h => match block_of o h with Some (_, (a, _)) => touch o a | None => Bad NoSuch end
  | OCall a => touch o a
  | ODrop h =>
      match block_of o h with
      | Some (b, (a, n)) =>
          let o' := mkOwn (cells o) (put (blocks o) b (a, pred n)) (put (hands o) h None) (gone o) in
          if n =? 1 then delete o' a else Fine o'
      | None => Bad NoSuch
      end
  | ODelete a => delete o a
  end.

Fixpoint orun (o : own) (ps : list oop) : result own :=
  match ps with
  | [] => Fine o
  | p :: ps' => match ostep o p with Fine o' => orun o' ps' | Bad m => Bad m end
  end.

(** load of the stream classes in Python: load_int_stream_vgram and load_string_stream_vgram (loader.h:13-21, 36-40) return a
    shared_ptr made by make_shared, but the classes are declared without a holder (bind_vgram.cc:18, 31), so that the Python
    object keeps a std::unique_ptr to the same thing (the binding library, pybind11 2.2.4, moves the first word of the
    shared_ptr into it); then the shared_ptr ends. Here a unique_ptr is a hand of its own.
    pybind11 is not part of the repository: this is how we understand it. *)
Definition py_load_stream (o : own) : list oop := [OMake; OHand (length (cells o)); ODrop (length (hands o))].

(** load of the other two classes (loader.h:24-34, 42-47, py_vgram_builder.h:16-18, py_int_vgram_builder.h:16-18): a raw
    pointer, which the Python object takes over. *)
Definition py_load_vgram (o : own) : list oop := [ONew; OHand (length (cells o))].
