(** SpecTextBest: the most probable division of a text (C92). *)
From Coq Require Import Reals.
From Verif Require Import Base Spec FloatOps ModelTok SpecTok SpecStat SpecString SpecWeight SpecBest.

(** [r] is the normal form of [s] without the characters that the texts do not have. *)
Definition known_part (texts : list text) (s r : text) : Prop :=
  exists n, normal_form s n /\ only (fun c => exists t m, In t texts /\ normal_form t m /\ In c m) n r.

(** [out] shows, with single spaces, the most probable division of what is known of [y] into [words] with the given frequencies. *)
Definition best_reading (fl : fops) (freqs : list Z) (texts words : list text) (y out : text) : Prop :=
  exists ids pieces r, spaced out pieces /\ Forall2 (word_at words) ids pieces /\ known_part texts y r /\ most_probable fl freqs words ids r.

(** The same in exact numbers, up to a factor. *)
Definition near_best_reading (freqs : list Z) (texts words : list text) (y out : text) : Prop :=
  exists ids pieces r, spaced out pieces /\ Forall2 (word_at words) ids pieces /\ known_part texts y r /\ spells words ids r /\
    forall ids', spells words ids' r -> (split_prob freqs (length words) ids' <= split_prob freqs (length words) ids * exp (slack (length r)))%R.
