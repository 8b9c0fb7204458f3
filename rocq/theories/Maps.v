(** Maps: std::unordered_map as an association list. The list order stands for the iteration order,
    which C++ leaves unspecified; the model never relies on it unless it says so. *)
From Verif Require Import Base.

Section Map.
  Context {K V : Type} (eqb : K -> K -> bool).

  (** find / count / at *)
  Fixpoint mfind (m : list (K * V)) (k : K) : option V :=
    match m with
    | [] => None
    | (k', v) :: t => if eqb k k' then Some v else mfind t k
    end.

  (** m[k] = v *)
  Fixpoint mset (m : list (K * V)) (k : K) (v : V) : list (K * V) :=
    match m with
    | [] => [(k, v)]
    | (k', v') :: t => if eqb k k' then (k, v) :: t else (k', v') :: mset t k v
    end.
End Map.
