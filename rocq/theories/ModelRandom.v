(** fast_random.cc with an explicit generator. *)
From Verif Require Import Base FloatOps ModelStat.

(** std::default_random_engine and std::gamma_distribution<double>(p, 1): an abstract state, the state
    of a default-constructed engine, and one draw. The distribution object is a temporary, so it
    carries nothing from one draw to the next. *)
Record rng (fl : fops) := mkRng {
  rng_state : Type;
  rng_default : rng_state;
  rng_gamma : F fl -> rng_state -> F fl * rng_state
}.
Arguments rng_state {fl}. Arguments rng_default {fl}. Arguments rng_gamma {fl}.

Section Rand.
  Context (fl : fops) (g : rng fl).

  (** fast_random.cc:14-18: the first loop, position [i] on; writes draws into [out], sums them. *)
  Fixpoint draw_loop (ps : list (F fl)) (i : nat) (out : list (F fl)) (total : F fl) (gen : rng_state g)
    : outcome (list (F fl) * F fl) :=
    match ps with
    | [] => Ok (out, total)
    | p :: t =>
        let '(x, gen') := rng_gamma g p gen in
        out' <- vset out i x ;;
        draw_loop t (S i) out' (fadd fl total x) gen'
    end.

  (** fast_random.cc:20-22: the second loop. *)
  Fixpoint scale_loop (n i : nat) (inv : F fl) (out : list (F fl)) : outcome (list (F fl)) :=
    match n with
    | 0 => Ok out
    | S n' =>
        x <- vget out i ;;
        out' <- vset out i (fmul fl x inv) ;;
        scale_loop n' (S i) inv out'
    end.

  (** fast_random.cc:10-23. The generator is a local variable, default-constructed by every call. *)
  Definition next_dirichlet_code (params out : list (F fl)) : outcome (list (F fl)) :=
    '(out1, total) <- draw_loop params 0 out (fofZ fl 0) (rng_default g) ;;
    scale_loop (length params) 0 (fdiv fl (fofZ fl 1) total) out1.

  (** The draws of one call: the oracle [e_gamma] of ModelStat for this generator. *)
  Fixpoint draws_from (ps : list (F fl)) (gen : rng_state g) : list (F fl) :=
    match ps with
    | [] => []
    | p :: t => let '(x, gen') := rng_gamma g p gen in x :: draws_from t gen'
    end.
  Definition fresh_draws (ps : list (F fl)) : list (F fl) := draws_from ps (rng_default g).
End Rand.
