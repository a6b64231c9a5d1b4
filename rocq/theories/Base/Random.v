(** The random generator interface (numpy.random.Generator).

    A generator is an abstract state [G]; sampling returns a value and the
    next state.  The only facts the theorems use are the range facts of
    [sampler_ok]; nothing is assumed about distributions or independence. *)
From Coq Require Import Reals List.
From Verif Require Import Base.Prelude.
Import ListNotations.
Open Scope R_scope.

Record sampler (G : Type) := {
  (** default_rng(seed) *)
  s_seed : Z -> G;
  (** rng.uniform(lo, hi) *)
  s_uniform : R -> R -> G -> R * G;
  (** rng.exponential(scale).  Simplification: a draw of +inf is a real
      number larger than every clip bound used by the code. *)
  s_exponential : R -> G -> R * G;
  (** rng.choice(n) *)
  s_choice : nat -> G -> nat * G;
  (** rng.choice(len(p), p=p) *)
  s_choice_p : list R -> G -> nat * G;
  (** rng.normal(0, sigma) *)
  s_normal : R -> G -> R * G
}.
Arguments s_seed {G}.
Arguments s_uniform {G}.
Arguments s_exponential {G}.
Arguments s_choice {G}.
Arguments s_choice_p {G}.
Arguments s_normal {G}.

Record sampler_ok {G} (s : sampler G) : Prop := {
  uniform_range : forall lo hi g, lo <= hi ->
    lo <= fst (s_uniform s lo hi g) <= hi;
  exponential_range : forall sc g, 0 <= fst (s_exponential s sc g);
  choice_range : forall n g, (0 < n)%nat -> (fst (s_choice s n g) < n)%nat;
  choice_p_range : forall p g, 0 < rsum p -> (forall x, In x p -> 0 <= x) ->
    exists x, nth_error p (fst (s_choice_p s p g)) = Some x /\ 0 < x;
  normal_zero : forall g, fst (s_normal s 0 g) = 0
}.
