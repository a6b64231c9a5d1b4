(** Vocabulary for learned transition rates.  Something happens at the rate
    [total]; what happens is one of several choices, chosen independently of
    the time. *)
From Coq Require Import Reals ZArith List.
From Verif Require Import Base.Prelude Model.LearnRates.
Import ListNotations.
Open Scope R_scope.

(** w are probabilities proportional to the exponentials of the scores c *)
Definition weights_of (c w : list R) : Prop :=
  rsum w = 1 /\ exists k, 0 < k /\ Forall2 (fun s p => p = k * exp s) c w.

(** the probabilities of what is seen after the time t: nothing, choice 1, choice 2, ... *)
Definition outcomes (total : R) (w : list R) (t : R) : list R :=
  exp (- (total * t)) :: map (fun p => (1 - exp (- (total * t))) * p) w.

(** a network output: the scores, then the total rate *)
Definition output (total : R) (c : list R) : list R := c ++ [total].

(** the expectation of a list of values under a list of probabilities *)
Definition expectation (q v : list R) : R := rsum (map (fun pv => fst pv * snd pv) (combine q v)).
(** probabilities *)
Definition distribution (q : list R) : Prop := rsum q = 1 /\ forall x, In x q -> 0 <= x.

(** below this probability of a transition the loss is constant in the rate *)
Definition floor : R := 1 / 1000000.

(** p is the probability, according to a network output, of what an example
    shows; the probability of a transition is at least the floor *)
Definition likelihood (rates : list R) (e : example) (p : R) : Prop :=
  exists total c w k, rates = output total c /\ weights_of c w /\ e_next_state e = Z.of_nat k /\
    nth_error (outcomes total w (e_dt e)) k = Some p /\
    (k = 0%nat \/ floor <= 1 - exp (- (total * e_dt e))).
