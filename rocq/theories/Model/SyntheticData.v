(** putting_dune/rate_learning/data_utils.py: generate_synthetic_data *)
From Coq Require Import Reals ZArith List Bool Arith String.
From Verif Require Import Base.Prelude Base.Rounding Base.Matrix Model.Constants Model.Geometry Model.DataUtils Model.LearnRates.
Import ListNotations.
Local Open Scope R_scope.
Local Open Scope res_scope.

(** jax.random.PRNGKey and jax.random.split: the i-th of n keys split off a key.
    Simplification: keys that are made in different ways are different, where
    JAX has 64 bits for a key. Used at data_utils.py:36-46. *)
Inductive key := Seed (seed : Z) | Child (k : key) (n i : nat).
(** used at data_utils.py:290-296 *)
Definition split (k : key) (n : nat) : list key := map (Child k n) (seq 0 n).

(** What jax.random draws with a key: a uniform number of [0, 1), n standard
    normal numbers, a natural number below n, a point of a normal distribution
    (data_utils.py:36-46 sample_multivariate_context) *)
Record draws := mkdraws {
  uniform : key -> R;
  normal : key -> nat -> list R;
  randint : key -> nat -> nat;
  multinormal : key -> pt -> mat2 -> pt
}.

(** jax.random.uniform with minval and maxval. Used at data_utils.py:203-234. *)
Definition uniform_in (D : draws) (k : key) (minval maxval : R) : R :=
  Rmax minval (uniform D k * (maxval - minval) + minval).

(** jnp.cumsum. Used at data_utils.py:203-234. *)
Definition cumsum (l : list R) : list R := map (fun i => rsum (firstn (S i) l)) (seq 0 (length l)).
(** jax.random.choice among the indices of [p]: jnp.searchsorted of a uniform
    number among the cumulative probabilities. Used at data_utils.py:203-234. *)
Definition choice (D : draws) (k : key) (p : list R) : nat :=
  let r := rsum p * (1 - uniform D k) in
  length (filter (fun c => Rltb c r) (cumsum p)).

(** jax.vmap. Used at data_utils.py:290-296. *)
Fixpoint vmap {A B} (f : A -> res B) (l : list A) : res (list B) :=
  match l with [] => Ok [] | x :: l => y <- f x ;; ys <- vmap f l ;; Ok (y :: ys) end.

(** One row of the data. Used at data_utils.py:203-234. *)
Record row := mkrow {
  r_next_state : Z;
  r_dt : R;
  r_rates : list R;
  r_context : list R;
  r_position : list R
}.

(** Either a result, or the UnboundLocalError of a variable that was not assigned.
    Used at data_utils.py:290-296. *)
Inductive outcome (A : Type) := Unbound | Returns (r : res A).
Arguments Unbound {A}.
Arguments Returns {A}.

Section Synthetic.
Variables P ST : Type.
(** hk.nets.MLP with given hidden dimensions and number of outputs *)
Variable nets : list nat -> nat -> layers P ST key.
Variable D : draws.
(** the arguments of generate_synthetic_data, but for the seed and the mode *)
Variables num_data num_states position_dim context_dim : nat.
Variables minval maxval : R.    (* actual_time_range *)

(** data_utils.py:190-195: the network of a mode that needs one.  Simplification:
    it is made for the other mode as well, and not used. *)
Definition network : layers P ST key := nets [1; 64]%nat (num_states + 1)%nat.

(** rates[0, :-1]. Used at data_utils.py:203-234. *)
Definition first_but_last (rates : list (list R)) : list R :=
  match rates with r :: _ => removelast r | [] => [] end.

(** data_utils.py:203-234 sample_network_rates *)
Definition sample_network_rates (init_key element_key : key) : res row :=
  let '(init_params, init_state) := ly_init _ _ _ network init_key (context_dim + position_dim)%nat in
  let state_key := Child element_key 4 0 in
  let time_key := Child element_key 4 1 in
  let actual_time_key := Child element_key 4 2 in
  let context_key := Child element_key 4 3 in
  let context := normal D context_key (context_dim + position_dim)%nat in
  out <- call_mlp _ _ _ network false 0 init_params init_state context_key [context] true ;;
  let rates := first_but_last (fst out) in
  let total_rate := rsum rates in
  let p := map (fun r => r / total_rate) rates in
  let next_state := choice D state_key p in
  let actual_time := uniform_in D actual_time_key minval maxval in
  let transitioned := transitions (uniform D time_key) total_rate actual_time in
  Ok (mkrow (if transitioned then Z.of_nat next_state + 1 else 0) actual_time rates
        (firstn context_dim context) (skipn context_dim context)).

(** data_utils.py:237-250: the draws of sample_from_prior *)
Definition sample_prior (k : key) : row :=
  let state_key := Child k 6 0 in
  let rot_key := Child k 6 1 in
  let time_key := Child k 6 2 in
  let actual_time_key := Child k 6 3 in
  let position_key := Child k 6 4 in
  let context_key := Child k 6 5 in
  let cov := SIGR_PRIOR_RATE_COV in
  let position := multinormal D position_key SIGR_PRIOR_RATE_MEAN
    (mkmat2 (ma cov * (15 / 10)) (mb cov * (15 / 10)) (mc cov * (15 / 10)) (md cov * (15 / 10))) in
  let d := sample_from_prior num_states position (normal D context_key context_dim) (choice D state_key)
    (randint D rot_key num_states) (uniform D time_key) (uniform_in D actual_time_key minval maxval) in
  mkrow (d_state d) (d_time d) (d_rates d) (match d_context d with Some c => c | None => [] end)
    [px (d_position d); py (d_position d)].

(** data_utils.py:290-296 sample_dataset; the members of SyntheticDataType are
    strings, and equal to them *)
Definition sample_dataset (init_key k : key) (mode : string) : outcome (list row) :=
  let keys := split k num_data in
  if String.eqb mode "prior" then Returns (vmap (fun k => Ok (sample_prior k)) keys)
  else if String.eqb mode "network" then Returns (vmap (sample_network_rates init_key) keys)
  else Unbound.

(** data_utils.py:158-303 generate_synthetic_data; [clock] is time.time() *)
Definition generate_synthetic_data (data_seed : option Z) (clock : R) (mode : string) : outcome (list row * list row) :=
  let data_seed := match data_seed with Some s => s | None => trunc clock end in
  let k := Seed data_seed in
  let init_key := Child k 2 1 in
  let k := Child k 2 0 in
  let train_key := Child k 2 0 in
  let test_key := Child k 2 1 in
  match sample_dataset init_key train_key mode with
  | Unbound => Unbound
  | Returns (Raise e) => Returns (Raise e)
  | Returns train =>
      match sample_dataset init_key test_key mode with
      | Unbound => Unbound
      | Returns test => Returns (train <- train ;; test <- test ;; Ok (train, test))
      end
  end.
End Synthetic.
