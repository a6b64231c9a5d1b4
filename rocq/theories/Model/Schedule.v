(** putting_dune/atom_detection/train.py, putting_dune/image_alignment/train.py and
    putting_dune/graph_alignment/train.py: how many steps are taken, and how far *)
From Coq Require Import Reals ZArith List Bool Arith.
From Verif Require Import Base.Prelude Base.Rounding Model.LearningSteps.
Import ListNotations.
Open Scope R_scope.
Open Scope res_scope.

(** train_steps_per_epoch // batch_size, e.g. atom_detection/train.py:180, 230: the batches of an epoch *)
Definition batches_per_epoch (steps_per_epoch batch_size : nat) : nat := (steps_per_epoch / batch_size)%nat.
(** atom_detection/dataset.py:76, graph_alignment/dataset.py:26: the examples of a batch, whatever the
    batch_size of the training is (atom_detection/train.py:194-196, graph_alignment/train.py:285-287) *)
Definition detection_data_batch : nat := 128.
Definition graph_data_batch : nat := 16.
(** image_alignment/train.py:288-293: the batch_size of the training *)
Definition examples_per_epoch (steps_per_epoch batch_size data_batch : nat) : nat :=
  (batches_per_epoch steps_per_epoch batch_size * data_batch)%nat.

(** optax.linear_schedule, external *)
Definition linear_schedule (init_value end_value : R) (transition_steps count : nat) : R :=
  match transition_steps with
  | O => init_value
  | _ => (init_value - end_value) * (1 - INR (Nat.min count transition_steps) / INR transition_steps) + end_value
  end.
(** optax.cosine_decay_schedule, external; an error unless there are steps *)
Definition cosine_decay_schedule (init_value alpha : R) (decay_steps count : nat) : R :=
  let cosine := 1 / 2 * (1 + cos (PI * INR (Nat.min count decay_steps) / INR decay_steps)) in
  init_value * ((1 - alpha) * cosine + alpha).
(** optax.warmup_cosine_decay_schedule, external: decay_steps counts those of the warm-up *)
Definition warmup_cosine_decay_schedule (init_value peak_value : R) (warmup_steps : nat) (decay_steps : Z) : res (nat -> R) :=
  if (decay_steps - Z.of_nat warmup_steps <=? 0)%Z then Raise ValueError
  else
    let cosine_steps := Z.to_nat (decay_steps - Z.of_nat warmup_steps) in
    Ok (fun count =>
      if (count <? warmup_steps)%nat then linear_schedule init_value peak_value warmup_steps count
      else cosine_decay_schedule peak_value 0 cosine_steps (count - warmup_steps)).
(** atom_detection/train.py:177-184, image_alignment/train.py:317-324 and graph_alignment/train.py:331-338 *)
Definition learning_rate (peak : R) (steps_per_epoch batch_size epochs : nat) : res (nat -> R) :=
  match batch_size with
  | O => Raise ZeroDivisionError
  | _ =>
      let n := batches_per_epoch steps_per_epoch batch_size in
      warmup_cosine_decay_schedule 0 peak (n / 5) (Z.of_nat epochs * Z.of_nat n - Z.of_nat (n / 5))
  end.

(** optax.adamw(learning_rate), external: a direction that depends on the gradients so far and on the
    parameters, times minus the rate of this step *)
Section Adamw.
Context {Grads Moments : Type}.
Variable direction : Grads -> Moments -> list R -> list R * Moments.
(** used at atom_detection/train.py:185 *)
Definition adamw (rate : nat -> R) (g : Grads) (o : nat * Moments) (p : list R) : list R * (nat * Moments) :=
  let '(d, m) := direction g (snd o) p in
  (map2 (fun x u => x + - rate (fst o) * u) p d, (S (fst o), m)).
End Adamw.
