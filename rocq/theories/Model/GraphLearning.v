(** putting_dune/graph_alignment/train.py: the loss of the graph network *)
From Coq Require Import Reals ZArith String Ascii List Bool Arith.
From Verif Require Import Base.Prelude Base.Rounding Model.MicroscopeUtils Model.LearnRates Model.LearningSteps.
Import ListNotations.
Open Scope R_scope.
Open Scope list_scope.

(** graph_alignment/train.py:168: entries whose key starts with an underscore are dropped *)
Definition drop_private {A} (batch : list (string * A)) : list (string * A) :=
  filter (fun i => match fst i with String c _ => negb (Ascii.eqb c "_") | EmptyString => true end) batch.
(** graph_alignment/train.py:170-177, 224, 230: the arguments of alignment_grad_fn; others, or missing
    ones, are a TypeError.  The keys of a dict are different. *)
Definition grad_arguments : list string := ["positions"; "features"; "local_labels"; "global_labels"]%string.
Definition batch_arguments {A} (batch : list (string * A)) : res (list (string * A)) :=
  let batch := drop_private batch in
  if forallb (fun i => existsb (String.eqb (fst i)) grad_arguments) batch
     && forallb (fun k => existsb (fun i => String.eqb (fst i) k) batch) grad_arguments
  then Ok batch else Raise TypeError.

Section Loss.
Context {Params Input : Type}.
(** the network with its neighbor list, for one example: the global and local predictions at each time, and
    for each point *)
Variable network : Params -> Input -> (nat -> pt) * (nat -> nat -> pt).

(** An example: positions and features of a number of points at a number of times; the first feature of each;
    labels. Used at graph_alignment/train.py:197, 212. *)
Record gexample := mkgexample {
  gx_input : Input;
  gx_mask : nat -> nat -> R;
  gx_global : nat -> pt;
  gx_local : nat -> nat -> pt
}.
(** used at graph_alignment/train.py:197, 212 *)
Record gbatch := mkgbatch { gb_steps : nat; gb_points : nat; gb_examples : list gexample }.

(** graph_alignment/train.py:197, 212: the differences of the global labels *)
Definition global_difference (p : Params) (e : gexample) (t : nat) : pt := psub (gx_global e t) (fst (network p (gx_input e)) t).
Definition local_difference (p : Params) (e : gexample) (t n : nat) : pt := psub (gx_local e t n) (snd (network p (gx_input e)) t n).
(** a.mean(0)[start:].mean(), where the value of an example at a time is given; [None] is NaN *)
Definition mean_after (start : nat) (b : gbatch) (value : gexample -> nat -> R) : option R :=
  let by_time := map (fun t => mean (map (fun e => value e t) (gb_examples b))) (seq 0 (gb_steps b)) in
  match skipn start by_time with
  | [] => None
  | l => Some (mean l)
  end.
(** graph_alignment/train.py:198-208 *)
Definition graph_local_loss (start : nat) (p : Params) (b : gbatch) : option R :=
  mean_after start b (fun e t => mean (map (fun n => psq (local_difference p e t n) * gx_mask e t n) (seq 0 (gb_points b)))).
(** graph_alignment/train.py:197, 209 *)
Definition graph_global_loss (start : nat) (p : Params) (b : gbatch) : option R :=
  mean_after start b (fun e t => psq (global_difference p e t)).
(** graph_alignment/train.py:210 *)
Definition graph_total_loss (local_loss_weight : R) (start : nat) (p : Params) (b : gbatch) : option R :=
  match graph_global_loss start p b, graph_local_loss start p b with
  | Some g, Some l => Some (g + local_loss_weight * l)
  | _, _ => None
  end.
(** graph_alignment/train.py:211-212 *)
Definition graph_local_error (p : Params) (b : gbatch) : R :=
  mean (flat_map (fun e => flat_map (fun t => map (fun n => pnorm (local_difference p e t n)) (seq 0 (gb_points b))) (seq 0 (gb_steps b))) (gb_examples b)).
Definition graph_global_error (p : Params) (b : gbatch) : R :=
  mean (flat_map (fun e => map (fun t => pnorm (global_difference p e t)) (seq 0 (gb_steps b))) (gb_examples b)).
(** graph_alignment/train.py:145-146: the defaults *)
Definition default_local_loss_weight : R := 1.
Definition default_loss_start : nat := 1.
End Loss.
