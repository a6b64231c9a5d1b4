(** Vocabulary for the life of the filtering aligner. *)
From Coq Require Import Reals ZArith List.
From Verif Require Import Base.Prelude Base.Random Model.Alignment.
Import ListNotations.

(** what a user does: reset it, shift its history, make an array, observe a grid *)
Inductive aligner_op : Type :=
| op_reset
| op_shift (v : pt)
| op_array (a : list vec)
| op_observe (o : grid_ref).

Section Session.
Context {G : Type}.
Variable s : sampler G.
Variable asort : argsort_fn.
Variable find : cliques_fn.
Variable kmeans : list (list R) -> G -> (list R -> Z) * G.
Variable fp : filter_params.

(** the aligner, the arrays in memory, the generator *)
Definition world : Type := (filter_state * heap * G)%type.
Definition do_op (op : aligner_op) (w : world) : list (res (grid_ref * vec)) * world :=
  let '(st, h, g) := w in
  match op with
  | op_reset => ([], (filter_reset, h, g))
  | op_shift v => let '(st, h) := filter_apply_shift v st h in ([], (st, h, g))
  | op_array a => ([], (st, snd (alloc h a), g))
  | op_observe o => let '(r, st, h, g) := filter_call s asort find kmeans fp o st h g in ([r], (st, h, g))
  end.
(** the results of all observations, and what is left *)
Fixpoint session (ops : list aligner_op) (w : world) : list (res (grid_ref * vec)) * world :=
  match ops with
  | [] => ([], w)
  | op :: ops =>
      let '(rs, w) := do_op op w in
      let '(rs', w) := session ops w in
      (rs ++ rs', w)
  end.
End Session.

Definition zero_one (l : list Z) : Prop := forall z, In z l -> z = 0%Z \/ z = 1%Z.
Definition labels_zero_one (c : clusterer) : Prop := forall row, km_label c row = 0%Z \/ km_label c row = 1%Z.

(** at most n observations (one, if n is 0), each with a label 0 or 1 for every atom *)
Definition in_order (n : nat) (st : filter_state) (h : heap) : Prop :=
  (length (fs_observations st) <= Nat.max 1 n)%nat /\
  Forall2 (fun r labels => length (array h r) = length labels /\ (3 <= length labels)%nat /\ zero_one labels)
    (fs_observations st) (fs_classes st).
(** positions without labels *)
Definition out_of_order (st : filter_state) (h : heap) : Prop :=
  fs_observations st <> [] /\
  (fs_classes st = [] \/ length (concat (fs_classes st)) <> length (flat_map (array h) (fs_observations st))).
