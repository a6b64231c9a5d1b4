(** What is expected of an epoch of training. *)
From Coq Require Import Reals ZArith String List.
From Verif Require Import Base.Prelude Model.LearningSteps.
Import ListNotations.
Open Scope R_scope.

(** the average of some numbers; there is none of no numbers *)
Definition averaged (l : list R) (o : option R) : Prop :=
  (l = [] /\ o = None) \/ (l <> [] /\ o = Some (rsum l / INR (length l))).

Section Training.
Context {Params Opt Grads Batch : Type}.
Variable loss : Params -> Batch -> R.
Variable gradient : (Params -> R) -> Params -> Grads.
Variable optimizer : Grads -> Opt -> Params -> Params * Opt.
(** one step of the optimizer along the gradient of the loss for every batch; [ps] are the parameters before each *)
Inductive descends : Params * Opt -> list Batch -> list Params -> Params * Opt -> Prop :=
| descends_nil po : descends po [] [] po
| descends_cons p o b batches ps po' : descends (optimizer (gradient (fun q => loss q b) p) o p) batches ps po' ->
    descends (p, o) (b :: batches) (p :: ps) po'.
End Training.

(** k is the index of the largest number, the first one of several *)
Definition predicted (x : list R) (k : nat) : Prop :=
  (k < length x)%nat /\ (forall i, (i < length x)%nat -> nth i x 0 <= nth k x 0) /\ (forall i, (i < k)%nat -> nth i x 0 < nth k x 0).
(** a target that is one for a class and zero for the others, and one that is zero for all *)
Definition target_of (t : list R) (k : nat) : Prop :=
  (k < length t)%nat /\ forall i, (i < length t)%nat -> nth i t 0 = if Nat.eqb i k then 1 else 0.
Definition no_target (t : list R) : Prop := forall x, In x t -> x = 0.
(** so many elements are such *)
Inductive counts {A} (P : A -> Prop) : list A -> nat -> Prop :=
| counts_nil : counts P [] 0
| counts_yes x l n : P x -> counts P l n -> counts P (x :: l) (S n)
| counts_no x l n : ~ P x -> counts P l n -> counts P (x :: l) n.
(** the largest logit of a pixel is that of its class *)
Definition correct (xt : list R * list R) : Prop := exists k, predicted (fst xt) k /\ predicted (snd xt) k.
