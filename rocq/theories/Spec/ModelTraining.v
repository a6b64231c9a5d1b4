(** Training that may be killed: what a number of epochs makes of a state, and
    histories of runs. *)
From Coq Require Import List Bool String Arith.
From Verif Require Import Base.Prelude Model.Downloads Model.ModelTraining.
Import ListNotations.

Section Spec.
Context {State : Type}.
Variable epoch : nat -> State -> State.
(** a state after the first [n] epochs of one run *)
Fixpoint continued (n : nat) (st : State) : State :=
  match n with 0 => st | S k => epoch k (continued k st) end.
(** a state that went through [n] epochs, whichever runs they belonged to *)
Inductive trained (fresh : State) : nat -> State -> Prop :=
| trained_none : trained fresh 0 fresh
| trained_more n i st : trained fresh n st -> trained fresh (S n) (epoch i st).
End Spec.

(** a run that completes, or that is killed after a number of epochs *)
Inductive training_run := Completes | KilledAfter (n : nat).
Definition after_training {State Saved Metric} fresh epoch measure pack unpack epochs
    (s : @store Saved Metric) (r : training_run) : @store Saved Metric :=
  match r with
  | Completes => snd (train (State := State) fresh epoch measure pack unpack epochs s)
  | KilledAfter n => killed fresh epoch measure pack unpack epochs n s
  end.
Definition training_history {State Saved Metric} fresh epoch measure pack unpack epochs (rs : list training_run)
    : @store Saved Metric :=
  fold_left (after_training (State := State) fresh epoch measure pack unpack epochs) rs [].

(** the first checkpoint among those with the greatest score is the one after
    which no other is as good *)
Definition best_of {Saved Metric} (score : Metric -> R) (s : @store Saved Metric) (c : @checkpoint Saved Metric) : Prop :=
  exists before after m,
    s = before ++ c :: after /\ ck_metrics c = Some m /\
    (forall c' m', In c' before -> ck_metrics c' = Some m' -> (score m' <= score m)%R) /\
    (forall c' m', In c' after -> ck_metrics c' = Some m' -> (score m' < score m)%R).

(** every array of a tree of parameters in a box of its own *)
Fixpoint boxed {A} (t : param_tree A) : param_tree A :=
  match t with
  | PLeaf a => PNode [("value"%string, PLeaf a)]
  | PNode items => PNode (map (fun i => (fst i, boxed (snd i))) items)
  end.
(** no parameter is named "value" *)
Fixpoint plain {A} (t : param_tree A) : Prop :=
  match t with
  | PLeaf _ => True
  | PNode items => (fix all l := match l with [] => True | i :: l' => fst i <> "value"%string /\ plain (snd i) /\ all l' end) items
  end.
