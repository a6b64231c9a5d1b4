(** Vocabulary for merging point clouds by proximity. *)
From Coq Require Import Reals ZArith List.
From Verif Require Import Base.Prelude Model.Alignment.
Import ListNotations.
Open Scope R_scope.

(** position j is the nearest to q; the first of several *)
Definition nearest_at (positions : list pt) (q : pt) (j : nat) : Prop :=
  exists p, nth_error positions j = Some p /\
    (forall p', In p' positions -> pdist q p <= pdist q p') /\
    (forall k p', (k < j)%nat -> nth_error positions k = Some p' -> pdist q p < pdist q p').

(** q joins its nearest position if that is nearer than the cutoff, else none *)
Definition joins (cutoff : R) (positions : list pt) (q : pt) (target : option nat) : Prop :=
  exists j, nearest_at positions q j /\
    ((pdist q (nth j positions pzero) < cutoff /\ target = Some j) \/
     (cutoff <= pdist q (nth j positions pzero) /\ target = None)).

(** the points that join position i; the points that join none *)
Fixpoint received (i : nat) (m : list pt) (targets : list (option nat)) : list pt :=
  match m, targets with
  | q :: m, Some j :: targets => if Nat.eqb i j then q :: received i m targets else received i m targets
  | q :: m, None :: targets => received i m targets
  | _, _ => []
  end.
Fixpoint left_over (m : list pt) (targets : list (option nat)) : list pt :=
  match m, targets with
  | q :: m, Some _ :: targets => left_over m targets
  | q :: m, None :: targets => q :: left_over m targets
  | _, _ => []
  end.

(** groups of points, each at the mean of its members, take in an array:
    every point looks at the positions before the array came *)
Definition takes_in (cutoff : R) (groups : list (list pt)) (m : list pt) (groups' : list (list pt)) : Prop :=
  exists targets, Forall2 (joins cutoff (map pmean groups)) m targets /\
    groups' = map (fun ig => snd ig ++ received (fst ig) m targets) (combine (seq 0 (length groups)) groups)
              ++ map (fun q => [q]) (left_over m targets).

(** arrays taken in one after the other *)
Inductive takes_in_all (cutoff : R) : list (list pt) -> list (list pt) -> list (list pt) -> Prop :=
| takes_none groups : takes_in_all cutoff groups [] groups
| takes_more groups m ms groups' groups'' :
    takes_in cutoff groups m groups' -> takes_in_all cutoff groups' ms groups'' ->
    takes_in_all cutoff groups (m :: ms) groups''.

Definition singletons (ps : list pt) : list (list pt) := map (fun p => [p]) ps.

(** an array without NaNs *)
Definition points (ps : list pt) : list vec := map Some ps.
(** the arrays of a heap at some references hold these points *)
Definition holds (h : heap) (refs : list nat) (clouds : list (list pt)) : Prop :=
  Forall2 (fun r ps => nth_error h r = Some (points ps)) refs clouds.

(** the positions after the arrays up to, and with, the first one that leaves
    points over; as many as there were groups in the beginning *)
Definition prefix_until_growth (cutoff : R) (groups : list (list pt)) (ms : list (list pt)) (content : list pt) : Prop :=
  exists before after groups', ms = before ++ after /\ takes_in_all cutoff groups before groups' /\
    length groups' = length groups /\
    ((after = [] /\ content = map pmean groups') \/
     (exists m after' groups'', after = m :: after' /\ takes_in cutoff groups' m groups'' /\
        (length groups < length groups'')%nat /\ content = firstn (length groups) (map pmean groups''))).
