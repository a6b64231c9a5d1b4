(** Vocabulary for symmetric copies of transitions.  A silicon atom has N
    neighbours around it, at the angles 0, 2 pi / N, 4 pi / N, ...; the label
    of a transition is 0 if nothing happened and i + 1 if the silicon moved to
    neighbour i. *)
From Coq Require Import Reals ZArith List.
From Verif Require Import Base.Prelude Model.Geometry Model.DataUtils.
Import ListNotations.
Open Scope R_scope.

Definition neighbour_angle (N : nat) (i : nat) : R := 2 * PI * (INR i / INR N).

(** a label and a rate for each neighbour *)
Definition proper (N : nat) (d : datapoint) : Prop :=
  (0 <= d_state d <= Z.of_nat N)%Z /\ length (d_rates d) = N.

(** the rate of the move that was made; [None] if there was none *)
Definition rate_of_move (d : datapoint) : option R :=
  if Z.eq_dec (d_state d) 0 then None else nth_error (d_rates d) (Z.to_nat (d_state d - 1)).

(** neighbour j after a turn is neighbour i before *)
Definition comes_from (N k i j : nat) : Prop := (i < N)%nat /\ (j < N)%nat /\ ((i + k) mod N = j)%nat.

(** d' is d with everything turned by k neighbours, counter-clockwise *)
Record turned_by (N k : nat) (d d' : datapoint) : Prop := {
  turned_none : d_state d = 0%Z -> d_state d' = 0%Z;
  turned_state : forall i, d_state d = Z.of_nat (S i) -> (i < N)%nat ->
    exists j, comes_from N k i j /\ d_state d' = Z.of_nat (S j);
  turned_length : length (d_rates d') = length (d_rates d);
  turned_rates : forall i j, comes_from N k i j -> nth_error (d_rates d') j = nth_error (d_rates d) i;
  turned_position : d_position d' = rotate (d_position d) (neighbour_angle N k);
  turned_time : d_time d' = d_time d;
  turned_context : d_context d' = d_context d
}.

(** d' is d mirrored in the x axis: of three neighbours the first stays, the
    other two change places *)
Record mirror_of (d d' : datapoint) : Prop := {
  mirror_state : (d_state d, d_state d') = (0, 0)%Z \/ (d_state d, d_state d') = (1, 1)%Z \/
                 (d_state d, d_state d') = (2, 3)%Z \/ (d_state d, d_state d') = (3, 2)%Z;
  mirror_rates : exists a b c, d_rates d = [a; b; c] /\ d_rates d' = [a; c; b];
  mirror_position : px (d_position d') = px (d_position d) /\ py (d_position d') = - py (d_position d);
  mirror_time : d_time d' = d_time d;
  mirror_context : d_context d' = d_context d
}.

(** the rates of d are those of a rate field: f gives the rate of a move along
    the positive x axis for a beam position *)
Definition described_by (N : nat) (f : pt -> R) (d : datapoint) : Prop :=
  length (d_rates d) = N /\
  forall i, (i < N)%nat -> nth_error (d_rates d) i = Some (f (rotate (d_position d) (- neighbour_angle N i))).
Definition mirror_symmetric (f : pt -> R) : Prop := forall p, f (mkpt (px p) (- py p)) = f p.

(** d' is one of the six symmetric copies of d *)
Definition copy_of (d d' : datapoint) : Prop :=
  exists k, (k < 3)%nat /\ (turned_by 3 k d d' \/ exists m, mirror_of d m /\ turned_by 3 k m d').
