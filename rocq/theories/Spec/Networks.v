(** What is assumed of, and wanted from, a network that is not being trained. *)
From Coq Require Import Reals List.
From Verif Require Import Base.Prelude Model.LearnRates Spec.WaitingTimes.
Import ListNotations.
Open Scope R_scope.

Section Networks.
Context {P ST K : Type}.

(** the external layers: normalisation keeps the rows, and the state unless it
    is training; without dropout the random key is not used; n + 1 outputs *)
Record layers_ok (n : nat) (ly : layers P ST K) : Prop := {
  lo_state : forall p s x, snd (ly_normalize _ _ _ ly p s x false) = s;
  lo_rows : forall p s x b, length (fst (ly_normalize _ _ _ ly p s x b)) = length x;
  lo_key : forall p k k' x, ly_mlp _ _ _ ly p 0 k x = ly_mlp _ _ _ ly p 0 k' x;
  lo_shape : forall p d k x out, ly_mlp _ _ _ ly p d k x = Ok out ->
    length out = length x /\ forall r, In r out -> length r = S n
}.

(** one row of positive outputs for every input, independent of the random
    key, and no change of state *)
Record evaluates (n : nat) (f : apply_type P ST K) : Prop := {
  ev_state : forall p s k x r s', f p s k x false = Ok (r, s') -> s' = s;
  ev_key : forall p s k k' x, f p s k x false = f p s k' x false;
  ev_rows : forall p s k x r s', f p s k x false = Ok (r, s') -> length r = length x;
  ev_outputs : forall p s k x r s' row, f p s k x false = Ok (r, s') -> In row r ->
    exists total c, row = output total c /\ length c = n /\ 0 < total /\ forall y, In y c -> 0 < y
}.
End Networks.
