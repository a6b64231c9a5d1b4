(** putting_dune/geometry.py *)
From Coq Require Import Reals List Arith.
From Verif Require Import Base.Prelude.
Import ListNotations.
Open Scope R_scope.

(** np.arctan2(y, x), written out by quadrant (the standard library only has
    the one-argument [atan]); arctan2(0,0) = 0 as in numpy.
    Simplification: no signed zeros, so arctan2(0, x<0) = PI. Used at geometry.py:33-48. *)
Definition atan2 (y x : R) : R :=
  if Rltb 0 x then atan (y / x)
  else if Rltb x 0 then
    (if Rleb 0 y then atan (y / x) + PI else atan (y / x) - PI)
  else if Rltb 0 y then PI / 2
  else if Rltb y 0 then - (PI / 2)
  else 0.

(** geometry.py:33-48 get_angles *)
Definition get_angle (p : pt) : R := atan2 (py p) (px p).
Definition get_angles (l : list pt) : list R := map get_angle l.

(** geometry.py:51-66 rotate_coordinates: row vector times
    [[cos, sin], [-sin, cos]] *)
Definition rotate (p : pt) (theta : R) : pt :=
  mkpt (px p * cos theta + py p * (- sin theta))
       (px p * sin theta + py p * cos theta).
Definition rotate_coordinates (l : list pt) (theta : R) : list pt :=
  map (fun p => rotate p theta) l.

(** geometry.py:69-84 jnp_rotate_coordinates has the same body *)
Definition jnp_rotate_coordinates := rotate_coordinates.

(** The nearest-neighbour search of sklearn
    (NearestNeighbors(n_neighbors=k).fit(pts).kneighbors(q)), as an oracle
    returning the indices of k nearest points, nearest first.  Everything but
    the order of equidistant points is fixed by [knn_ok]. Used at geometry.py:93-111. *)
Definition knn_fn := nat -> list pt -> pt -> list nat.

(** the distance of the i-th point; only used for indices in range.
    Used at geometry.py:93-111. *)
Definition dist_at (pts : list pt) (q : pt) (i : nat) : R :=
  pdist (nth i pts pzero) q.

(** used at geometry.py:93-111 *)
Record knn_ok (knn : knn_fn) : Prop := {
  knn_length : forall k pts q, (k <= length pts)%nat -> length (knn k pts q) = k;
  knn_nodup : forall k pts q, (k <= length pts)%nat -> NoDup (knn k pts q);
  knn_range : forall k pts q i, (k <= length pts)%nat ->
    In i (knn k pts q) -> (i < length pts)%nat;
  knn_sorted : forall k pts q a b i j, (k <= length pts)%nat ->
    (a < b)%nat -> nth_error (knn k pts q) a = Some i ->
    nth_error (knn k pts q) b = Some j ->
    dist_at pts q i <= dist_at pts q j;
  knn_nearest : forall k pts q i j, (k <= length pts)%nat ->
    In i (knn k pts q) -> (j < length pts)%nat -> ~ In j (knn k pts q) ->
    dist_at pts q i <= dist_at pts q j
}.

(** kneighbors: sklearn raises ValueError when there are fewer fitted points
    than neighbours requested. Used at geometry.py:93-111. *)
Definition kneighbors (knn : knn_fn) (k : nat) (pts : list pt) (q : pt)
  : res (list nat) :=
  if (length pts <? k)%nat then Raise ValueError else Ok (knn k pts q).

(** geometry.py:93-111 nearest_neighbors3, for one query point: indices of
    the 4 nearest points, without the first one unless [include_self].
    (The distances it also returns are [dist_at] of these indices.) *)
Definition nearest_neighbors3 (knn : knn_fn) (pts : list pt) (q : pt)
  (include_self : bool) : res (list nat) :=
  match kneighbors knn 4 pts q with
  | Ok idx => Ok (if include_self then idx else tl idx)
  | Raise e => Raise e
  | OutOfFuel => OutOfFuel
  end.
