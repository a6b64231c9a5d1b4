(** Rounding that the Python code performs explicitly. *)
From Coq Require Import Reals ZArith.
From Flocq Require Import Core.
From Verif Require Import Base.Prelude.
Open Scope R_scope.

(** float32 storage (protobuf `float` fields, `.astype(np.float32)`):
    round to nearest even in the IEEE binary32 format.
    Simplification: no overflow to infinity and no NaN. *)
Definition f32 (x : R) : R := round radix2 (FLT_exp (-149) 24) ZnearestE x.
Definition f32p (p : pt) : pt := mkpt (f32 (px p)) (f32 (py p)).

(** Python's round(x) and np.around(x): round half to even. *)
Definition round_half_even (x : R) : Z := ZnearestE x.
(** np.around(x, 2) *)
Definition around2 (x : R) : R := IZR (round_half_even (x * 100)) / 100.

(** int(x), and assignment of a float into an int32 array: truncation. *)
Definition trunc (x : R) : Z := Ztrunc x.

(** datetime.timedelta as an integer number of microseconds. *)
Definition timedelta := Z.
(** dt.timedelta(seconds=x): rounds half-even to microseconds. *)
Definition td_seconds (x : R) : timedelta := round_half_even (x * 1000000).
(** timedelta.total_seconds() *)
Definition total_seconds (t : timedelta) : R := IZR t / 1000000.
