(** putting_dune/constants.py *)
From Coq Require Import Reals ZArith.
From Verif Require Import Base.Prelude Base.Matrix.
Open Scope R_scope.

(** constants.py:20 *)
Definition CARBON : Z := 6.
(** constants.py:21 *)
Definition SILICON : Z := 14.
(** constants.py:23 *)
Definition CARBON_BOND_DISTANCE_ANGSTROMS : R := 142 / 100.
(** constants.py:26 *)
Definition SIGR_PRIOR_RATE_MEAN : pt := mkpt (85 / 100) 0.
(** constants.py:27 *)
Definition SIGR_PRIOR_RATE_COV : mat2 := mkmat2 (1 / 10) 0 0 (1 / 10).
(** constants.py:28 *)
Definition SIGR_PRIOR_MAX_RATE : R := ln 2 / 3.
(** constants.py:35 *)
Definition GAMMA_PER_SECOND : R := 9967 / 10000.
