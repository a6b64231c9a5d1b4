(** 2x2 matrices and the bivariate normal density
    (scipy.stats.multivariate_normal.pdf). *)
From Coq Require Import Reals.
From Verif Require Import Base.Prelude.
Open Scope R_scope.

(** [[a, b], [c, d]] *)
Record mat2 := mkmat2 { ma : R; mb : R; mc : R; md : R }.

Definition mdet (m : mat2) : R := ma m * md m - mb m * mc m.
Definition mmul (m n : mat2) : mat2 :=
  mkmat2 (ma m * ma n + mb m * mc n) (ma m * mb n + mb m * md n)
         (mc m * ma n + md m * mc n) (mc m * mb n + md m * md n).
(** inverse of an invertible matrix *)
Definition minv (m : mat2) : mat2 :=
  mkmat2 (md m / mdet m) (- mb m / mdet m) (- mc m / mdet m) (ma m / mdet m).
Definition mdiag (x y : R) : mat2 := mkmat2 x 0 0 y.
(** p^T m p *)
Definition quad (m : mat2) (p : pt) : R :=
  px p * (ma m * px p + mb m * py p) + py p * (mc m * px p + md m * py p).

(** multivariate_normal.pdf(x, mean, cov), for a positive definite cov *)
Definition normal_pdf (x mean : pt) (cov : mat2) : R :=
  exp (- (1 / 2) * quad (minv cov) (psub x mean)) / (2 * PI * sqrt (mdet cov)).
