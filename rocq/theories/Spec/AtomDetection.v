(** Vocabulary for the stand-alone atom detector. *)
From Coq Require Import Reals ZArith List Bool.
From Flocq Require Import Core.
From Verif Require Import Base.Prelude Base.Rounding Model.ImageAligner Model.AtomDetector.
Import ListNotations.
Open Scope R_scope.

(** the bits of a float32 in [0, 1] *)
Definition probability (b : Z) : Prop := (0 <= b <= 127 * 2 ^ 23)%Z.
(** the smallest float32 that is not subnormal *)
Definition tiny : R := bpow radix2 (-126).
(** the probabilities of carbon and silicon at a pixel *)
Definition p_carbon (p : Z * Z * Z) : R := bits_value (snd (fst p)).
Definition p_silicon (p : Z * Z * Z) : R := bits_value (snd p).
(** what counts as carbon *)
Definition enough_carbon (p : Z * Z * Z) : Prop := f32 (1 / 40) < p_carbon p.
(** pixel (i, j) is covered by the carbon mask: every pixel up to two rows above
    and two columns left of it has carbon up to four rows above and four columns
    left *)
Definition covered (probs : raster (Z * Z * Z)) (i j : nat) : Prop :=
  forall i1 j1, (i1 <= i <= i1 + 2)%nat -> (j1 <= j <= j1 + 2)%nat ->
  exists i2 j2, (i2 <= i1 <= i2 + 4)%nat /\ (j2 <= j1 <= j2 + 4)%nat /\ enough_carbon (rs_pixel probs i2 j2).
(** what counts as silicon *)
Definition counts_as_silicon (probs : raster (Z * Z * Z)) (i j : nat) : Prop :=
  (~ covered probs i j /\ p_silicon (rs_pixel probs i j) = 1) \/
  (covered probs i j /\ p_silicon (rs_pixel probs i j) < tiny).
