(** What the examples for training mean. *)
From Coq Require Import Reals ZArith List.
From Verif Require Import Base.Prelude Model.MicroscopeUtils Model.ImageAligner Model.LearningData.
Import ListNotations.
Open Scope R_scope.

(** of a row of n pixels as long as a row of m, pixel i has its centre in pixel r of the others *)
Definition centre_in (m n i r : nat) : Prop := (2 * n * r <= (2 * i + 1) * m < 2 * n * (r + 1))%nat.
(** the pixel a pixel of the image that was scaled to size x size shows *)
Definition shows {A} (r : raster A) (size i j : nat) (x : A) : Prop :=
  exists k l, centre_in (rs_height r) size i k /\ centre_in (rs_width r) size j l /\
    (k < rs_height r)%nat /\ (l < rs_width r)%nat /\ x = rs_pixel r k l.
(** there is a pixel *)
Definition has_pixels {A} (r : raster A) : Prop := (0 < rs_height r)%nat /\ (0 < rs_width r)%nat.
Definition same_shape {A B} (r : raster A) (s : raster B) : Prop := rs_height r = rs_height s /\ rs_width r = rs_width s.
(** the three classes: the background, carbon and silicon, the latter by atomic or class number *)
Definition of_class (l : Z) (k : nat) : Prop :=
  (k = 0%nat /\ l = 0%Z) \/ (k = 1%nat /\ (l = 6%Z \/ l = 1%Z)) \/ (k = 2%nat /\ (l = 14%Z \/ l = 2%Z)).
(** the last element, if there is one, by itself *)
Definition only_last {A} (l l' : list A) : Prop := (l = [] /\ l' = []) \/ (exists before x, l = before ++ [x] /\ l' = [x]).
