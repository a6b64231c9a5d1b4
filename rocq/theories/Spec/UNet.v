(** What is expected of the U-nets. *)
From Coq Require Import Reals List Arith.
From Verif Require Import Base.Prelude Model.GraphNet Model.UNet.
Import ListNotations.

(** two images of a size that are the same at all pixels at most [r] rows and columns away from one *)
Definition alike_near (r i j : nat) (x x' : tensor) : Prop :=
  tn_rows x = tn_rows x' /\ tn_cols x = tn_cols x' /\
  forall u v, (u < tn_rows x)%nat -> (v < tn_cols x)%nat -> (i <= u + r /\ u <= i + r)%nat -> (j <= v + r /\ v <= j + r)%nat -> tn_pixel x u v = tn_pixel x' u v.
(** layers make vectors with as many entries as they have channels *)
Definition regular (l : layer) : Prop := (forall a b v, length (ly_taps l a b v) = ly_channels l) /\ (forall v, length (ly_post l v) = length v).
(** how far a net with a number of levels looks *)
Definition reach (levels : nat) : nat := 5 * 2 ^ (levels - 1) - 4.

(** * The values, over all of the plane: there is nothing outside of an image *)
From Coq Require Import ZArith Bool.
Open Scope Z_scope.
Definition plane : Type := Z -> Z -> option vec.
Definition on_plane (x : tensor) : plane := fun i j =>
  if (0 <=? i) && (i <? Z.of_nat (tn_rows x)) && (0 <=? j) && (j <? Z.of_nat (tn_cols x)) then Some (tn_pixel x (Z.to_nat i) (Z.to_nat j)) else None.
(** what the taps see of a plane from a place on *)
Definition tapped (size : nat) (l : layer) (x : plane) (i j : Z) : list vec :=
  flat_map (fun a => flat_map (fun b => match x (i + Z.of_nat a) (j + Z.of_nat b) with Some v => [ly_taps l a b v] | None => [] end) (seq 0 size)) (seq 0 size).
Definition plane_conv (size : nat) (l : layer) (x : plane) : plane := fun i j =>
  match x i j with
  | Some _ => Some (ly_post l (vsum (ly_channels l) (tapped size l x (i - Z.of_nat size / 2) (j - Z.of_nat size / 2))))
  | None => None
  end.
(** channel by channel the largest of four *)
Definition largest (a b c d m : vec) : Prop :=
  length m = length a /\ forall k, (k < length m)%nat ->
    (nth k m 0 = nth k a 0 \/ nth k m 0 = nth k b 0 \/ nth k m 0 = nth k c 0 \/ nth k m 0 = nth k d 0)%R /\
    (nth k a 0 <= nth k m 0 /\ nth k b 0 <= nth k m 0 /\ nth k c 0 <= nth k m 0 /\ nth k d 0 <= nth k m 0)%R.
(** pixels at even places *)
Definition stretch (x : plane) : plane := fun i j => if Z.even i && Z.even j then x (i / 2) (j / 2) else None.
Definition plane_transpose (l : layer) (x : plane) : plane := fun i j =>
  match x (i / 2) (j / 2) with
  | Some _ => Some (ly_post l (vsum (ly_channels l) (tapped 3 l (stretch x) (i - 2) (j - 2))))
  | None => None
  end.
Definition joined (a b : plane) : plane := fun i j => match a i j, b i j with Some v, Some w => Some (v ++ w)%list | _, _ => None end.
Definition same (x y : plane) : Prop := forall i j, x i j = y i j.
