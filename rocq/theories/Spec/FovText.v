(** Numbers written with two decimals. *)
From Coq Require Import Reals ZArith NArith List String Ascii.
Import ListNotations.
Local Open Scope string_scope.

(** the digit of this value *)
Definition digit (d : N) : string := String (ascii_of_N (48 + d)) "".

(** the numeral of a natural number, without leading zeros *)
Inductive numeral : N -> string -> Prop :=
| numeral_digit d : (d < 10)%N -> numeral d (digit d)
| numeral_more n s d : (0 < n)%N -> numeral n s -> (d < 10)%N -> numeral (10 * n + d) (s ++ digit d).

(** h is the number of hundredths nearest to x, the even one if two are *)
Definition nearest_hundredth (x : R) (h : Z) : Prop :=
  (Rabs (x * 100 - IZR h) <= 1 / 2 /\ (Rabs (x * 100 - IZR h) = 1 / 2 -> Z.even h = true))%R.

(** [written x s]: s is x with two decimals, with a sign if x is negative *)
Definition written (x : R) (s : string) : Prop :=
  exists h whole t o, nearest_hundredth x h /\
    Z.abs h = (100 * Z.of_N whole + 10 * Z.of_N t + Z.of_N o)%Z /\ (t < 10)%N /\ (o < 10)%N /\
    exists w, numeral whole w /\
    ((x < 0)%R /\ s = "-" ++ w ++ "." ++ digit t ++ digit o \/
     (0 <= x)%R /\ s = w ++ "." ++ digit t ++ digit o).
