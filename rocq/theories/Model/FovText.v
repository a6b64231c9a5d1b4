(** putting_dune/microscope_utils.py: a field of view as text *)
From Coq Require Import Reals ZArith NArith List Bool String Ascii.
From Verif Require Import Base.Prelude Base.Rounding Model.MicroscopeUtils.
Local Open Scope string_scope.

(** str(n), digit by digit. Used at microscope_utils.py:443-446. *)
Definition digit_of (d : N) : string := String (ascii_of_N (48 + d)) "".
(** used at microscope_utils.py:443-446 *)
Fixpoint digits (fuel : nat) (n : N) : string :=
  match fuel with
  | O => ""
  | S fuel => if (n <? 10)%N then digit_of n else digits fuel (n / 10) ++ digit_of (n mod 10)
  end.
(** used at microscope_utils.py:443-446 *)
Definition decimal_N (n : N) : string := digits (S (N.size_nat n)) n.

(** format(x, '.2f'): rounded to hundredths, half to even on the exact value;
    the sign is that of x, also if all digits are zero.  Simplification: the
    real number has no negative zero. Used at microscope_utils.py:443-446. *)
Definition fixed2 (x : R) : string :=
  let hundredths := Z.to_N (Z.abs (round_half_even (x * 100))) in
  (if Rltb x 0 then "-" else "") ++ decimal_N (hundredths / 100) ++ "." ++
  decimal_N ((hundredths / 10) mod 10) ++ decimal_N (hundredths mod 10).

(** microscope_utils.py:443-446 MicroscopeFieldOfView.__str__ *)
Definition fov_str (f : fov) : string :=
  "FOV [(" ++ fixed2 (px (lower_left f)) ++ ", " ++ fixed2 (py (lower_left f)) ++ "), (" ++
  fixed2 (px (upper_right f)) ++ ", " ++ fixed2 (py (upper_right f)) ++ ")]".
