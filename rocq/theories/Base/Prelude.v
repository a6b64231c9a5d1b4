(** Shared vocabulary of the model: exceptions as values, decidable real
    comparisons, points, array (list) operations in the style of numpy. *)
From Coq Require Export Reals ZArith List Bool Lia Lra Arith.
Export ListNotations.

(** * Exceptions as values

    [OutOfFuel] is the outcome "the loop did not finish within the given
    number of iterations"; it is neither a normal result nor an exception. *)
Inductive exn :=
| SiliconNotFoundError   (* graphene.py:81 (a RuntimeError subclass) *)
| RuntimeError
| ValueError
| AssertionError
| NotImplementedError
| IndexError
| KeyError
| ZeroDivisionError
| TypeError
| FileNotFoundError
| AttributeError.

Inductive res (A : Type) : Type :=
| Ok (a : A)
| Raise (e : exn)
| OutOfFuel.
Arguments Ok {A} a.
Arguments Raise {A} e.
Arguments OutOfFuel {A}.

Definition bind {A B} (r : res A) (f : A -> res B) : res B :=
  match r with
  | Ok a => f a
  | Raise e => Raise e
  | OutOfFuel => OutOfFuel
  end.

Definition fmap_res {A B} (f : A -> B) (r : res A) : res B :=
  bind r (fun a => Ok (f a)).

Declare Scope res_scope.
Notation "x <- r ;; k" := (bind r (fun x => k))
  (at level 61, r at next level, right associativity) : res_scope.

(** * Decidable comparisons on reals, as booleans (Python's <=, <, ==) *)
Definition Rleb (x y : R) : bool := if Rle_dec x y then true else false.
Definition Rltb (x y : R) : bool := if Rlt_dec x y then true else false.
Definition Reqb (x y : R) : bool := if Req_EM_T x y then true else false.

(** np.clip(x, lo, hi) = minimum(maximum(x, lo), hi) *)
Definition clip (x lo hi : R) : R := Rmin (Rmax x lo) hi.

(** * Points and (n,2) arrays *)
Record pt := mkpt { px : R; py : R }.

Definition padd (p q : pt) : pt := mkpt (px p + px q) (py p + py q).
Definition psub (p q : pt) : pt := mkpt (px p - px q) (py p - py q).
Definition pmul (p q : pt) : pt := mkpt (px p * px q) (py p * py q).
Definition pdiv (p q : pt) : pt := mkpt (px p / px q) (py p / py q).
Definition pscale (k : R) (p : pt) : pt := mkpt (k * px p) (k * py p).
Definition pneg (p : pt) : pt := mkpt (- px p) (- py p).
Definition pzero : pt := mkpt 0 0.
Definition psq (p : pt) : R := px p * px p + py p * py p.
(** np.linalg.norm of a 2-vector *)
Definition pnorm (p : pt) : R := sqrt (psq p).
(** np.linalg.norm(p - q) *)
Definition pdist (p q : pt) : R := pnorm (psub p q).
Definition pclip (p : pt) (lo hi : R) : pt :=
  mkpt (clip (px p) lo hi) (clip (py p) lo hi).
Definition psum (l : list pt) : pt := fold_right padd pzero l.
Definition rsum (l : list R) : R := fold_right Rplus 0%R l.
Definition zsum (l : list Z) : Z := fold_right Z.add 0%Z l.
Definition pmean (l : list pt) : pt :=
  pscale (/ INR (length l)) (psum l).

(** * numpy-style list operations *)

(** a[mask]: boolean indexing *)
Fixpoint mask_select {A} (m : list bool) (l : list A) : list A :=
  match m, l with
  | b :: m', x :: l' => if b then x :: mask_select m' l' else mask_select m' l'
  | _, _ => []
  end.

(** a[i] = v; out of range leaves the list unchanged (callers prove range) *)
Fixpoint upd {A} (l : list A) (i : nat) (v : A) : list A :=
  match l, i with
  | [], _ => []
  | _ :: l', O => v :: l'
  | x :: l', S i' => x :: upd l' i' v
  end.

(** [a[i] for i in idx]: integer-array indexing; an index that is out of range
    makes the whole result [None] (numpy raises IndexError) *)
Fixpoint take_idx {A} (l : list A) (idx : list nat) : option (list A) :=
  match idx with
  | [] => Some []
  | i :: idx' =>
      match nth_error l i, take_idx l idx' with
      | Some x, Some xs => Some (x :: xs)
      | _, _ => None
      end
  end.

(** np.argmin over a list of reals: index of the first minimal element.
    [argmin_from best i cur l]: best value so far [cur] at index [best],
    next index is [i]. *)
Fixpoint argmin_from (best i : nat) (cur : R) (l : list R) : nat :=
  match l with
  | [] => best
  | x :: l' => if Rltb x cur then argmin_from i (S i) x l'
               else argmin_from best (S i) cur l'
  end.

(** None models numpy's ValueError on an empty sequence *)
Definition argmin (l : list R) : option nat :=
  match l with
  | [] => None
  | x :: l' => Some (argmin_from 0 1 x l')
  end.

(** np.argmax: first maximal element *)
Definition argmax (l : list R) : option nat := argmin (map Ropp l).
