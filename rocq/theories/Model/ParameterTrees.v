(** putting_dune/rate_learning/learn_rates.py: the parameters of an ensemble,
    stacked along a new first axis *)
From Coq Require Import ZArith List Bool Arith String.
From Verif Require Import Base.Prelude Model.MicroscopeUtils Model.DataUtils.
Import ListNotations.
Local Open Scope res_scope.

Section Trees.
Variable A : Type. (* the numbers in the arrays *)

(** an array with its numbers in row-major order.  Simplification: one type of
    numbers. Used at learn_rates.py:76-77. *)
Record array := mkarray { ar_shape : list nat; ar_data : list A }.
(** the number of elements of an array of this shape. Used at learn_rates.py:698-699. *)
Definition size (shape : list nat) : nat := fold_right Nat.mul 1%nat shape.

(** parameters, states and optimizer states: dictionaries and tuples (with
    their positions as keys) of arrays, nested. Used at learn_rates.py:76-77. *)
Inductive tree :=
| Leaf (a : array)
| Node (children : list (string * tree)).

(** used at learn_rates.py:76-77 *)
Fixpoint strings_eqb (a b : list string) : bool :=
  match a, b with
  | [], [] => true
  | x :: a, y :: b => String.eqb x y && strings_eqb a b
  | _, _ => false
  end.

(** used at learn_rates.py:76-77 *)
Definition shape_eqb (a b : list nat) : bool := if list_eq_dec Nat.eq_dec a b then true else false.

(** jax.tree_util: what stands in [u] at the leaves of [t]; None if [u] has
    other keys somewhere, or no keys where [t] has some. Used at learn_rates.py:76-77. *)
Fixpoint flatten_up_to (t u : tree) : option (list tree) :=
  match t, u with
  | Leaf _, _ => Some [u]
  | Node _, Leaf _ => None
  | Node cs, Node ds =>
      if strings_eqb (map fst cs) (map fst ds) then
        (fix go (cs ds : list (string * tree)) : option (list tree) :=
           match cs, ds with
           | c :: cs, d :: ds =>
               match flatten_up_to (snd c) (snd d), go cs ds with
               | Some a, Some b => Some (a ++ b)%list
               | _, _ => None
               end
           | _, _ => Some []
           end) cs ds
      else None
  end.

(** the tree with the keys of [t] and these leaves, and the leaves left over.
    Used at learn_rates.py:76-77. *)
Fixpoint unflatten (t : tree) (leaves : list array) : tree * list array :=
  match t with
  | Leaf _ => match leaves with a :: rest => (Leaf a, rest) | [] => (t, []) end
  | Node cs =>
      let '(cs, rest) :=
        (fix go (cs : list (string * tree)) (leaves : list array) : list (string * tree) * list array :=
           match cs with
           | [] => ([], leaves)
           | c :: cs =>
               let '(x, leaves) := unflatten (snd c) leaves in
               let '(xs, leaves) := go cs leaves in
               ((fst c, x) :: xs, leaves)
           end) cs leaves in
      (Node cs, rest)
  end.

(** the arrays among trees; jnp.stack of anything else raises TypeError.
    Used at learn_rates.py:76-77. *)
Fixpoint arrays (ts : list tree) : res (list array) :=
  match ts with
  | [] => Ok []
  | Leaf a :: ts => l <- arrays ts ;; Ok (a :: l)
  | Node _ :: _ => Raise TypeError
  end.

(** jnp.stack(x, 0): ValueError for arrays of different shapes.
    Used at learn_rates.py:76-77. *)
Definition jnp_stack (x : list tree) : res array :=
  l <- arrays x ;;
  match l with
  | [] => Raise ValueError
  | a :: rest =>
      if forallb (fun b => shape_eqb (ar_shape b) (ar_shape a)) rest
      then Ok (mkarray (List.length l :: ar_shape a) (flat_map ar_data l))
      else Raise ValueError
  end.

(** zip over the rows: the columns of rows of [n] entries. Used at learn_rates.py:76-77. *)
Definition columns (n : nat) (rows : list (list tree)) : list (list tree) :=
  map (fun k => flat_map (fun r => match nth_error r k with Some x => [x] | None => [] end) rows) (seq 0 n).

(** used at learn_rates.py:76-77 *)
Fixpoint all_some {B} (l : list (option B)) : option (list B) :=
  match l with
  | [] => Some []
  | None :: _ => None
  | Some x :: l => option_map (cons x) (all_some l)
  end.

(** learn_rates.py:76-77 tree_stack: without trees tree_map lacks an argument,
    TypeError; trees of another structure are a ValueError *)
Definition tree_stack (list_of_trees : list tree) : res tree :=
  match list_of_trees with
  | [] => Raise TypeError
  | t :: _ =>
      match all_some (map (flatten_up_to t) list_of_trees) with
      | None => Raise ValueError
      | Some rows =>
          leaves <- map_res jnp_stack (columns (List.length (hd [] rows)) rows) ;;
          Ok (fst (unflatten t leaves))
      end
  end.

(** the parts of an array along its first axis, in order.
    Used at learn_rates.py:698-699. *)
Fixpoint chunks (n k : nat) (l : list A) : list (list A) :=
  match n with
  | O => []
  | S n => firstn k l :: chunks n k (skipn k l)
  end.

(** x[model_index] of an array: IndexError without axes; indices as in
    [jnp_index].  Simplification: an axis of length 0, which has no element to
    return, is an IndexError. Used at learn_rates.py:698-699. *)
Definition array_index (i : Z) (a : array) : res array :=
  match ar_shape a with
  | [] => Raise IndexError
  | O :: _ => Raise IndexError
  | n :: shape => Ok (mkarray shape (jnp_index (chunks n (size shape) (ar_data a)) i []))
  end.

(** learn_rates.py:698-699: tree_map(lambda x: x[model_index], params) *)
Fixpoint tree_index (i : Z) (t : tree) : res tree :=
  match t with
  | Leaf a => fmap_res Leaf (array_index i a)
  | Node cs =>
      fmap_res Node
        ((fix go (cs : list (string * tree)) : res (list (string * tree)) :=
            match cs with
            | [] => Ok []
            | c :: cs => x <- tree_index i (snd c) ;; xs <- go cs ;; Ok ((fst c, x) :: xs)
            end) cs)
  end.

End Trees.
