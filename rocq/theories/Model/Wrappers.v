(** putting_dune/run_helpers.py:64-112 EnvironmentWrapper: looking up and
    setting attributes of wrapped environments. *)
From Coq Require Import String Ascii ZArith List Bool.
From Verif Require Import Base.Prelude Model.Environment.
Import ListNotations.

Section Objects.
Context {V : Type}.

Definition attributes := list (string * V).
Fixpoint lookup (name : string) (l : attributes) : option V :=
  match l with
  | [] => None
  | (n, v) :: l => if String.eqb n name then Some v else lookup name l
  end.

(** An environment, or a wrapper around one.  The attributes are those that
    ordinary lookup finds: of the instance and of its classes.  A wrapper also
    has _environment, once its __init__ has run (line 75). Used at run_helpers.py:77-82. *)
Inductive object :=
| Plain (own : attributes)
| Wrapper (own : attributes) (wrapped : option object).

(** name.startswith("__"). Used at run_helpers.py:77-82. *)
Definition dunder (name : string) : bool := String.prefix "__" name.

(** getattr.  What is not found is asked of __getattr__ (run_helpers.py:77-82).
    Without _environment line 82 calls __getattr__ again, for _environment,
    without end: RecursionError, a RuntimeError. *)
Fixpoint get_attribute (o : object) (name : string) : res V :=
  match o with
  | Plain own => match lookup name own with Some v => Ok v | None => Raise AttributeError end
  | Wrapper own wrapped =>
      match lookup name own with
      | Some v => Ok v
      | None =>
          if dunder name then Raise AttributeError
          else match wrapped with Some inner => get_attribute inner name | None => Raise RuntimeError end
      end
  end.

(** hasattr: AttributeError means no, other exceptions pass.
    Used at run_helpers.py:77-82. *)
Definition has_attribute (o : object) (name : string) : res bool :=
  match get_attribute o name with
  | Ok _ => Ok true
  | Raise AttributeError => Ok false
  | Raise x => Raise x
  | OutOfFuel => OutOfFuel
  end.

(** setattr: there is no __setattr__, so the object itself is written.
    Used at run_helpers.py:64-112. *)
Fixpoint set_in (name : string) (v : V) (l : attributes) : attributes :=
  match l with
  | [] => [(name, v)]
  | (n, w) :: l => if String.eqb n name then (n, v) :: l else (n, w) :: set_in name v l
  end.
(** used at run_helpers.py:64-112 *)
Definition set_attribute (o : object) (name : string) (v : V) : object :=
  match o with
  | Plain own => Plain (set_in name v own)
  | Wrapper own wrapped => Wrapper (set_in name v own) wrapped
  end.

(** run_helpers.py:84-86 the property environment: line 86 reads _environment *)
Definition environment_property (o : object) : res object :=
  match o with
  | Plain _ => Raise AttributeError
  | Wrapper _ (Some inner) => Ok inner
  | Wrapper _ None => Raise RuntimeError
  end.
End Objects.

(** run_helpers.py:93-97 EnvironmentWrapper.step and reset *)
Definition wrapped_environment {E F} (inner : environment E F) : environment E F :=
  mkenvironment (fun e => e_reset inner e) (fun action e => e_step inner action e).
