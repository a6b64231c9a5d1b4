(** Vocabulary for wrapped environments. *)
From Coq Require Import String Ascii Reals ZArith List Bool.
From Verif Require Import Base.Prelude Model.Environment Model.Wrappers.
Import ListNotations.

Section Layers.
Context {V : Type}.

(** what one object defines itself *)
Definition own_of (o : @object V) : attributes := match o with Plain own => own | Wrapper own _ => own end.

(** [inside_of n o x]: x is reached from o by unwrapping n times *)
Inductive inside_of : nat -> @object V -> @object V -> Prop :=
| inside_here o : inside_of 0 o o
| inside_deeper n own inner x : inside_of n inner x -> inside_of (S n) (Wrapper own (Some inner)) x.

Definition defines (o : @object V) (name : string) (v : V) : Prop := lookup name (own_of o) = Some v.
Definition lacks (o : @object V) (name : string) : Prop := lookup name (own_of o) = None.

(** the name starts with two underscores *)
Definition private_name (name : string) : Prop := exists rest, name = String "_" (String "_" rest).
End Layers.

(** the environments answer every history of calls alike *)
Section Alike.
Context {E1 E2 F : Type}.
Variable a : environment E1 F.
Variable b : environment E2 F.

(** a call: reset, or step with an action *)
Definition run_call {E} (m : environment E F) (action : option (list R)) (e : E) : res (time_step F) * E :=
  match action with None => e_reset m e | Some x => e_step m x e end.
Fixpoint run_calls {E} (m : environment E F) (calls : list (option (list R))) (e : E) : list (res (time_step F)) :=
  match calls with
  | [] => []
  | c :: calls => let '(r, e) := run_call m c e in r :: run_calls m calls e
  end.
End Alike.

(** a reset that succeeds returns a first time step *)
Definition resets_first {E F} (m : environment E F) : Prop :=
  forall e ts e', e_reset m e = (Ok ts, e') -> ts_type ts = FIRST.

(** the smaller of two limits; None: no limit *)
Definition smaller (m n : option Z) : option Z :=
  match m, n with
  | None, x => x
  | x, None => x
  | Some m, Some n => Some (Z.min m n)
  end.
