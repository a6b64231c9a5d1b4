(** How the training of the graph network renames parameters for its
    checkpoints, and back: graph_alignment/train.py.  Names are lists of
    characters. *)
From Coq Require Import String Ascii List Bool Arith.
From Verif Require Import Base.Prelude.
Import ListNotations.

(** used at graph_alignment/train.py:75, 86 *)
Definition name : Type := list ascii.
(** used at graph_alignment/train.py:56-91 *)
Definition name_of (s : string) : name := list_ascii_of_string s.
(** used at graph_alignment/train.py:75, 86 *)
Definition name_eqb (a b : name) : bool := if list_eq_dec ascii_dec a b then true else false.

(** str.startswith. Used at graph_alignment/train.py:75, 86. *)
Fixpoint starts_with (w s : name) : bool :=
  match w, s with
  | [], _ => true
  | a :: w, b :: s => Ascii.eqb a b && starts_with w s
  | _ :: _, [] => false
  end.
(** str.replace(left, right) for a nonempty left: from left to right, without
    overlaps.  [skip]: characters of an occurrence still to be dropped.
    Used at graph_alignment/train.py:75, 86. *)
Fixpoint replace_from (left right : name) (skip : nat) (s : name) : name :=
  match s with
  | [] => []
  | c :: s' =>
      match skip with
      | S skip => replace_from left right skip s'
      | O => if starts_with left s then right ++ replace_from left right (length left - 1) s'
             else c :: replace_from left right 0 s'
      end
  end.
(** used at graph_alignment/train.py:75, 86 *)
Definition replace (left right s : name) : name := replace_from left right 0 s.

Section Keys.
Context {V : Type}.          (* arrays, and everything else that is not renamed *)

(** a dict in the order of insertion: assigning to a key that exists keeps its
    place *)
Definition dict : Type := list (name * V).
Fixpoint set_item (k : name) (v : V) (d : dict) : dict :=
  match d with
  | [] => [(k, v)]
  | (k', v') :: d => if name_eqb k k' then (k, v) :: d else (k', v') :: set_item k v d
  end.
(** a dict comprehension over items *)
Definition dict_of (items : list (name * V)) : dict := fold_left (fun d kv => set_item (fst kv) (snd kv) d) items [].
(** graph_alignment/train.py:75, 86 *)
Definition rename_dict (left right : name) (d : dict) : dict := dict_of (map (fun kv => (replace left right (fst kv), snd kv)) d).

(** a part of the optimizer's state: a named tuple, or anything else.
    Used at graph_alignment/train.py:83-87. *)
Inductive field := FDict (d : dict) | FValue (v : V).
(** used at graph_alignment/train.py:79-89 *)
Inductive opt_part := Fields (fs : list (name * field)) | Plain (v : V).
(** used at graph_alignment/train.py:75-90 *)
Record state := mkstate { st_params : dict; st_opt : list opt_part; st_rest : V }.

(** graph_alignment/train.py:83-87 *)
Definition rename_field (left right : name) (f : field) : field :=
  match f with
  | FDict d => FDict (rename_dict left right d)
  | FValue v => FValue v
  end.
(** graph_alignment/train.py:79-89 *)
Definition rename_part (left right : name) (p : opt_part) : opt_part :=
  match p with
  | Fields fs => Fields (map (fun nf => (fst nf, rename_field left right (snd nf))) fs)
  | Plain v => Plain v
  end.
(** graph_alignment/train.py:75-90: one replacement *)
Definition rename_state (left right : name) (s : state) : state :=
  mkstate (rename_dict left right (st_params s)) (map (rename_part left right) (st_opt s)) (st_rest s).
(** graph_alignment/train.py:56-91 sanitize_state_keys *)
Definition sanitize_state_keys (s : state) (replacements : list (name * name)) : state :=
  fold_left (fun s lr => rename_state (fst lr) (snd lr) s) replacements s.

Definition slash : name := name_of "/".
Definition tilde : name := name_of "~".
Definition dummy_slash : name := name_of "dummy_slash".
Definition dummy_tilde : name := name_of "dummy_tilde".
(** graph_alignment/train.py:427-429, 447-449: what is saved *)
Definition to_checkpoint (s : state) : state := sanitize_state_keys s [(slash, dummy_slash); (tilde, dummy_tilde)].
(** graph_alignment/train.py:367-369: what is restored *)
Definition from_checkpoint (s : state) : state := sanitize_state_keys s [(dummy_slash, slash); (dummy_tilde, tilde)].
End Keys.
