(** What a user of checkpoints knows of names. *)
From Coq Require Import List.
From Verif Require Import Model.CheckpointKeys.
Import ListNotations.

(** [w] is part of [s] *)
Definition occurs (w s : name) : Prop := exists a b, s = a ++ w ++ b.

Section Keys.
Context {V : Type}.
(** the dicts of a state whose keys are renamed *)
Definition field_dicts (f : field (V := V)) : list dict := match f with FDict d => [d] | FValue _ => [] end.
Definition part_dicts (p : opt_part (V := V)) : list dict := match p with Fields fs => flat_map (fun nf => field_dicts (snd nf)) fs | Plain _ => [] end.
Definition dicts (s : state (V := V)) : list dict := st_params s :: flat_map part_dicts (st_opt s).
(** a dict has every key once *)
Definition wf_dict (d : dict (V := V)) : Prop := NoDup (map fst d).
Definition wf_state (s : state (V := V)) : Prop := forall d, In d (dicts s) -> wf_dict d.
(** the key is one of the state's *)
Definition key_of (s : state (V := V)) (k : name) : Prop := exists d v, In d (dicts s) /\ In (k, v) d.
(** a dict with the names [f] gives to the keys *)
Definition renamed (f : name -> name) (d : dict (V := V)) : dict := map (fun kv => (f (fst kv), snd kv)) d.
End Keys.
