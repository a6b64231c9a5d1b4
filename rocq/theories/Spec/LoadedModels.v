(** Vocabulary of C126. *)
From Coq Require Import List.
From Verif Require Import Base.Prelude Model.Downloads Model.LoadedModels.
Import ListNotations.

(** An object was asked for its model in the history, and had it.  The world
    before the history and the loader are given. *)
Definition answered {Byte Net} (unzip : list Byte -> res (list (name_path * list Byte)))
    (load : (name_path -> option (list Byte)) -> res Net)
    (w : world Byte Net) (h : list (event Byte)) (i : nat) (n : Net) : Prop :=
  exists h1 h2, h = h1 ++ Use i :: h2 /\ comes unzip load w h1 (Use i) = Answer (Ok n).
