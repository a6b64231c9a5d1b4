(** Vocabulary for splits of a dataset: rows are known by their place in the data. *)
From Coq Require Import List Permutation.
Import ListNotations.

(** l holds the rows of the data at the given places, in that order *)
Definition rows_of {A} (data : list A) (places : list nat) (l : list A) : Prop :=
  Forall2 (fun i x => nth_error data i = Some x) places l.

(** drawn with replacement to train on; the places not drawn to test on *)
Definition bootstrapped {A} (data train test : list A) : Prop :=
  exists train_places test_places, rows_of data train_places train /\ length train_places = length data /\
    rows_of data test_places test /\ NoDup test_places /\
    forall i, In i test_places <-> i < length data /\ ~ In i train_places.
(** every place in exactly one of the two *)
Definition parted {A} (data train test : list A) : Prop :=
  exists train_places test_places, rows_of data train_places train /\ rows_of data test_places test /\
    Permutation (train_places ++ test_places) (seq 0 (length data)).
