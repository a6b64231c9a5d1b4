(** Vocabulary for what an image aligner remembers and shows its network. *)
From Coq Require Import Reals ZArith List Bool.
From Verif Require Import Base.Prelude Model.MicroscopeUtils Model.ImageAligner Spec.Views.
Import ListNotations.
Open Scope R_scope.

(** the last n of a list *)
Definition lastn {A} (n : nat) (l : list A) : list A := skipn (length l - n) l.

(** a call of the aligner *)
Record request := mkrequest { rq_image : raster R; rq_view : fov; rq_grid : option grid; rq_time : Z }.

(** frames for the network: the remembered ones as they look in the current
    view, oldest first, then the current one *)
Definition shown (history : list (frame * fov)) (now : frame) (view : fov) (frames : list frame) : Prop :=
  exists older, frames = older ++ [now] /\
    Forall2 (fun h f => pad_and_crop_images_by_fov (Some 0) (fst h) (snd h) view = Ok f) history older.

(** of the size that the network is trained on *)
Definition net_size (f : frame) : Prop := rs_height f = 512%nat /\ rs_width f = 512%nat.
(** an image that can be shown in a square view with sides s *)
Definition showable (s : R) (h : frame * fov) : Prop :=
  net_size (fst h) /\ exists s0, square_view (snd h) s0 /\ s / 1024 < s0.

(** x is the i-th of l, counted from the end if i is negative *)
Definition at_index {A} (l : list A) (i : Z) (x : A) : Prop :=
  exists k, nth_error l k = Some x /\ (i = Z.of_nat k \/ i = Z.of_nat k - Z.of_nat (length l))%Z.
