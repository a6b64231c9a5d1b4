(** What the graph network computes, for points 0 .. n-1 and links between them, without padding. *)
From Coq Require Import Reals List Arith Bool Permutation.
From Verif Require Import Base.Prelude Model.GraphNet.
Import ListNotations.
Open Scope R_scope.
Open Scope list_scope.

(** The state of a link (receiver, sender), of a point, and of the whole *)
Record latents := mklatents { of_link : nat * nat -> vec; of_point : nat -> vec; of_whole : vec }.

Section Latents.
Variables (width : nat) (p : gparams) (n : nat) (links : list (nat * nat)) (edge_input : nat * nat -> vec) (node_input : nat -> vec).
Definition encoded : latents :=
  mklatents (fun l => edge_encoder p (edge_input l)) (fun i => node_encoder p (node_input i)) (global_encoder p [0]).
(** After a number of rounds: every link looks at its ends, then every point at its links, then the whole at all *)
Fixpoint latent (k : nat) : latents :=
  match k with
  | O => encoded
  | S k =>
      let whole := of_whole (latent k) ++ of_whole encoded in
      let point i := of_point (latent k) i ++ of_point encoded i in
      let link l := edge_fn p k ((of_link (latent k) l ++ of_link encoded l) ++ point (snd l) ++ point (fst l) ++ whole) in
      let point' i := node_fn p k (point i ++ vsum width (map link (filter (fun l => (snd l =? i)%nat) links)) ++
                                   vsum width (map link (filter (fun l => (fst l =? i)%nat) links)) ++ whole) in
      mklatents link point' (global_fn p k (vsum width (map point' (seq 0 n)) ++ vsum width (map link links) ++ whole))
  end.
End Latents.

(** the entries of a table with a number of rows of a number of entries *)
Definition table {A} (count size : nat) (f : nat -> A) : list (list A) := map (fun t => map (fun i => f (t * size + i)%nat) (seq 0 size)) (seq 0 count).
(** What is predicted from the last state, for [size] points at each of [count] times *)
Definition readout (dims count size : nat) (p : gparams) (l : latents) : list vec * list (list vec) :=
  (map (fun t => vadd (firstn dims (skipn (t * dims) (global_decoder p (of_whole l))))
                      (vmean dims (map (fun i => pooling_decoder p (of_point l (t * size + i)%nat)) (seq 0 size)))) (seq 0 count),
   table count size (fun i => local_decoder p (of_point l i))).

(** A list of neighbors is proper for n points: entries are of points or all of the dummy n; all points first if
    they are not sorted again *)
Definition dummy (n : nat) (e : nat * nat) : Prop := e = (n, n).
Definition linked (n : nat) (e : nat * nat) : Prop := (fst e < n /\ snd e < n)%nat.
Definition proper (n : nat) (idx : list (nat * nat)) : Prop := Forall (fun e => linked n e \/ dummy n e) idx.
Definition sorted_out (n : nat) (idx : list (nat * nat)) : Prop := exists l pad, idx = l ++ pad /\ Forall (linked n) l /\ Forall (dummy n) pad.
Definition usable (threshold : R) (n : nat) (idx : list (nat * nat)) : Prop :=
  (0 < threshold /\ proper n idx) \/ (threshold <= 0 /\ sorted_out n idx).
(** the links that are used: with a threshold only those within the cutoff *)
Definition real_link (n : nat) (e : nat * nat) : bool := (fst e <? n)%nat.
Definition used_links {Pos} (displacement : Pos -> Pos -> vec) (origin : Pos) (cfg : net_config) (positions : list Pos) (idx : list (nat * nat)) : list (nat * nat) :=
  filter (fun e => real_link (length positions) e &&
    (Rleb (nc_threshold cfg) 0 || Rltb (vsquare (displacement (nth (fst e) positions origin) (nth (snd e) positions origin))) (nc_cutoff cfg ^ 2 + / 100000))) idx.
(** the function from an entry to the displacement of its ends *)
Definition displaced {Pos} (displacement : Pos -> Pos -> vec) (origin : Pos) (positions : list Pos) (e : nat * nat) : vec :=
  displacement (nth (fst e) positions origin) (nth (snd e) positions origin).

(** All pairs of points whose distance is less than a cutoff, among them each point and itself *)
Definition near_pairs {Pos} (displacement : Pos -> Pos -> vec) (origin : Pos) (cutoff : R) (positions : list Pos) : list (nat * nat) :=
  filter (fun e => Rltb (vsquare (displaced displacement origin positions e)) (cutoff ^ 2)) (list_prod (seq 0 (length positions)) (seq 0 (length positions))).
(** What is expected of jax_md's update: it puts near pairs, in any order, into the space there is, and says if
    that was too small *)
Definition finds_neighbors {Pos} (displacement : Pos -> Pos -> vec) (origin : Pos) (cutoff : R) (update : list Pos -> neighbors -> neighbors) : Prop :=
  forall positions nb, exists l, Permutation l (near_pairs displacement origin cutoff positions) /\
    let n := length positions in
    update positions nb = mkneighbors (firstn (nb_capacity nb) (l ++ repeat (n, n) (nb_capacity nb))) n (nb_capacity nb <? length l)%nat (nb_capacity nb).

(** sigma renames the points 0 .. n-1 *)
Definition renames (n : nat) (sigma : nat -> nat) : Prop :=
  (forall i, i < n -> sigma i < n)%nat /\ (forall i j, i < n -> j < n -> sigma i = sigma j -> i = j)%nat.
