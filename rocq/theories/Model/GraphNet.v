(** putting_dune/graph_alignment/model.py: the graph network *)
From Coq Require Import Reals ZArith List Bool Arith.
From Verif Require Import Base.Prelude Model.LearningSteps.
Import ListNotations.
Open Scope R_scope.
Open Scope list_scope.

(** used at graph_alignment/model.py:87-111 *)
Definition vec : Type := list R.
(** jraph's segment_sum: the sum of some rows of a matrix with the given number of columns.
    Used at graph_alignment/model.py:179-202. *)
Definition vadd (a b : vec) : vec := map2 Rplus a b.
(** used at graph_alignment/model.py:94-99, 106-111, 118 *)
Definition vsum (width : nat) (l : list vec) : vec := fold_right vadd (repeat 0 width) l.
(** jnp.mean over the second-to-last axis. Used at graph_alignment/model.py:179-202. *)
Definition vmean (width : nat) (l : list vec) : vec := map (fun x => x / INR (length l)) (vsum width l).
(** used at graph_alignment/model.py:319-320 *)
Definition vsquare (v : vec) : R := rsum (map (fun x => x * x) v).

(** jax_md.partition's formats. Used at graph_alignment/model.py:113-120. *)
Inductive graph_format := Dense | Sparse | OrderedSparse.

(** graph_alignment/model.py:205-235 create_sparse_neighbor_list: idx as pairs of its rows (receiver, sender).
    The update function and the initial positions, which are only used by an update, are left out but for the
    number of positions. *)
Record neighbors := mkneighbors { nb_idx : list (nat * nat); nb_points : nat; nb_overflow : bool; nb_capacity : nat }.
Definition create_neighbors (capacity points : nat) : neighbors :=
  mkneighbors (repeat (0, 0)%nat capacity) points false capacity.

(** The functions that the parameters give: MLPs with normalization (graph_alignment/model.py:87-111), which
    act on each row, and of which each recurrence has its own; decoders (158-177). *)
Record gparams := mkgparams {
  edge_encoder : vec -> vec;
  node_encoder : vec -> vec;
  global_encoder : vec -> vec;
  edge_fn : nat -> vec -> vec;
  node_fn : nat -> vec -> vec;
  global_fn : nat -> vec -> vec;
  global_decoder : vec -> vec;
  local_decoder : vec -> vec;
  pooling_decoder : vec -> vec
}.

(** jraph.GraphsTuple with two graphs: of the points and of what is left over of the edges.  Rows of nodes after
    the last are not used.  Edges are (receiver, sender, value).
    Used at graph_alignment/model.py:101-105, 114. *)
Record graph := mkgraph {
  g_nodes : nat -> vec;
  g_edges : list (nat * nat * vec);
  g_globals : vec * vec;
  g_points : nat;
  g_real : nat
}.

(** graph_alignment/model.py:101-105, 114: jraph.GraphMapFeatures *)
Definition encode (p : gparams) (g : graph) : graph :=
  mkgraph (fun i => node_encoder p (g_nodes g i)) (map (fun e => (fst e, edge_encoder p (snd e))) (g_edges g))
    (global_encoder p (fst (g_globals g)), global_encoder p (snd (g_globals g))) (g_points g) (g_real g).
(** graph_alignment/model.py:117: jax_md.nn.concatenate_graph_features of two graphs with the same edges *)
Definition concatenate_graphs (a b : graph) : graph :=
  mkgraph (fun i => g_nodes a i ++ g_nodes b i) (map2 (fun x y => (fst x, snd x ++ snd y)) (g_edges a) (g_edges b))
    (fst (g_globals a) ++ fst (g_globals b), snd (g_globals a) ++ snd (g_globals b)) (g_points a) (g_real a).
(** graph_alignment/model.py:94-99, 106-111, 118: jraph.GraphNetwork (not in /repo: written from its
    documentation) *)
Definition global_of (g : graph) (in_first : bool) : vec := if in_first then fst (g_globals g) else snd (g_globals g).
Definition new_edges (p : gparams) (k : nat) (g : graph) : list (nat * nat * vec) :=
  map2 (fun i e => let '(receiver, sender, v) := e in
          (receiver, sender, edge_fn p k (v ++ g_nodes g sender ++ g_nodes g receiver ++ global_of g (i <? g_real g)%nat)))
    (seq 0 (length (g_edges g))) (g_edges g).
Definition sent_by (i : nat) (edges : list (nat * nat * vec)) : list vec := map snd (filter (fun e => (snd (fst e) =? i)%nat) edges).
Definition received_by (i : nat) (edges : list (nat * nat * vec)) : list vec := map snd (filter (fun e => (fst (fst e) =? i)%nat) edges).
Definition new_node (width : nat) (p : gparams) (k : nat) (g : graph) (i : nat) : vec :=
  node_fn p k (g_nodes g i ++ vsum width (sent_by i (new_edges p k g)) ++ vsum width (received_by i (new_edges p k g)) ++ global_of g (i <? g_points g)%nat).
Definition propagate (width : nat) (p : gparams) (k : nat) (g : graph) : graph :=
  let edges := new_edges p k g in
  let nodes := new_node width p k g in
  mkgraph nodes edges
    (global_fn p k (vsum width (map nodes (seq 0 (g_points g))) ++ vsum width (map snd (firstn (g_real g) edges)) ++ fst (g_globals g)),
     global_fn p k (vsum width [nodes (g_points g)] ++ vsum width (map snd (skipn (g_real g) edges)) ++ snd (g_globals g)))
    (g_points g) (g_real g).
(** graph_alignment/model.py:113-120 GraphNetEncoder.__call__ *)
Definition encoder_call (width recurrences : nat) (p : gparams) (g : graph) : graph :=
  let encoded := encode p g in
  fold_left (fun outputs k => propagate width p k (concatenate_graphs outputs encoded)) (seq 0 recurrences) encoded.

Section Network.
Context {Pos : Type}.
Variable displacement : Pos -> Pos -> vec.
Variable origin : Pos.

Record net_config := mknet_config {
  nc_format : graph_format;
  nc_cutoff : R;
  nc_threshold : R;
  nc_recurrences : nat;
  nc_dims : nat;
  nc_steps : nat;
  nc_width : nat  (** the last of mlp_sizes *)
}.

(** positions[i] of jax: an index that is too large gives the last *)
Definition position (positions : list Pos) (i : nat) : Pos := nth (Nat.min i (length positions - 1)) positions origin.
Definition edge_displacement (positions : list Pos) (e : nat * nat) : vec :=
  displacement (position positions (fst e)) (position positions (snd e)).
(** graph_alignment/model.py:319-320 and jax_md.partition.to_jraph (not in /repo: written from its source) *)
Definition edge_kept (cfg : net_config) (positions : list Pos) (e : nat * nat) : bool :=
  (fst e <? length positions)%nat && Rltb (vsquare (edge_displacement positions e)) (nc_cutoff cfg * nc_cutoff cfg + / 100000).
(** graph_alignment/model.py:287-335 create_graph_fn; nothing is returned for the Dense format (311), and
    to_jraph fills up with edges of the last node, that it adds *)
Definition create_graph (cfg : net_config) (positions : list Pos) (features : list vec) (idx : list (nat * nat)) : option graph :=
  let n := length positions in
  match nc_format cfg with
  | Dense => None
  | _ =>
      let '(edges, real) :=
        if Rltb 0 (nc_threshold cfg)
        then let kept := filter (edge_kept cfg positions) idx in
             (kept ++ repeat (n, n) (length idx - length kept), length kept)
        else (idx, length (filter (fun e => (fst e <? n)%nat) idx)) in
      let zeros := repeat 0 (length (nth 0 features [])) in
      Some (mkgraph (fun i => nth i features zeros) (map (fun e => (e, edge_displacement positions e)) edges) ([0], [0]) n real)
  end.

(** graph_alignment/model.py:179-202 AlignmentGraphNetwork.__call__, with the failure of GroupNorm (80-83)
    where 8 does not divide the width.  Without a graph, GraphMapFeatures fails. *)
Definition rows (count width : nat) (v : vec) : list vec := map (fun t => firstn width (skipn (t * width) v)) (seq 0 count).
Definition network_call (cfg : net_config) (p : gparams) (g : option graph) : res (list vec * list (list vec)) :=
  match g with
  | None => Raise AttributeError
  | Some g =>
      if negb (nc_width cfg mod 8 =? 0)%nat then Raise ValueError else
      let output := encoder_call (nc_width cfg) (nc_recurrences cfg) p g in
      let t := nc_steps cfg in
      match nc_format cfg with
      | Sparse =>
          let n := g_points g in
          if (t =? 0)%nat || negb (n mod t =? 0)%nat then Raise TypeError else
          let per_step := (n / t)%nat in
          let latents := map (fun s => map (fun i => g_nodes output (s * per_step + i)) (seq 0 per_step)) (seq 0 t) in
          let global_output := global_decoder p (fst (g_globals output)) in
          if negb (length global_output =? t * nc_dims cfg)%nat then Raise TypeError else
          Ok (map2 vadd (rows t (nc_dims cfg) global_output) (map (fun l => vmean (nc_dims cfg) (map (pooling_decoder p) l)) latents),
              map (map (local_decoder p)) latents)
      | _ => Raise TypeError  (** the decoded state of two graphs has not the shape of one *)
      end
  end.
(** graph_alignment/model.py:337-350 model; features of another number of points cannot be reshaped (298) *)
Definition graph_apply (cfg : net_config) (p : gparams) (positions : list Pos) (idx : list (nat * nat)) (features : list vec)
  : res (list vec * list (list vec)) :=
  if negb (length features =? length positions)%nat then Raise TypeError else
  network_call cfg p (create_graph cfg positions features idx).

(** graph_alignment/train.py:178-187 train_alignment_fn: [update] finds the neighbors at some positions; whether
    they fit is not looked at *)
Definition train_alignment (update : list Pos -> neighbors -> neighbors) (capacity : nat) (cfg : net_config) (p : gparams)
    (positions : list Pos) (features : list vec) : res (list vec * list (list vec)) :=
  let neighbor := create_neighbors capacity (length positions) in
  let neighbor := update positions neighbor in
  graph_apply cfg p positions (nb_idx neighbor) features.
(** graph_alignment/train.py:307-319: the network that is trained *)
Definition trained_config (cutoff : R) (steps : nat) : net_config := mknet_config Sparse cutoff 0 3 2 steps 64.
End Network.
