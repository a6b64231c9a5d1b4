(** Property C18: AtomicGrid.__eq__ and __hash__. *)
From Coq Require Import Reals ZArith List Bool Lia Lra Arith Permutation.
From Verif Require Import Base.Prelude Base.Rounding Model.Geometry Model.MicroscopeUtils
  Spec.Grids Proofs.BaseFacts Proofs.GeometryFacts Proofs.GridEqFacts.
Import ListNotations.
Open Scope R_scope.

(** Any reordering of a non-empty grid without coinciding atoms is equal to
    it (in particular the grid itself). *)
Theorem grid_eq_reordering : forall knn self other,
  knn_ok knn -> wf_grid self -> wf_grid other ->
  positions self <> [] -> NoDup (positions self) ->
  Permutation (atoms self) (atoms other) -> grid_eq knn self other = Ok true.
Proof. exact grid_eq_perm. Qed.
Print Assumptions grid_eq_reordering.

(** Equality means: same number of atoms, and every atom of the right grid
    has, among its nearest atoms of the left grid, one with the same number at
    distance at most 1e-3. *)
Theorem grid_eq_meaning : forall knn self other,
  knn_ok knn -> wf_grid self -> wf_grid other -> positions self <> [] ->
  grid_eq knn self other = Ok true ->
  length (atoms self) = length (atoms other) /\
  forall q z, In (q, z) (atoms other) ->
  exists p, In (p, z) (atoms self) /\ pdist p q <= 1 / 1000 /\
            (forall p' z', In (p', z') (atoms self) -> pdist p q <= pdist p' q).
Proof.
  intros knn self other K Ws Wo NE H.
  destruct (grid_eq_lengths _ _ _ H) as [L1 L2]. split.
  - unfold atoms; rewrite !combine_length; lia.
  - intros q z Hin.
    destruct (grid_eq_sound knn K self other Ws Wo L1 NE H q z Hin) as (p & i & [Hi Hn] & Hd).
    exists p. split; [eapply nth_error_In; eauto|split; auto].
Qed.
Print Assumptions grid_eq_meaning.

(** and it is sufficient that all nearest atoms agree *)
Theorem grid_eq_sufficient : forall knn self other,
  knn_ok knn -> wf_grid self -> wf_grid other -> positions self <> [] ->
  length (atoms self) = length (atoms other) ->
  (forall q z p z', In (q, z) (atoms other) -> In (p, z') (atoms self) ->
     (forall p'' z'', In (p'', z'') (atoms self) -> pdist p q <= pdist p'' q) ->
     z' = z /\ pdist p q <= 1 / 1000) ->
  grid_eq knn self other = Ok true.
Proof.
  intros knn self other K Ws Wo NE L H. apply grid_eq_complete; auto.
  - unfold atoms, wf_grid in *; rewrite !combine_length in L; lia.
  - intros q z Hq i p z' [Hi Hn]. eapply H; eauto. eapply nth_error_In; eauto.
Qed.
Print Assumptions grid_eq_sufficient.

(** Grids of different sizes are different; comparing two empty grids raises. *)
Theorem grid_eq_sizes : forall knn self other, wf_grid self -> wf_grid other ->
  (length (atoms self) <> length (atoms other) -> grid_eq knn self other = Ok false) /\
  (atoms self = [] -> atoms other = [] -> grid_eq knn self other = Raise ValueError).
Proof.
  intros knn self other W W'. unfold atoms, wf_grid in *. split.
  - rewrite !combine_length; intro H; apply grid_eq_diff; lia.
  - intros H H'.
    pose proof (f_equal (@length _) H) as L. pose proof (f_equal (@length _) H') as L'.
    rewrite combine_length in L, L'; simpl in L, L'.
    apply grid_eq_empty; auto; apply length_zero_iff_nil; lia.
Qed.
Print Assumptions grid_eq_sizes.

(** It is not symmetric, whatever the tie-breaking of the search. *)
Theorem grid_eq_symmetric_refuted : exists a b, wf_grid a /\ wf_grid b /\
  forall knn, knn_ok knn -> grid_eq knn a b = Ok true /\ grid_eq knn b a = Ok false.
Proof.
  exists asym_a, asym_b. repeat split; [apply asym_true|apply asym_false]; auto.
Qed.
Print Assumptions grid_eq_symmetric_refuted.

(** Reordering keeps the hash, but equal grids may have different hashes. *)
Theorem grid_hash_reordering : forall g g',
  Permutation (atoms g) (atoms g') -> grid_hash g = grid_hash g'.
Proof. exact hash_perm. Qed.
Print Assumptions grid_hash_reordering.

Theorem grid_hash_consistent_refuted : exists a b, wf_grid a /\ wf_grid b /\
  (forall knn, knn_ok knn -> grid_eq knn a b = Ok true) /\ grid_hash a <> grid_hash b.
Proof.
  exists hash_a, hash_b. repeat split; [intros; apply hash_equal; auto|apply hash_differs].
Qed.
Print Assumptions grid_hash_consistent_refuted.

Example grid_eq_nonvacuous :
  let a := mkgrid [mkpt 0 0; mkpt 1 0] [14%Z; 6%Z] in
  let b := mkgrid [mkpt 1 0; mkpt 0 0] [6%Z; 14%Z] in
  grid_eq knn_sort a b = Ok true.
Proof.
  simpl. apply grid_eq_perm; try reflexivity; try discriminate.
  - apply knn_sort_ok.
  - constructor; [simpl; intros [E|[]]; injection E; lra|repeat constructor; simpl; tauto].
  - apply perm_swap.
Qed.
