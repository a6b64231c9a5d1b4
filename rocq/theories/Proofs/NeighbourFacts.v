(** nearest_neighbors3 meets its specification. *)
From Coq Require Import Reals ZArith List Bool Lia Lra Arith.
From Verif Require Import Base.Prelude Model.Geometry Spec.Neighbours
  Proofs.BaseFacts Proofs.GeometryFacts.
Import ListNotations.
Open Scope R_scope.

Lemma knn4_three_nearest knn pts s q idx : knn_ok knn -> (4 <= length pts)%nat ->
  nth_error pts s = Some q -> knn 4%nat pts q = s :: idx -> three_nearest pts s idx.
Proof.
  intros K Hl Hs E.
  pose proof (knn_length _ K 4 pts q Hl) as L. rewrite E in L; simpl in L.
  pose proof (knn_nodup _ K 4 pts q Hl) as ND. rewrite E in ND. inversion ND; subst.
  constructor; auto.
  - intros i Hi. pose proof (knn_range _ K 4 pts q i Hl) as Hr. rewrite E in Hr.
    specialize (Hr (or_intror Hi)). destruct (nth_error pts i) eqn:F; eauto.
    apply nth_error_None in F; lia.
  - intros a b i j p r c Hab Hc Ha Hb Hp Hr. rewrite Hs in Hc; injection Hc; intros <-.
    pose proof (knn_sorted _ K 4 pts q (S a) (S b) i j Hl) as HS. rewrite E in HS.
    unfold dist_at in HS. rewrite (nth_error_nth_default _ _ pzero _ Hp) in HS.
    rewrite (nth_error_nth_default _ _ pzero _ Hr) in HS. apply HS; auto; lia.
  - intros i j p r c Hc Hi Hj Hjs Hp Hr. rewrite Hs in Hc; injection Hc; intros <-.
    pose proof (knn_nearest _ K 4 pts q i j Hl) as HS. rewrite E in HS.
    unfold dist_at in HS. rewrite (nth_error_nth_default _ _ pzero _ Hp) in HS.
    rewrite (nth_error_nth_default _ _ pzero _ Hr) in HS. apply HS.
    + simpl; auto.
    + eapply nth_error_lt; eauto.
    + simpl; intros [?|?]; auto.
Qed.

Lemma nearest_neighbors3_spec : forall knn pts s q,
  knn_ok knn -> nth_error pts s = Some q ->
  (forall j, nth_error pts j = Some q -> j = s) ->
  ((4 <= length pts)%nat ->
     exists idx, nearest_neighbors3 knn pts q false = Ok idx /\ three_nearest pts s idx /\
                 nearest_neighbors3 knn pts q true = Ok (s :: idx)) /\
  ((length pts < 4)%nat -> forall b, nearest_neighbors3 knn pts q b = Raise ValueError).
Proof.
  intros knn pts s q K Hs Hu; split; intro Hl.
  - destruct (knn_first_self knn 3 pts q s K Hl Hs Hu) as [l E].
    exists l. unfold nearest_neighbors3, kneighbors.
    rewrite (proj2 (Nat.ltb_ge _ _)) by lia. rewrite E; simpl.
    repeat split; auto; eapply knn4_three_nearest; eauto.
  - intro b. unfold nearest_neighbors3, kneighbors.
    rewrite (proj2 (Nat.ltb_lt _ _)) by lia. reflexivity.
Qed.

Lemma nearest_neighbors3_dup :
  exists knn pts s q idx, knn_ok knn /\ nth_error pts s = Some q /\
    nearest_neighbors3 knn pts q false = Ok idx /\ In s idx.
Proof.
  set (pts := [mkpt 0 0; mkpt 0 0; mkpt 1 0; mkpt 0 1]).
  exists knn_sort, pts.
  destruct (knn_sort 4%nat pts (mkpt 0 0)) as [|a l] eqn:E.
  { pose proof (knn_length _ knn_sort_ok 4 pts (mkpt 0 0) ltac:(simpl; lia)) as L.
    rewrite E in L; discriminate. }
  (* whichever index comes first, one of the two atoms at the origin is left *)
  exists (if Nat.eqb a 0 then 1%nat else 0%nat), (mkpt 0 0), l.
  pose proof (knn_length _ knn_sort_ok 4 pts (mkpt 0 0) ltac:(simpl; lia)) as L.
  assert (All : forall i, (i < 4)%nat -> In i (a :: l)).
  { intros i Hi. rewrite <- E. unfold knn_sort. simpl length.
    rewrite firstn_all2.
    - eapply Permutation.Permutation_in; [apply sort_by_perm|]. apply in_seq; simpl; lia.
    - rewrite <- (Permutation.Permutation_length (sort_by_perm _ _)), seq_length; auto. }
  split; [apply knn_sort_ok|]. split; [|split].
  - destruct (Nat.eqb a 0); reflexivity.
  - unfold nearest_neighbors3, kneighbors. simpl length.
    change (4 <? 4)%nat with false. cbv iota. rewrite E. reflexivity.
  - destruct (Nat.eqb a 0) eqn:Ea.
    + apply Nat.eqb_eq in Ea; subst a. destruct (All 1%nat ltac:(lia)) as [H|H]; [lia|auto].
    + apply Nat.eqb_neq in Ea. destruct (All 0%nat ltac:(lia)) as [H|H]; [lia|auto].
Qed.
