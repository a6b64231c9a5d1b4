(** C67: lattice types are spread from the well connected atoms. *)
From Coq Require Import Reals ZArith List Bool Lia Lra Arith Permutation Sorting.Sorted.
From Verif Require Import Base.Prelude Model.Geometry Model.Alignment Spec.Aligning Spec.Colouring
  Proofs.BaseFacts Proofs.RateFacts Proofs.GeometryFacts Proofs.AlignFacts Proofs.MergeFacts Proofs.ClumpFacts Proofs.ColouringFacts.
Import ListNotations.
Open Scope R_scope.

(** * sorting *)
Lemma rinsert_perm x l : Permutation (rinsert x l) (x :: l).
Proof.
  induction l as [|y l IH]; cbn; auto. destruct (Rleb x y); auto.
  rewrite IH. apply perm_swap.
Qed.
Lemma rsort_perm l : Permutation (rsort l) l.
Proof. induction l as [|x l IH]; cbn; auto. rewrite rinsert_perm. auto. Qed.
Lemma rinsert_sorted x l : StronglySorted Rle l -> StronglySorted Rle (rinsert x l).
Proof.
  induction 1 as [|y l Hs IH Hf]; cbn; [repeat constructor|].
  destruct (Rleb x y) eqn:E; rb.
  - constructor; [constructor; auto|]. constructor; auto. eapply Forall_impl; [|exact Hf]. intros; lra.
  - constructor; auto. rewrite rinsert_perm. constructor; auto; lra.
Qed.
Lemma rsort_sorted l : StronglySorted Rle (rsort l).
Proof. induction l; cbn; [constructor|]. apply rinsert_sorted; auto. Qed.
Lemma sorted_split k l : StronglySorted Rle l -> forall a b, In a (firstn k l) -> In b (skipn k l) -> a <= b.
Proof.
  intros H; revert k; induction H as [|x l Hs IH Hf]; intros [|k] a b; cbn; try tauto.
  intros [<-|Ha] Hb; [|eapply IH; eauto].
  rewrite Forall_forall in Hf. apply Hf. rewrite <- (firstn_skipn k l). apply in_or_app; auto.
Qed.
Lemma rsort_smallest k l : smallest k l (firstn k (rsort l)).
Proof.
  exists (skipn k (rsort l)). rewrite firstn_skipn. split; [symmetry; apply rsort_perm|].
  split; [|apply sorted_split, rsort_sorted].
  rewrite firstn_length. f_equal. apply Permutation_length, rsort_perm.
Qed.
Lemma rsort_increasing l : increasing (rsort l).
Proof.
  intros a b x y H Ha Hb. pose proof (rsort_sorted l) as Hs. revert a b x y H Ha Hb.
  induction Hs as [|z l' Hs IH Hf]; intros [|a] [|b] x y H Ha Hb; cbn in *; try lia; try discriminate.
  - injection Ha as <-. rewrite Forall_forall in Hf. apply Hf. eapply nth_error_In; eauto.
  - eapply IH; [|exact Ha|exact Hb]. lia.
Qed.

(** * translation *)
Lemma centred_nth ps i : (i < length ps)%nat -> nth i (centred ps) pzero = psub (nth i ps pzero) (pmean ps).
Proof. intros H. unfold centred. apply (nth_map_in (fun p => psub p (pmean ps)) ps i pzero pzero H). Qed.
Lemma centred_length ps : length (centred ps) = length ps.
Proof. apply map_length. Qed.
Lemma pdist_centred a b m : pdist (psub a m) (psub b m) = pdist a b.
Proof. unfold pdist. f_equal. destruct a, b, m; unfold psub; cbn. f_equal; ring. Qed.
Lemma row_centred self ps i : (i < length ps)%nat ->
  distance_row self (centred ps) i = map (away self ps i) (seq 0 (length ps)).
Proof.
  intros Hi. unfold distance_row. rewrite centred_length. apply map_ext_in. intros j Hj. apply in_seq in Hj.
  unfold away. rewrite !centred_nth by lia. rewrite pdist_centred, pdist_sym. reflexivity.
Qed.
Lemma row_plain self ps i : distance_row self ps i = map (away self ps i) (seq 0 (length ps)).
Proof. unfold distance_row. apply map_ext_in. intros j Hj. unfold away. rewrite pdist_sym. reflexivity. Qed.

(** * the neighbour graph *)
Lemma neighbour_bound_spec ps : bond_length ps (neighbour_bound ps).
Proof.
  exists (map (fun i => firstn 3 (rsort (distance_row 1000 ps i))) (seq 0 (length ps))). split; [|reflexivity].
  assert (G : forall l, Forall2 (fun i s => smallest 3 (map (apart ps i) (seq 0 (length ps))) s) l
     (map (fun i => firstn 3 (rsort (distance_row 1000 ps i))) l)); [|apply G].
  induction l as [|i l IH]; cbn [map]; constructor; auto. rewrite row_plain. apply rsort_smallest.
Qed.
Lemma neighbour_bound_centred ps : neighbour_bound (centred ps) = neighbour_bound ps.
Proof.
  unfold neighbour_bound. rewrite centred_length. do 3 f_equal. apply map_ext_in. intros i Hi. apply in_seq in Hi.
  rewrite row_centred by lia. rewrite row_plain. reflexivity.
Qed.
Lemma mask_length ps : length (neighbour_mask ps) = length ps.
Proof. unfold neighbour_mask. rewrite map_length, seq_length. reflexivity. Qed.
Lemma mask_row_length ps row : In row (neighbour_mask ps) -> length row = length ps.
Proof.
  unfold neighbour_mask. intros H. apply in_map_iff in H as (i & <- & _).
  unfold distance_row. rewrite !map_length, seq_length. reflexivity.
Qed.
Lemma mask_nth ps i j : (i < length ps)%nat -> (j < length ps)%nat ->
  mbond (neighbour_mask ps) i j <-> bonded ps (neighbour_bound ps) i j.
Proof.
  intros Hi Hj. unfold mbond, neighbour_mask, bonded, apart.
  rewrite (nth_map_in _ _ i 0%nat) by (rewrite seq_length; auto). rewrite seq_nth by auto. cbn [plus].
  rewrite row_plain. rewrite (nth_map_in _ _ j 0) by (rewrite map_length, seq_length; auto).
  rewrite (nth_map_in _ _ j 0%nat) by (rewrite seq_length; auto). rewrite seq_nth by auto. cbn [plus]. unfold away.
  split; intros; [rb; auto|]. destruct (Rltb _ _) eqn:E; rb; auto; lra.
Qed.
Lemma bonded_centred ps b i j : (i < length ps)%nat -> (j < length ps)%nat ->
  bonded (centred ps) b i j <-> bonded ps b i j.
Proof. intros. unfold bonded, apart. rewrite !centred_nth by auto. rewrite pdist_centred. reflexivity. Qed.

Lemma within_node n b k i : within_steps n b k i -> (i < n)%nat.
Proof. revert i; induction k as [|k IH]; cbn; [intros i [H _]; auto|]. intros i [H|[H _]]; auto. Qed.
(** specifications only look at bonds between nodes *)
Lemma trusted_ext n b b' i : (forall i j, (i < n)%nat -> (j < n)%nat -> b i j <-> b' i j) -> trusted n b i -> trusted n b' i.
Proof.
  intros E (Hi & x & y & z & A & B & C & Hx & Hy & Hz & X & Y & Z0). split; auto. exists x, y, z.
  repeat (split; auto); apply E; auto.
Qed.
Lemma within_steps_ext n b b' k i : (forall i j, (i < n)%nat -> (j < n)%nat -> b i j <-> b' i j) -> within_steps n b k i -> within_steps n b' k i.
Proof.
  intros E. revert i; induction k as [|k IH]; cbn; intros i; [apply trusted_ext; auto|].
  intros [H|(Hi & j & Hj & B & W)]; [left; auto|right]. split; auto. exists j. split; auto. split; auto. apply E; auto.
Qed.
Lemma layer_ext n b b' k i : (forall i j, (i < n)%nat -> (j < n)%nat -> b i j <-> b' i j) -> layer n b k i -> layer n b' k i.
Proof.
  intros E [A B]. split; [eapply within_steps_ext; eauto|]. destruct k; auto. intro W. apply B.
  eapply within_steps_ext; [|exact W]. intros; symmetry; auto.
Qed.
Lemma spread_ext n b b' labels final : (forall i j, (i < n)%nat -> (j < n)%nat -> b i j <-> b' i j) ->
  spread n b labels final -> spread n b' labels final.
Proof.
  intros E. assert (E' : forall i j, (i < n)%nat -> (j < n)%nat -> b' i j <-> b i j) by (intros; symmetry; auto).
  intros (A & B & C). split; [|split].
  - intros i T. apply A. eapply trusted_ext; eauto.
  - intros k i Ly. pose proof (layer_ext _ _ _ _ _ E' Ly) as Ly'.
    assert (Hi : (i < n)%nat) by (destruct Ly as [W _]; eapply within_node; eauto).
    destruct (B k i Ly') as [[X Y]|[X (j & Hj & Y & Z0 & T)]].
    + left. split; auto. intros j Hj Bj Lj. apply Y; auto; [apply E; auto|]. eapply layer_ext; eauto.
    + right. split; auto. exists j. split; auto. split; [apply E; auto|]. split; auto. eapply layer_ext; eauto.
  - intros i Hi N. apply C; auto. intros k W. apply (N k). eapply within_steps_ext; eauto.
Qed.

(** * C67 *)

(** it ends within one round more than there are atoms, and spreads the labels
    from the atoms with three bonds *)
Theorem propagate_graphene_classes_spec classes ps fuel : length classes = length ps ->
  (forall z, In z classes -> z = 0%Z \/ z = 1%Z) -> (length ps < fuel)%nat ->
  exists final, propagate_graphene_classes fuel classes ps = Ok final /\ length final = length ps /\
    (forall z, In z final -> z = 0%Z \/ z = 1%Z) /\
    exists bound, bond_length ps bound /\
      spread (length ps) (bonded ps bound) (fun i => nth i classes 0%Z) (fun i => nth i final 0%Z).
Proof.
  intros L K Hf. unfold propagate_graphene_classes.
  pose proof (mask_length (centred ps)) as Lm. rewrite centred_length in Lm.
  assert (Lr : forall row, In row (neighbour_mask (centred ps)) -> length row = length ps).
  { intros row Hr. rewrite (mask_row_length _ _ Hr). apply centred_length. }
  set (mask := neighbour_mask (centred ps)) in *.
  set (classified := map (fun r => (3 <=? count_true r)%nat) mask).
  assert (Lc : length classified = length ps) by (unfold classified; rewrite map_length; auto).
  destruct (loop_spec (length ps) mask Lm Lr classes L fuel 0 classes classified) as (final & E & Lf & Kf & Sp).
  - apply start_state; auto. intros i Hi. unfold is_true, classified.
    rewrite (nth_map_in _ _ i []) by lia. rewrite Nat.leb_le, count_true_three.
    assert (Li : length (nth i mask []) = length ps) by (apply Lr, nth_In; lia).
    assert (In_row : forall a, nth a (nth i mask []) false = true -> (a < length ps)%nat).
    { intros a Ha. destruct (le_lt_dec (length ps) a); auto. rewrite nth_overflow in Ha by lia. discriminate. }
    unfold trusted, mbond. split.
    + intros (a & b & c & A & B & C & Ha & Hb & Hc). split; auto. exists a, b, c. split; [exact A|]. split; [exact B|]. split; [exact C|]. repeat split; auto.
    + intros (_ & a & b & c & A & B & C & _ & _ & _ & Ha & Hb & Hc). exists a, b, c. repeat split; auto.
  - pose proof (count_true_le classified). lia.
  - exists final. split; auto. split; auto. split; auto. exists (neighbour_bound ps).
    split; [apply neighbour_bound_spec|].
    eapply spread_ext; [|exact Sp]. intros i j Hi Hj. unfold mask. rewrite mask_nth by (rewrite centred_length; auto).
    rewrite neighbour_bound_centred. apply bonded_centred; auto.
Qed.
Print Assumptions propagate_graphene_classes_spec.

(** only labels of atoms with fewer than three bonds change *)
Theorem propagate_changes_only_loose_ends classes ps fuel final : length classes = length ps ->
  (forall z, In z classes -> z = 0%Z \/ z = 1%Z) -> (length ps < fuel)%nat ->
  propagate_graphene_classes fuel classes ps = Ok final ->
  exists bound, bond_length ps bound /\ forall i, (i < length ps)%nat ->
    nth i final 0%Z <> nth i classes 0%Z -> ~ trusted (length ps) (bonded ps bound) i.
Proof.
  intros L K Hf E. destruct (propagate_graphene_classes_spec classes ps fuel L K Hf) as (f & E' & _ & _ & b & Hb & Sp).
  rewrite E in E'. injection E' as <-. exists b. split; auto. intros i Hi N T. apply N. apply (proj1 Sp). exact T.
Qed.
Print Assumptions propagate_changes_only_loose_ends.

(** a proper two-colouring that is right on the trusted atoms is found on all
    atoms connected to them *)
Theorem propagate_two_colours classes ps fuel final colour : length classes = length ps ->
  (forall z, In z classes -> z = 0%Z \/ z = 1%Z) -> (length ps < fuel)%nat ->
  propagate_graphene_classes fuel classes ps = Ok final ->
  exists bound, bond_length ps bound /\
    ((forall i, colour i = 0%Z \/ colour i = 1%Z) ->
     (forall i j, (i < length ps)%nat -> (j < length ps)%nat -> bonded ps bound i j -> colour i <> colour j) ->
     (forall i, trusted (length ps) (bonded ps bound) i -> nth i classes 0%Z = colour i) ->
     forall k i, within_steps (length ps) (bonded ps bound) k i -> nth i final 0%Z = colour i).
Proof.
  intros L K Hf E. destruct (propagate_graphene_classes_spec classes ps fuel L K Hf) as (f & E' & Lf & Kf & b & Hb & Sp).
  rewrite E in E'. injection E' as <-. exists b. split; auto. intros Kc Pr Tr.
  set (n := length ps) in *. set (bd := bonded ps b) in *. destruct Sp as (A & B & _).
  assert (Main : forall k i, layer n bd k i -> nth i final 0%Z = colour i).
  { induction k as [|k IH]; intros i Ly.
    - destruct Ly as [T _]. cbn in T. rewrite <- Tr by auto. apply A; auto.
    - assert (Hi : (i < n)%nat) by (destruct Ly as [W _]; eapply within_node; eauto).
      (* it has a neighbour one step closer *)
      assert (Nb : exists j, (j < n)%nat /\ bd i j /\ layer n bd k j).
      { destruct (B k i Ly) as [_|[_ (j & Hj & Bj & Lj & _)]]; [|exists j; auto].
        destruct Ly as [[W|(_ & j & Hj & Bj & W)] N]; [contradiction|]. exists j. split; auto. split; auto. split; auto.
        destruct k as [|k]; auto. intros W'. apply N. right. split; auto. exists j. auto. }
      destruct Nb as (j & Hj & Bj & Lj). pose proof (IH j Lj) as Ej. pose proof (Pr i j Hi Hj Bj) as Nc.
      destruct (B k i Ly) as [[X Y]|[X (j' & Hj' & Bj' & Lj' & Y)]].
      + specialize (Y j Hj Bj Lj). rewrite X. destruct (Kc i); congruence.
      + rewrite IH in Y by auto. pose proof (Pr i j' Hi Hj' Bj') as Nc'. rewrite X. destruct (Kc i); congruence. }
  induction k as [|k IH]; intros i W; [apply (Main 0%nat); split; auto|].
  destruct (Z.eq_dec (nth i final 0%Z) (colour i)) as [|N]; auto. exfalso.
  apply N, (Main (S k)). split; [exact W|]. intros W'. apply N. auto.
Qed.
Print Assumptions propagate_two_colours.

(** * what is labelled *)
Section Labelled.
Context {G : Type}.
Variable asort : argsort_fn.
Hypothesis Ha : argsort_ok asort.
Variable kmeans : list (list R) -> G -> (list R -> Z) * G.

Lemma asort_row self ps i : by_distance self ps i (asort (map (away self ps i) (seq 0 (length ps)))).
Proof.
  set (row := map (away self ps i) (seq 0 (length ps))).
  assert (L : length row = length ps) by (unfold row; rewrite map_length, seq_length; auto).
  split.
  - apply NoDup_Permutation; [apply (asort_nodup _ Ha)|apply seq_NoDup|].
    intros j. rewrite (asort_indices _ Ha), L, in_seq. lia.
  - intros a b j k Hab Hj Hk. pose proof (asort_sorted _ Ha row a b j k Hab Hj Hk) as Q.
    assert (Rg : forall x c, nth_error (asort row) c = Some x -> (x < length ps)%nat).
    { intros x c H. rewrite <- L. apply (asort_indices _ Ha). eapply nth_error_In; eauto. }
    unfold row in Q. rewrite !(nth_map_in _ _ _ 0%nat) in Q by (rewrite seq_length; eauto).
    rewrite !seq_nth in Q by eauto. exact Q.
Qed.
Lemma angles_centred ps i js : (i < length ps)%nat -> (forall j, In j js -> (j < length ps)%nat) ->
  angles_to (centred ps) i js = get_angles (directions ps i js).
Proof.
  intros Hi Hj. unfold angles_to, directions. f_equal. apply map_ext_in. intros j Q. rewrite !centred_nth by auto.
  destruct (nth j ps pzero), (nth i ps pzero), (pmean ps). unfold psub. cbn. f_equal; ring.
Qed.
Lemma in_by_distance self ps i js j : by_distance self ps i js -> In j js -> (j < length ps)%nat.
Proof. intros [P _] H. eapply Permutation_in in H; [|exact P]. apply in_seq in H. lia. Qed.
Lemma In_firstn {A} (x : A) k l : In x (firstn k l) -> In x l.
Proof. intros H. rewrite <- (firstn_skipn k l). apply in_or_app; auto. Qed.
Lemma In_skipn {A} (x : A) k l : In x (skipn k l) -> In x l.
Proof. intros H. rewrite <- (firstn_skipn k l). apply in_or_app; auto. Qed.

(** the model of lattice types is fitted to the sorted angles between the second
    to fourth nearest atoms, the atom itself being one of the nearest *)
Theorem get_lattice_clusterer_spec ps g :
  ((length ps < 2)%nat -> get_lattice_clusterer asort kmeans ps g = (Raise ValueError, g)) /\
  ((2 <= length ps)%nat -> exists rows,
     Forall2 (fun i row => exists js, by_distance 0 ps i js /\ increasing row /\
                Permutation row (get_angles (directions ps i (firstn 3 (skipn 1 js))))) (seq 0 (length ps)) rows /\
     get_lattice_clusterer asort kmeans ps g
       = (Ok (mkclusterer (Nat.min 3 (length ps - 1)) (fst (kmeans rows g))), snd (kmeans rows g))).
Proof.
  unfold get_lattice_clusterer. rewrite centred_length. split; intros H.
  - replace (length ps <? 2)%nat with true by (symmetry; apply Nat.ltb_lt; auto). reflexivity.
  - replace (length ps <? 2)%nat with false by (symmetry; apply Nat.ltb_ge; auto).
    exists (map (fun i => rsort (angles_to (centred ps) i (firstn 3 (skipn 1 (asort (distance_row 0 (centred ps) i)))))) (seq 0 (length ps))).
    split; [|destruct (kmeans _ g); reflexivity].
    assert (F : forall l, (forall i, In i l -> (i < length ps)%nat) ->
      Forall2 (fun i row => exists js, by_distance 0 ps i js /\ increasing row /\
                Permutation row (get_angles (directions ps i (firstn 3 (skipn 1 js))))) l
        (map (fun i => rsort (angles_to (centred ps) i (firstn 3 (skipn 1 (asort (distance_row 0 (centred ps) i)))))) l)).
    { induction l as [|i l IH]; intros Hl; cbn [map]; constructor; [|apply IH; intros; apply Hl; right; auto].
      assert (Hi : (i < length ps)%nat) by (apply Hl; left; auto).
      rewrite row_centred by auto. pose proof (asort_row 0 ps i) as Q.
      exists (asort (map (away 0 ps i) (seq 0 (length ps)))). split; auto. split; [apply rsort_increasing|].
      rewrite rsort_perm. rewrite angles_centred; auto.
      intros j Hj. apply In_firstn in Hj. apply In_skipn in Hj. eapply in_by_distance; eauto. }
    apply F. intros i Hi. apply in_seq in Hi. lia.
Qed.

(** atoms are labelled by the angles between their three nearest in order of
    distance, and the labels are spread *)
Theorem classify_lattice_types_spec ps c :
  ((length ps < 3)%nat -> classify_lattice_types asort (map Some ps) (Some c) = Raise AssertionError) /\
  ((3 <= length ps)%nat -> km_length c <> 3%nat -> classify_lattice_types asort (map Some ps) (Some c) = Raise ValueError) /\
  ((3 <= length ps)%nat -> km_length c = 3%nat -> (forall row, km_label c row = 0%Z \/ km_label c row = 1%Z) ->
   exists labels final bound,
     Forall2 (fun i z => exists js, by_distance 1000 ps i js /\ z = km_label c (get_angles (directions ps i (firstn 3 js))))
       (seq 0 (length ps)) labels /\
     classify_lattice_types asort (map Some ps) (Some c) = Ok final /\ length final = length ps /\
     (forall z, In z final -> z = 0%Z \/ z = 1%Z) /\
     bond_length ps bound /\
     spread (length ps) (bonded ps bound) (fun i => nth i labels 0%Z) (fun i => nth i final 0%Z)).
Proof.
  unfold classify_lattice_types. rewrite map_length.
  assert (Fr : finite_rows (map Some ps) = Some ps) by (apply finite_rows_iff; reflexivity).
  set (rows := map (fun i => angles_to (centred ps) i (firstn 3 (asort (distance_row 1000 (centred ps) i)))) (seq 0 (length (centred ps)))).
  assert (Row : forall i, (i < length ps)%nat -> exists js, by_distance 1000 ps i js /\
     angles_to (centred ps) i (firstn 3 (asort (distance_row 1000 (centred ps) i))) = get_angles (directions ps i (firstn 3 js))).
  { intros i Hi. rewrite row_centred by auto. pose proof (asort_row 1000 ps i) as Q.
    exists (asort (map (away 1000 ps i) (seq 0 (length ps)))). split; auto.
    apply angles_centred; auto. intros j Hj. apply In_firstn in Hj. eapply in_by_distance; eauto. }
  assert (RL : (3 <= length ps)%nat -> forall row, In row rows -> length row = 3%nat).
  { intros H3 row Hr. unfold rows in Hr. rewrite centred_length in Hr. apply in_map_iff in Hr as (i & <- & Hi). apply in_seq in Hi.
    destruct (Row i ltac:(lia)) as (js & [P _] & ->).
    assert (Lj : length (firstn 3 js) = 3%nat).
    { rewrite firstn_length, (Permutation_length P), seq_length. lia. }
    clear -Lj. unfold directions. set (l := firstn 3 js) in *. clearbody l.
    destruct l as [|a [|b [|d [|e l]]]]; try discriminate. reflexivity. }
  split; [|split].
  - intros H. replace (length ps <? 3)%nat with true by (symmetry; apply Nat.ltb_lt; auto). reflexivity.
  - intros H N. replace (length ps <? 3)%nat with false by (symmetry; apply Nat.ltb_ge; auto). rewrite Fr. cbn zeta. fold rows.
    unfold predict. destruct (forallb _ rows) eqn:E; [|reflexivity]. exfalso.
    rewrite forallb_forall in E. assert (Hin : exists row, In row rows).
    { unfold rows. rewrite centred_length. destruct ps as [|p ps']; cbn in H; [lia|]. eexists. left. reflexivity. }
    destruct Hin as (row & Hr). specialize (E row Hr). apply Nat.eqb_eq in E. rewrite (RL H row Hr) in E. congruence.
  - intros H Lc Kl. replace (length ps <? 3)%nat with false by (symmetry; apply Nat.ltb_ge; auto). rewrite Fr. cbn zeta. fold rows.
    unfold predict. replace (forallb _ rows) with true.
    2:{ symmetry. apply forallb_forall. intros row Hr. apply Nat.eqb_eq. rewrite Lc. apply RL; auto. }
    cbn [bind].
    assert (Lrows : length (map (km_label c) rows) = length (centred ps)).
    { unfold rows. rewrite !map_length, seq_length. reflexivity. }
    assert (Kr : forall z, In z (map (km_label c) rows) -> z = 0%Z \/ z = 1%Z).
    { intros z Hz. apply in_map_iff in Hz as (row & <- & _). auto. }
    destruct (propagate_graphene_classes_spec (map (km_label c) rows) (centred ps) (S (length (centred ps))) Lrows Kr ltac:(lia))
      as (final & E & Lf & Kf & bound & Hb & Sp). rewrite centred_length in Lf, Sp.
    exists (map (km_label c) rows), final, bound. split; [|split; [exact E|split; [auto|split; [auto|split]]]].
    + unfold rows. rewrite centred_length.
      assert (F : forall l, (forall i, In i l -> (i < length ps)%nat) -> Forall2 (fun i z => exists js, by_distance 1000 ps i js /\
          z = km_label c (get_angles (directions ps i (firstn 3 js)))) l
          (map (km_label c) (map (fun i => angles_to (centred ps) i (firstn 3 (asort (distance_row 1000 (centred ps) i)))) l))).
      { induction l as [|i l IH]; intros Hl; cbn [map]; constructor; [|apply IH; intros; apply Hl; right; auto].
        destruct (Row i (Hl i (or_introl eq_refl))) as (js & Q & ->). exists js. auto. }
      apply F. intros i Hi. apply in_seq in Hi. lia.
    + destruct Hb as (parts & F2 & ->). exists parts. split; auto. rewrite centred_length in F2.
      assert (F : forall l parts, (forall i, In i l -> (i < length ps)%nat) ->
        Forall2 (fun i s => smallest 3 (map (apart (centred ps) i) (seq 0 (length ps))) s) l parts ->
        Forall2 (fun i s => smallest 3 (map (apart ps i) (seq 0 (length ps))) s) l parts).
      { clear -ps. induction 2 as [|i s l parts Hs F2 IH]; constructor; [|apply IH; intros; apply H; right; auto].
        assert (Hi : (i < length ps)%nat) by (apply H; left; auto).
        replace (map (apart ps i) (seq 0 (length ps))) with (map (apart (centred ps) i) (seq 0 (length ps))); auto.
        apply map_ext_in. intros j Hj. apply in_seq in Hj. unfold apart. rewrite !centred_nth by lia. rewrite pdist_centred. reflexivity. }
      apply F; auto. intros i Hi. apply in_seq in Hi. lia.
    + eapply spread_ext; [|exact Sp]. intros i j Hi Hj. apply bonded_centred; auto.
Qed.

(** no model, or a NaN: errors *)
Theorem classify_lattice_types_errors coordinates c :
  (3 <= length coordinates)%nat ->
  classify_lattice_types asort coordinates None = Raise AttributeError /\
  (In None coordinates -> classify_lattice_types asort coordinates (Some c) = Raise ValueError).
Proof.
  intros H. unfold classify_lattice_types. replace (length coordinates <? 3)%nat with false by (symmetry; apply Nat.ltb_ge; auto).
  split; [destruct (finite_rows coordinates); reflexivity|].
  intros N. destruct (finite_rows coordinates) as [ps|] eqn:E; [|reflexivity]. exfalso.
  apply finite_rows_iff in E. subst. apply in_map_iff in N as (p & Q & _). discriminate.
Qed.
End Labelled.
Print Assumptions get_lattice_clusterer_spec.
Print Assumptions classify_lattice_types_spec.
Print Assumptions classify_lattice_types_errors.

(** an atom with three neighbours around it: its label decides theirs *)
Definition star : list pt := [(mkpt (0) (0)); (mkpt (1) (0)); (mkpt (-3/5) (4/5)); (mkpt (-3/5) (-4/5))].
Lemma smallest_of_four a b c d s : smallest 3 [a; b; c; d] s -> forall x y z, Permutation [a; b; c; d] [1000; x; y; z] ->
  x < 1000 -> y < 1000 -> z < 1000 -> length s = 3%nat /\ rsum s = x + y + z.
Proof.
  intros (rest & P & L & Le) x y z Q Hx Hy Hz. cbn in L.
  assert (Lr : length rest = 1%nat).
  { apply Permutation_length in P. rewrite app_length in P. cbn in P. lia. }
  destruct rest as [|r [|? ?]]; try discriminate. split; auto.
  assert (Er : r = 1000).
  { assert (I1 : In 1000 (s ++ [r])).
    { eapply Permutation_in; [exact P|]. eapply Permutation_in; [symmetry; exact Q|]. left; auto. }
    assert (I2 : In r [1000; x; y; z]).
    { eapply Permutation_in; [exact Q|]. eapply Permutation_in; [symmetry; exact P|]. apply in_or_app. right. left. auto. }
    apply in_app_or in I1 as [I1|[I1|[]]]; auto.
    specialize (Le 1000 r I1 (or_introl eq_refl)). destruct I2 as [I2|[I2|[I2|[I2|[]]]]]; subst; auto; lra. }
  assert (Es : rsum (s ++ [r]) = rsum [1000; x; y; z]) by (apply rsum_perm; rewrite <- P; auto).
  rewrite rsum_app in Es. change (rsum [1000; x; y; z]) with (1000 + (x + (y + (z + 0)))) in Es. change (rsum [r]) with (r + 0) in Es. lra.
Qed.
Lemma sqrt_is a b : 0 <= b -> a = b * b -> sqrt a = b.
Proof. intros H ->. apply sqrt_square; auto. Qed.
Lemma star_bond_length bound : bond_length star bound -> bound = 11 / 60 * (23 / 5 + 2 * sqrt (16 / 5)).
Proof.
  set (q := sqrt (16 / 5)).
  assert (Hq : 0 <= q < 1000).
  { split; [apply sqrt_pos|]. unfold q. rewrite <- (sqrt_square 1000) by lra. apply sqrt_lt_1; lra. }
  intros (parts & F & ->). cbn [star length seq map] in F.
  assert (D : forall i j, apart star i j = pdist (nth i star pzero) (nth j star pzero) + (if Nat.eqb i j then 1000 else 0)) by reflexivity.
  assert (E01 : pdist (mkpt (0) (0)) (mkpt (1) (0)) = 1) by (unfold pdist, pnorm, psub, psq; cbn [px py]; apply sqrt_is; [lra|unfold Rsqr; field]).
  assert (E02 : pdist (mkpt (0) (0)) (mkpt (-3/5) (4/5)) = 1) by (unfold pdist, pnorm, psub, psq; cbn [px py]; apply sqrt_is; [lra|unfold Rsqr; field]).
  assert (E03 : pdist (mkpt (0) (0)) (mkpt (-3/5) (-4/5)) = 1) by (unfold pdist, pnorm, psub, psq; cbn [px py]; apply sqrt_is; [lra|unfold Rsqr; field]).
  assert (E12 : pdist (mkpt (1) (0)) (mkpt (-3/5) (4/5)) = q) by (unfold pdist, pnorm, psub, psq, q; cbn [px py]; f_equal; unfold Rsqr; field).
  assert (E13 : pdist (mkpt (1) (0)) (mkpt (-3/5) (-4/5)) = q) by (unfold pdist, pnorm, psub, psq, q; cbn [px py]; f_equal; unfold Rsqr; field).
  assert (E23 : pdist (mkpt (-3/5) (4/5)) (mkpt (-3/5) (-4/5)) = 8/5) by (unfold pdist, pnorm, psub, psq; cbn [px py]; apply sqrt_is; [lra|unfold Rsqr; field]).
  assert (E10 := eq_trans (pdist_sym (mkpt (1) (0)) (mkpt (0) (0))) E01). assert (E20 := eq_trans (pdist_sym (mkpt (-3/5) (4/5)) (mkpt (0) (0))) E02).
  assert (E30 := eq_trans (pdist_sym (mkpt (-3/5) (-4/5)) (mkpt (0) (0))) E03). assert (E21 := eq_trans (pdist_sym (mkpt (-3/5) (4/5)) (mkpt (1) (0))) E12).
  assert (E31 := eq_trans (pdist_sym (mkpt (-3/5) (-4/5)) (mkpt (1) (0))) E13). assert (E32 := eq_trans (pdist_sym (mkpt (-3/5) (-4/5)) (mkpt (-3/5) (4/5))) E23).
  inversion F as [|? s0 ? p0 H0 F0]; subst. inversion F0 as [|? s1 ? p1 H1 F1]; subst.
  inversion F1 as [|? s2 ? p2 H2 F2]; subst. inversion F2 as [|? s3 ? p3 H3 F3]; subst. inversion F3; subst.
  rewrite !D in H0, H1, H2, H3. cbn [nth star Nat.eqb] in H0, H1, H2, H3. rewrite !pdist_self in H0, H1, H2, H3.
  rewrite E01, E02, E03 in H0. rewrite E10, E12, E13 in H1. rewrite E20, E21, E23 in H2. rewrite E30, E31, E32 in H3.
  rewrite !Rplus_0_l, !Rplus_0_r in H0. rewrite !Rplus_0_l, !Rplus_0_r in H1. rewrite !Rplus_0_l, !Rplus_0_r in H2. rewrite !Rplus_0_l, !Rplus_0_r in H3.
  destruct (smallest_of_four _ _ _ _ _ H0 1 1 1) as [L0 S0]; [reflexivity|lra|lra|lra|].
  destruct (smallest_of_four _ _ _ _ _ H1 1 q q) as [L1 S1]; [apply perm_swap|lra|lra|lra|].
  destruct (smallest_of_four _ _ _ _ _ H2 1 q (8/5)) as [L2 S2]; [|lra|lra|lra|].
  { change [1; q; 1000; 8/5] with ([1; q] ++ 1000 :: [8/5]). symmetry. apply (Permutation_middle [1; q] [8/5] 1000). }
  destruct (smallest_of_four _ _ _ _ _ H3 1 q (8/5)) as [L3 S3]; [|lra|lra|lra|].
  { change [1; q; 8/5; 1000] with ([1; q; 8/5] ++ 1000 :: []). symmetry. apply (Permutation_middle [1; q; 8/5] [] 1000). }
  cbn [concat]. rewrite !rsum_app, !app_length, L0, L1, L2, L3, S0, S1, S2, S3. cbn [rsum fold_right length]. 
  replace (INR _) with 12 by (cbn; lra). unfold rsum. cbn. lra.
Qed.
Lemma star_bonds bound i j : bond_length star bound -> (i < 4)%nat -> (j < 4)%nat ->
  bonded star bound i j <-> i <> j /\ (i = 0%nat \/ j = 0%nat).
Proof.
  intros Hb Hi Hj. rewrite (star_bond_length _ Hb). unfold bonded, apart.
  set (q := sqrt (16 / 5)).
  assert (Hq : 8/5 < q < 2).
  { unfold q. split.
    - rewrite <- (sqrt_square (8/5)) by lra. apply sqrt_lt_1; lra.
    - rewrite <- (sqrt_square 2) by lra. apply sqrt_lt_1; lra. }
  assert (C : forall P : Prop, forall x y : R, (if Rlt_dec x y then P else ~ P) -> x < y <-> P).
  { intros P x y H. destruct (Rlt_dec x y); tauto. }
  assert (Ds : forall i j, (i < 4)%nat -> (j < 4)%nat -> pdist (nth i star pzero) (nth j star pzero)
     = if Nat.eqb i j then 0 else if (Nat.eqb i 0 || Nat.eqb j 0)%bool then 1 else if (Nat.eqb i 1 || Nat.eqb j 1)%bool then q else 8/5).
  { clear -q. intros i j Hi Hj.
    destruct i as [|[|[|[|i]]]]; try lia; destruct j as [|[|[|[|j]]]]; try lia; cbn [star nth Nat.eqb orb];
      try apply pdist_self; unfold pdist, pnorm, psub, psq, q; cbn [px py]; try (apply sqrt_is; [lra|unfold Rsqr; field; fail]); f_equal; unfold Rsqr; field. }
  rewrite Ds by auto.
  destruct i as [|[|[|[|i]]]]; try lia; destruct j as [|[|[|[|j]]]]; try lia; cbn [Nat.eqb orb]; split; intros H; try lra; try lia;
    try (split; [lia|]; auto); destruct H as [H1 [H2|H2]]; try discriminate; congruence.
Qed.
Example propagate_nonvacuous classes : length classes = 4%nat -> (forall z, In z classes -> z = 0%Z \/ z = 1%Z) ->
  exists bound, bond_length star bound /\ trusted 4 (bonded star bound) 0 /\
  let c := nth 0 classes 0%Z in propagate_graphene_classes 5 classes star = Ok [c; 1 - c; 1 - c; 1 - c]%Z.
Proof.
  intros L K.
  assert (Ls : length star = 4%nat) by reflexivity. rewrite <- Ls in L.
  destruct (propagate_graphene_classes_spec classes star 5 L K ltac:(cbn; lia)) as (final & E & Lf & Kf & _).
  set (c := nth 0 classes 0%Z).
  destruct (propagate_two_colours classes star 5 final (fun i => if Nat.eqb i 0 then c else (1 - c)%Z) L K ltac:(cbn; lia) E)
    as (bound & Hb & T). rewrite Ls in *.
  assert (Bd : forall i j, (i < 4)%nat -> (j < 4)%nat -> bonded star bound i j <-> i <> j /\ (i = 0%nat \/ j = 0%nat)) by (intros; apply star_bonds; auto).
  exists bound. split; auto.
  assert (T0 : trusted 4 (bonded star bound) 0).
  { split; [lia|]. exists 1%nat, 2%nat, 3%nat. repeat (split; [lia|]). repeat split; apply Bd; lia. }
  split; auto. rewrite E.
  assert (Kc : c = 0%Z \/ c = 1%Z) by (apply K, nth_In; lia).
  assert (Fin : forall i, (i < 4)%nat -> nth i final 0%Z = if Nat.eqb i 0 then c else (1 - c)%Z).
  { intros i Hi. apply (T) with (k := 1%nat).
    - intros j. destruct (Nat.eqb j 0); lia.
    - intros a b A B H. apply Bd in H; auto. destruct (Nat.eqb_spec a 0), (Nat.eqb_spec b 0); lia.
    - intros a (A & x & y & z & N1 & N2 & N3 & X & Y & Z0 & B1 & B2 & B3).
      apply Bd in B1; auto. apply Bd in B2; auto. apply Bd in B3; auto.
      destruct (Nat.eqb_spec a 0); [subst; reflexivity|lia].
    - destruct (Nat.eq_dec i 0) as [->|]; [left; auto|right]. split; auto. exists 0%nat. split; [lia|]. split; auto. apply Bd; lia. }
  destruct final as [|a [|b [|d [|e [|f final]]]]]; try discriminate. f_equal.
  pose proof (Fin 0%nat ltac:(lia)). pose proof (Fin 1%nat ltac:(lia)). pose proof (Fin 2%nat ltac:(lia)). pose proof (Fin 3%nat ltac:(lia)).
  cbn in *. congruence.
Qed.
