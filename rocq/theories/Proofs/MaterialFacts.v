(** Lemmas about the silicon lookup and rate functions. *)
From Coq Require Import Reals ZArith List Bool Arith Lia Lra.
From Flocq Require Import Core.
From Verif Require Import Base.Prelude Base.Matrix Base.Rounding Base.Random Model.Constants
  Model.Geometry Model.MicroscopeUtils Model.Graphene Spec.Grids Spec.Neighbours Spec.Material
  Proofs.BaseFacts Proofs.RoundingFacts Proofs.FovFacts Proofs.GeometryFacts Proofs.NeighbourFacts.
Import ListNotations.
Open Scope R_scope.

Lemma single_doped_nth g s : single_doped g s -> nth_error (numbers g) s = Some 14%Z.
Proof.
  intros (W & L & H). destruct (nth_error (numbers g) s) as [z|] eqn:E.
  - destruct (H _ _ E) as [[_ ->]|[N _]]; auto. congruence.
  - apply nth_error_None in E. lia.
Qed.

Lemma single_doped_unique g s s' : single_doped g s -> single_doped g s' -> s = s'.
Proof.
  intros H H'. pose proof (single_doped_nth _ _ H) as E.
  destruct H' as (_ & _ & H'). destruct (H' _ _ E) as [[? _]|[_ ?]]; auto. discriminate.
Qed.

Lemma map_res_Ok {A B} (f : A -> res B) l l' :
  map_res f l = Ok l' <-> Forall2 (fun x y => f x = Ok y) l l'.
Proof.
  revert l'; induction l as [|x l IH]; simpl; intros l'.
  - split; intros H; inversion H; auto. 
  - destruct (f x) as [y| |] eqn:E; simpl.
    + destruct (map_res f l) as [ys| |] eqn:E2; simpl.
      * split; intros H.
        -- inversion H; subst. constructor; auto. apply IH; auto.
        -- inversion H as [|? y' ? l0 Hy Hl]; subst. apply IH in Hl. congruence.
      * split; intros H; [discriminate|].
        inversion H as [|? y' ? l0 Hy Hl]; subst. apply IH in Hl. congruence.
      * split; intros H; [discriminate|].
        inversion H as [|? y' ? l0 Hy Hl]; subst. apply IH in Hl. congruence.
    + split; intros H; [discriminate|]. inversion H; subst. congruence.
    + split; intros H; [discriminate|]. inversion H; subst. congruence.
Qed.

(** silicon positions as a selection of atoms *)
Lemma silicon_positions_select g : wf_grid g ->
  exists l, selects (fun a => snd a = 14%Z) (atoms g) l /\
            get_silicon_positions g = map fst l.
Proof.
  intros W. unfold wf_grid in W. unfold get_silicon_positions, atoms, silicon_mask.
  revert W. generalize (positions g) (numbers g). intros ps ns.
  revert ns; induction ps as [|p ps IH]; intros [|n ns] W;
    cbn [mask_select map combine length] in *; try discriminate.
  - exists []. split; auto. constructor.
  - destruct (IH ns) as (l & S & E); [lia|].
    destruct (Z.eqb_spec SILICON n) as [N|N].
    + exists ((p,n)::l). split; [constructor; auto|simpl; rewrite E; reflexivity].
    + exists l. split; [constructor; auto|exact E].
Qed.

Lemma silicon_positions_In g p : wf_grid g ->
  (In p (get_silicon_positions g) <-> In (p, 14%Z) (atoms g)).
Proof.
  intros W. destruct (silicon_positions_select g W) as (l & S & E). rewrite E.
  rewrite in_map_iff. split.
  - intros ([q z] & <- & H). simpl. apply (selects_In _ _ _ S) in H. simpl in H. 
    destruct H as [H ->]. exact H.
  - intros H. exists (p, 14%Z). split; auto. apply (selects_In _ _ _ S). auto.
Qed.

Lemma silicon_positions_single g s p : single_doped g s -> nth_error (positions g) s = Some p ->
  get_silicon_positions g = [p].
Proof.
  intros (W & L & H). unfold wf_grid in W. unfold get_silicon_positions, silicon_mask.
  revert L W H. generalize (positions g) (numbers g). intros ps ns.
  revert s ps. induction ns as [|n ns IH]; intros s ps L W H E; simpl in *; [lia|].
  destruct ps as [|q ps]; [discriminate|]. simpl in *. unfold SILICON.
  destruct s as [|s].
  - simpl in E. inversion E; subst. destruct (H 0%nat n eq_refl) as [[_ ->]|[N _]]; [|congruence].
    f_equal.
    assert (forall i z, nth_error ns i = Some z -> z = 6%Z).
    { intros i z Hi. destruct (H (S i) z Hi) as [[? _]|[_ ?]]; [discriminate|auto]. }
    clear -H0. revert ps. induction ns as [|n ns IH]; intros [|x ps]; simpl; auto.
    assert (n = 6%Z) as -> by (apply (H0 0%nat); reflexivity). simpl.
    apply IH. intros i z Hi. apply (H0 (S i)); auto.
  - destruct (H 0%nat n eq_refl) as [[? _]|[_ ->]]; [discriminate|]. simpl.
    apply IH with (s := s); auto; try lia.
    intros i z Hi. destruct (H (S i) z Hi) as [[? ->]|[? ->]]; [left|right]; split; auto; lia.
Qed.

Lemma single_silicon_single g s p : single_doped g s -> nth_error (positions g) s = Some p ->
  get_single_silicon_position g = Ok p.
Proof.
  intros H E. unfold get_single_silicon_position.
  rewrite (silicon_positions_single g s p H E). reflexivity.
Qed.

Lemma single_doped_pos g s : single_doped g s -> exists p, nth_error (positions g) s = Some p.
Proof.
  intros (W & L & _). unfold wf_grid in W. destruct (nth_error (positions g) s) eqn:E; eauto.
  apply nth_error_None in E. lia.
Qed.

(** get_single_silicon_position *)
Lemma single_silicon_raise g : wf_grid g ->
  (get_single_silicon_position g = Raise SiliconNotFoundError <->
   ~ exists p, In (p, 14%Z) (atoms g)).
Proof.
  intros W. unfold get_single_silicon_position.
  destruct (get_silicon_positions g) as [|p l] eqn:E.
  - split; auto. intros _ [p Hp]. apply silicon_positions_In in Hp; auto. rewrite E in Hp. inversion Hp.
  - split.
    + destruct l as [|q l]; [discriminate|].
      destruct (argmin _) as [i|]; [|discriminate].
      destruct (nth_error _ i); discriminate.
    + intros H. exfalso. apply H. exists p. apply silicon_positions_In; auto. rewrite E. left; auto.
Qed.

Lemma nth_map_norm ps i : (i < length ps)%nat ->
  nth i (map (fun p => pnorm (psub (mkpt (1/2) (1/2)) p)) ps) 0 = pdist (mkpt (1/2) (1/2)) (nth i ps pzero).
Proof.
  intros L. rewrite nth_indep with (d' := pnorm (psub (mkpt (1/2) (1/2)) pzero)) by (rewrite map_length; auto).
  rewrite (map_nth (fun p => pnorm (psub (mkpt (1/2) (1/2)) p))). reflexivity.
Qed.

Lemma single_silicon_ok g : wf_grid g -> (exists p, In (p, 14%Z) (atoms g)) ->
  exists i p, get_single_silicon_position g = Ok p /\
    nth_error (get_silicon_positions g) i = Some p /\
    (forall j q, nth_error (get_silicon_positions g) j = Some q ->
       pdist (mkpt (1/2) (1/2)) p <= pdist (mkpt (1/2) (1/2)) q /\
       ((j < i)%nat -> pdist (mkpt (1/2) (1/2)) p < pdist (mkpt (1/2) (1/2)) q)).
Proof.
  intros W [p0 Hp0]. apply silicon_positions_In in Hp0; auto.
  unfold get_single_silicon_position. destruct (get_silicon_positions g) as [|p l]; [inversion Hp0|].
  destruct l as [|q l].
  - exists 0%nat, p. split; [|split]; auto. intros [|j] q; simpl.
    + intros E. inversion E; subst. split; [lra|lia].
    + destruct j; discriminate.
  - remember (p :: q :: l) as ps eqn:Eps.
    destruct (argmin _) as [i|] eqn:E.
    2:{ apply argmin_None in E. subst ps. discriminate. }
    apply argmin_spec in E. destruct E as (L & M & F). rewrite map_length in *.
    destruct (nth_error ps i) as [r|] eqn:Ei.
    2:{ apply nth_error_None in Ei. lia. }
    exists i, r. subst ps. rewrite Ei. split; [|split]; auto.
    remember (p :: q :: l) as ps eqn:Eps.
    intros j q' Ej. pose proof (nth_error_lt _ _ _ Ej) as Lj.
    pose proof (nth_error_nth_default _ _ pzero _ Ei) as Ni.
    pose proof (nth_error_nth_default _ _ pzero _ Ej) as Nj.
    split.
    + specialize (M j Lj). rewrite !nth_map_norm in M by auto. rewrite Ni, Nj in M. exact M.
    + intros Hji. specialize (F j Hji). rewrite !nth_map_norm in F by auto. rewrite Ni, Nj in F. exact F.
Qed.

(** the numbers of a successor *)
Lemma carbon_upd_doped {A} ps (ns : list A) i : length ps = length ns -> (i < length ns)%nat ->
  single_doped (mkgrid ps (upd (map (fun _ : A => CARBON) ns) i SILICON)) i.
Proof.
  intros W L. split; [|split]; simpl.
  - unfold wf_grid; simpl. rewrite upd_length, map_length. auto.
  - rewrite upd_length, map_length. auto.
  - intros j z Hj. destruct (Nat.eq_dec j i) as [->|N].
    + rewrite upd_nth_same in Hj by (rewrite map_length; auto). inversion Hj. auto.
    + rewrite upd_nth_other in Hj by auto. apply nth_error_map_Some in Hj. destruct Hj as (? & _ & ->). auto.
Qed.

Lemma single_silicon_numbers_ok ns i l : single_silicon_numbers ns i = Ok l <->
  (i < length ns)%nat /\ l = upd (map (fun _ => CARBON) ns) i SILICON.
Proof.
  unfold single_silicon_numbers. destruct (Nat.ltb_spec i (length ns)); split.
  - intros E; inversion E; auto.
  - intros [_ ->]; auto.
  - discriminate.
  - intros [? _]; lia.
Qed.

Lemma Forall2_combine_lr {A B} (l : list A) (l' : list B) (P : A -> B -> Prop) :
  length l = length l' ->
  (Forall2 P l l' <-> Forall (fun ab => P (fst ab) (snd ab)) (combine l l')).
Proof.
  revert l'; induction l as [|a l IH]; intros [|b l'] L; simpl in *; try discriminate.
  - split; constructor.
  - split; intros H; inversion H; subst; constructor; auto; apply IH; auto.
Qed.

(** successors built from neighbour indices *)
Lemma successors_spec {A} (g : grid) (f : A -> R) idx (l : list A) rs :
  wf_grid g ->
  map_res (fun ir =>
     bind (single_silicon_numbers (numbers g) (fst ir))
       (fun ns => Ok (mkgrid (positions g) ns, f (snd ir)))) (combine idx l) = Ok rs ->
  length idx = length l ->
  length rs = length idx /\
  (forall k g' r, nth_error rs k = Some (g', r) ->
     exists i a, nth_error idx k = Some i /\ nth_error l k = Some a /\ r = f a /\
       positions g' = positions g /\ single_doped g' i).
Proof.
  intros W H L. apply map_res_Ok in H.
  revert l rs L H. induction idx as [|i idx IH]; intros [|a l] rs L H; simpl in *; try discriminate.
  - inversion H; subst. split; auto. intros [|k]; discriminate.
  - inversion H as [|x y ? rs' Hx Hr]; subst. simpl in Hx.
    destruct (single_silicon_numbers (numbers g) i) as [ns| |] eqn:E; simpl in Hx; inversion Hx; subst.
    apply single_silicon_numbers_ok in E. destruct E as [Li ->].
    destruct (IH l rs') as (Ll & K); [lia|auto|].
    split; [simpl; lia|].
    intros [|k] g' r Hk; simpl in Hk.
    + inversion Hk; subst. exists i, a. repeat split; auto.
      * unfold wf_grid; simpl. rewrite upd_length, map_length. exact W.
      * simpl. rewrite upd_length, map_length. auto.
      * apply (carbon_upd_doped (positions g) (numbers g) i W Li).
    + apply K; auto.
Qed.

Lemma successors_total {A} (g : grid) (f : A -> R) idx (l : list A) :
  (forall i, In i idx -> (i < length (numbers g))%nat) ->
  exists rs, map_res (fun ir =>
     bind (single_silicon_numbers (numbers g) (fst ir))
       (fun ns => Ok (mkgrid (positions g) ns, f (snd ir)))) (combine idx l) = Ok rs.
Proof.
  revert l; induction idx as [|i idx IH]; intros l H; simpl; [eexists; reflexivity|].
  destruct l as [|a l]; simpl; [eexists; reflexivity|].
  unfold single_silicon_numbers at 1.
  assert (i < length (numbers g))%nat as Li by (apply H; left; auto).
  apply Nat.ltb_lt in Li. rewrite Li. simpl.
  destruct (IH l) as [rs E]; [intros; apply H; right; auto|].
  rewrite E. simpl. eexists; reflexivity.
Qed.

(** a single-doped sheet with distinct sites *)
Lemma neighbours_found knn g s si : knn_ok knn -> single_doped g s -> NoDup (positions g) ->
  nth_error (positions g) s = Some si ->
  ((length (positions g) < 4)%nat -> nearest_neighbors3 knn (positions g) si false = Raise ValueError) /\
  ((4 <= length (positions g))%nat ->
   exists idx, nearest_neighbors3 knn (positions g) si false = Ok idx /\
     three_nearest (positions g) s idx /\
     (forall i, In i idx -> (i < length (numbers g))%nat)).
Proof.
  intros K D N E.
  assert (U : forall j, nth_error (positions g) j = Some si -> j = s).
  { intros j Hj. rewrite NoDup_nth_error in N. apply N; [apply nth_error_lt in Hj; auto|congruence]. }
  destruct (nearest_neighbors3_spec knn (positions g) s si K E U) as [H1 H2].
  split.
  - intros L. apply H2. auto.
  - intros L. destruct (H1 L) as (idx & E1 & T & _). exists idx. split; [|split]; auto.
    intros i Hi. destruct (tn_in _ _ _ T i Hi) as [p Hp]. apply nth_error_lt in Hp.
    destruct D as (W & _). unfold wf_grid in W. lia.
Qed.

Lemma count_doped_list (l : list Z) : forall s, (s < length l)%nat ->
  (forall i z, nth_error l i = Some z -> (i = s /\ z = 14%Z) \/ (i <> s /\ z = 6%Z)) ->
  count_occ Z.eq_dec l 14%Z = 1%nat /\ count_occ Z.eq_dec l 6%Z = (length l - 1)%nat.
Proof.
  assert (All6 : forall l : list Z, (forall i z, nth_error l i = Some z -> z = 6%Z) ->
     count_occ Z.eq_dec l 14%Z = 0%nat /\ count_occ Z.eq_dec l 6%Z = length l).
  { induction l0 as [|x l0 IH]; intros H; [split; reflexivity|].
    assert (x = 6%Z) by (apply (H 0%nat); reflexivity). subst x.
    destruct IH as [A B]; [intros i z Hi; apply (H (S i)); exact Hi|].
    simpl. split; [exact A|rewrite B; reflexivity]. }
  induction l as [|x l IH]; intros s L H; simpl in *; [lia|].
  destruct s as [|s].
  - assert (x = 14%Z) by (destruct (H 0%nat x eq_refl) as [[_ E]|[N _]]; [auto|congruence]). subst x.
    destruct (All6 l) as [A B].
    { intros i z Hi. destruct (H (S i) z Hi) as [[E _]|[_ E]]; [discriminate|auto]. }
    cbn [count_occ]. destruct (Z.eq_dec 14 14); [|congruence]. destruct (Z.eq_dec 14 6); [discriminate|].
    rewrite A, B. lia.
  - assert (x = 6%Z) by (destruct (H 0%nat x eq_refl) as [[E _]|[_ E]]; [discriminate|auto]). subst x.
    destruct (IH s) as [A B]; [lia| |].
    { intros i z Hi. destruct (H (S i) z Hi) as [[E ?]|[? E]]; [left|right]; split; auto; congruence. }
    cbn [count_occ]. destruct (Z.eq_dec 6 14); [discriminate|]. destruct (Z.eq_dec 6 6); [|congruence].
    rewrite A, B. lia.
Qed.

Lemma count_doped g s : single_doped g s ->
  count_number 14 g = 1%nat /\ count_number 6 g = (length (positions g) - 1)%nat.
Proof.
  intros (W & L & H). unfold wf_grid in W. rewrite W. apply (count_doped_list _ s); auto.
Qed.
