(** C115: the graph network *)
From Coq Require Import Reals List Arith Bool Permutation Lia Lra.
From Verif Require Import Base.Prelude Model.LearningSteps Model.GraphNet Proofs.BaseFacts Proofs.GraphNetFacts Spec.GraphNet.
Import ListNotations.
Open Scope R_scope.
Open Scope list_scope.

Section Net.
Context {Pos : Type}.
Variable displacement : Pos -> Pos -> vec.
Variable origin : Pos.
Notation apply := (graph_apply displacement origin).
Notation used := (used_links displacement origin).
Notation moved := (displaced displacement origin).

Lemma used_linked cfg positions idx : usable (nc_threshold cfg) (length positions) idx -> Forall (linked (length positions)) (used cfg positions idx).
Proof.
  intros H. apply Forall_forall. intros e He. unfold used_links in He. apply filter_In in He. destruct He as [Hin Hr]. apply andb_prop in Hr. destruct Hr as [Hr _]. unfold real_link in Hr. apply Nat.ltb_lt in Hr.
  destruct H as [[_ H]|[_ (l & pad & -> & Hl & Hp)]].
  - unfold proper in H. rewrite Forall_forall in H. destruct (H _ Hin) as [Hk| ->]; [auto|cbn in Hr; lia].
  - rewrite Forall_forall in Hl, Hp. apply in_app_or in Hin. destruct Hin as [Hin|Hin]; [auto|]. rewrite (Hp _ Hin) in Hr. cbn in Hr. lia.
Qed.
Lemma position_nth positions i : (i < length positions)%nat -> position origin positions i = nth i positions origin.
Proof. intros H. unfold position. rewrite Nat.min_l by lia. reflexivity. Qed.
Lemma filter_none {A} (f : A -> bool) l : (forall x, In x l -> f x = false) -> filter f l = [].
Proof. induction l as [|x l IH]; intros H; [reflexivity|]. cbn. rewrite H by (left; auto). apply IH. intros; apply H; right; auto. Qed.
Lemma filter_all {A} (f : A -> bool) l : (forall x, In x l -> f x = true) -> filter f l = l.
Proof. induction l as [|x l IH]; intros H; [reflexivity|]. cbn. rewrite H by (left; auto). f_equal. apply IH. intros; apply H; right; auto. Qed.

Lemma created cfg positions features idx : nc_format cfg = Sparse -> usable (nc_threshold cfg) (length positions) idx -> length features = length positions ->
  exists g pad, create_graph displacement origin cfg positions features idx = Some g /\ g_points g = length positions /\ g_real g = length (used cfg positions idx) /\
    (forall i, (i < length positions)%nat -> g_nodes g i = nth i features []) /\ fst (g_globals g) = [0] /\
    g_edges g = map (fun e => (e, moved positions e)) (used cfg positions idx) ++ pad /\ Forall (fun e => fst e = (length positions, length positions)) pad.
Proof.
  intros F U Lf. set (n := length positions) in *. pose proof (used_linked cfg positions idx U) as Ul. fold n in Ul. unfold create_graph. rewrite F. fold n.
  assert (X : exists links padding, (if Rltb 0 (nc_threshold cfg) then (filter (edge_kept displacement origin cfg positions) idx ++ repeat (n, n) (length idx - length (filter (edge_kept displacement origin cfg positions) idx)), length (filter (edge_kept displacement origin cfg positions) idx)) else (idx, length (filter (fun e => (fst e <? n)%nat) idx))) = (links ++ padding, length links) /\ links = used cfg positions idx /\ Forall (dummy n) padding).
  { destruct U as [[Ht Hp]|[Ht (l & pad & -> & Hl & Hp)]].
    - replace (Rltb 0 (nc_threshold cfg)) with true by (symmetry; apply Rltb_true; auto). eexists _, _. split; [reflexivity|]. split.
      + unfold used_links. apply filter_ext_in. intros e He. unfold proper in Hp. rewrite Forall_forall in Hp. replace (Rleb (nc_threshold cfg) 0) with false by (symmetry; apply Rleb_false; auto). cbn [orb]. unfold edge_kept, real_link. fold n. destruct (fst e <? n)%nat eqn:Er; [|reflexivity]. cbn [andb]. apply Nat.ltb_lt in Er.
        destruct (Hp _ He) as [[H1 H2]| ->]; [|cbn in Er; lia]. unfold edge_displacement. rewrite !position_nth by auto. f_equal. ring.
      + apply Forall_forall. intros e He. apply repeat_spec in He. exact He.
    - replace (Rltb 0 (nc_threshold cfg)) with false by (symmetry; apply Rltb_false; auto). exists l, pad. rewrite Forall_forall in Hl. 
      assert (E1 : filter (fun e => (fst e <? n)%nat) (l ++ pad) = l).
      { rewrite filter_app, (filter_all _ l), (filter_none _ pad), app_nil_r; [reflexivity| |].
        - intros e He. rewrite Forall_forall in Hp. rewrite (Hp _ He). cbn. apply Nat.ltb_ge. lia.
        - intros e He. apply Nat.ltb_lt. apply (Hl _ He). }
      split; [rewrite E1; reflexivity|]. split; [|auto]. unfold used_links. rewrite <- E1 at 1. apply filter_ext. intros e. replace (Rleb (nc_threshold cfg) 0) with true by (symmetry; apply Rleb_true; auto). rewrite andb_true_r. reflexivity. }
  destruct X as (links & padding & -> & -> & Hpad). eexists _, _. split; [reflexivity|]. cbn [g_points g_real g_nodes g_globals g_edges fst]. split; [reflexivity|]. split; [reflexivity|]. split; [intros i Hi; apply nth_indep; lia|]. split; [reflexivity|]. rewrite map_app. split.
  - f_equal. apply map_ext_in. intros e He. rewrite Forall_forall in Ul. destruct (Ul _ He) as [H1 H2]. unfold edge_displacement, displaced. rewrite !position_nth by auto. reflexivity.
  - apply Forall_forall. intros e He. apply in_map_iff in He. destruct He as (x & <- & Hx). rewrite Forall_forall in Hpad. cbn. apply (Hpad _ Hx).
Qed.

(** C115: the network passes messages along the used links of the points, and nothing else: neither places of the
    list of neighbors that are not used nor the dummy point matter *)
Theorem graph_network cfg p positions idx features steps size :
  nc_format cfg = Sparse -> Nat.divide 8 (nc_width cfg) -> nc_steps cfg = steps -> (0 < steps)%nat -> length positions = (steps * size)%nat -> length features = (steps * size)%nat ->
  usable (nc_threshold cfg) (steps * size) idx -> (forall v, length (global_decoder p v) = (steps * nc_dims cfg)%nat) ->
  apply cfg p positions idx features =
  Ok (readout (nc_dims cfg) steps size p (latent (nc_width cfg) p (steps * size) (used cfg positions idx) (moved positions) (fun i => nth i features []) (nc_recurrences cfg))).
Proof.
  intros F W T T0 Lp Lf U G. rewrite <- Lp in U. assert (Lfp : length features = length positions) by lia. destruct (created cfg positions features idx F U Lfp) as (g & pad & Ec & P & R & N & Wh & E & D).
  pose proof (used_linked cfg positions idx U) as Ul. unfold graph_apply. rewrite Lfp, Nat.eqb_refl, Ec. cbn [negb network_call]. replace (nc_width cfg mod 8 =? 0)%nat with true by (symmetry; apply Nat.eqb_eq, Nat.mod_divide; [lia|auto]). cbn [negb]. rewrite F, T, P, Lp.
  replace (steps =? 0)%nat with false by (symmetry; apply Nat.eqb_neq; lia). rewrite (Nat.mul_comm steps size), Nat.mod_mul, Nat.eqb_refl, Nat.div_mul by lia. cbn [orb negb]. rewrite (Nat.mul_comm size steps).
  pose proof (encode_matches (nc_width cfg) p (length positions) (used cfg positions idx) (moved positions) (fun i => nth i features []) g pad P R N Wh E D) as M0.
  pose proof (encoder_matches _ _ _ _ _ _ Ul _ (nc_recurrences cfg) _ M0) as (_ & _ & Nk & Wk & _). rewrite Wk, G, Nat.eqb_refl. cbn [negb]. rewrite Lp in *.
  set (L := latent _ _ _ _ _ _ _) in *. set (out := encoder_call _ _ _ _) in *.
  assert (Tb : forall t, In t (seq 0 steps) -> map (fun i => g_nodes out (t * size + i)) (seq 0 size) = map (fun i => of_point L (t * size + i)%nat) (seq 0 size)).
  { intros t Ht. apply in_seq in Ht. apply map_ext_in. intros i Hi. apply in_seq in Hi. apply Nk. nia. }
  unfold readout, rows, table. f_equal. f_equal.
  - rewrite map_map, map2_maps. apply map_ext_in. intros t Ht. rewrite (Tb t Ht), map_map. reflexivity.
  - rewrite map_map. apply map_ext_in. intros t Ht. rewrite (Tb t Ht), map_map. reflexivity.
Qed.
(** C115: false that the documented Dense format works: there is a result exactly for the Sparse format, widths
    that 8 divides and points for each time alike *)
Theorem dense_refuted cfg p positions idx features : (forall v, length (global_decoder p v) = (nc_steps cfg * nc_dims cfg)%nat) ->
  ((exists r, apply cfg p positions idx features = Ok r) <->
   nc_format cfg = Sparse /\ Nat.divide 8 (nc_width cfg) /\ length features = length positions /\ (0 < nc_steps cfg)%nat /\ Nat.divide (nc_steps cfg) (length positions)) /\
  (nc_format cfg = Dense -> length features = length positions -> apply cfg p positions idx features = Raise AttributeError).
Proof.
  intros G. split.
  - unfold graph_apply. destruct (Nat.eqb_spec (length features) (length positions)) as [El|El]; cbn [negb]; [|split; [intros (r & Hr); discriminate|tauto]].
    unfold create_graph. destruct (nc_format cfg) eqn:F; cbn [network_call].
    + split; [intros (r & Hr); discriminate|intros (X & _); discriminate].
    + destruct (if Rltb 0 (nc_threshold cfg) then _ else _) as [es real]. cbn [network_call g_points]. rewrite F. destruct (Nat.eqb_spec (nc_width cfg mod 8) 0) as [E8|E8]; cbn [negb].
      * apply Nat.mod_divide in E8; [|lia]. destruct (Nat.eqb_spec (nc_steps cfg) 0) as [E0|E0]; cbn [orb]; [split; [intros (r & Hr); discriminate|lia]|]. destruct (Nat.eqb_spec (length positions mod nc_steps cfg) 0) as [Ed|Ed]; cbn [negb].
        -- rewrite G, Nat.eqb_refl. cbn [negb]. apply Nat.mod_divide in Ed; [|lia]. split; [intros _|eauto]. repeat split; auto. lia.
        -- split; [intros (r & Hr); discriminate|]. intros (_ & _ & _ & _ & X). apply Nat.mod_divide in X; [contradiction|lia].
      * split; [intros (r & Hr); discriminate|]. intros (_ & X & _). apply Nat.mod_divide in X; [contradiction|lia].
    + destruct (if Rltb 0 (nc_threshold cfg) then _ else _) as [es real]. cbn [network_call]. rewrite F. destruct (negb _); (split; [intros (r & Hr); discriminate|intros (X & _); discriminate]).
  - intros F El. unfold graph_apply, create_graph. rewrite El, Nat.eqb_refl, F. reflexivity.
Qed.

Lemma concat_table {A} (f : nat -> A) steps size : concat (table steps size f) = map f (seq 0 (steps * size)).
Proof.
  unfold table. rewrite <- flat_map_concat_map. induction steps as [|k IH]; [reflexivity|]. rewrite seq_S, flat_map_app, IH. cbn [flat_map Nat.add]. rewrite app_nil_r. replace (S k * size)%nat with (k * size + size)%nat by lia. rewrite seq_app, map_app. f_equal. cbn [Nat.add].
  generalize (k * size)%nat. intros m. rewrite <- (map_map (fun i => (m + i)%nat) f). f_equal. clear. assert (Sh : forall s, seq (m + s) size = map (fun i => (m + i)%nat) (seq s size)). { induction size as [|z IHz]; intros s; [reflexivity|]. cbn. rewrite <- IHz. f_equal. f_equal. lia. } rewrite <- Sh. f_equal. lia.
Qed.
Lemma step_perm steps size (sigma : nat -> nat) t : renames (steps * size) sigma -> (forall i, (i < steps * size)%nat -> (sigma i / size = i / size)%nat) -> (t < steps)%nat ->
  Permutation (map (fun i => sigma (t * size + i)%nat) (seq 0 size)) (map (fun i => (t * size + i)%nat) (seq 0 size)).
Proof.
  intros [H1 H2] H3 Ht. destruct size as [|z]; [constructor|]. set (size := S z) in *. apply NoDup_Permutation_bis.
  - assert (Gn : forall l, NoDup l -> (forall i, In i l -> (i < size)%nat) -> NoDup (map (fun i => sigma (t * size + i)%nat) l)).
    { induction l as [|x l IH]; intros ND Hb; [constructor|]. inversion ND; subst. cbn. constructor; [|apply IH; auto; intros; apply Hb; right; auto]. intros Hin. apply in_map_iff in Hin. destruct Hin as (y & E & Hy).
      assert (y < size)%nat by (apply Hb; right; auto). assert (x < size)%nat by (apply Hb; left; auto). apply H2 in E; [|nia|nia]. assert (y = x) by lia. subst. auto. }
    apply Gn; [apply seq_NoDup|]. intros i Hi. apply in_seq in Hi. lia.
  - rewrite !map_length. auto.
  - intros j Hj. apply in_map_iff in Hj. destruct Hj as (i & <- & Hi). apply in_seq in Hi. assert (Hb : (t * size + i < steps * size)%nat) by nia. pose proof (H3 _ Hb) as Hd. rewrite Nat.div_add_l, (Nat.div_small i) in Hd by lia. rewrite Nat.add_0_r in Hd.
    pose proof (Nat.div_mod (sigma (t * size + i)%nat) size ltac:(lia)) as Dm. pose proof (Nat.mod_upper_bound (sigma (t * size + i)%nat) size ltac:(lia)) as Mb. apply in_map_iff. exists (sigma (t * size + i) mod size)%nat. split; [rewrite Hd in Dm; lia|apply in_seq; lia].
Qed.

(** C115: the names of the points of a time and the order of the links do not matter: with other names, the
    global predictions are the same, and the local ones those of the same points *)
Theorem points_renamed cfg p positions positions' idx idx' features features' steps size sigma :
  nc_format cfg = Sparse -> Nat.divide 8 (nc_width cfg) -> nc_steps cfg = steps -> (0 < steps)%nat ->
  length positions = (steps * size)%nat -> length features = (steps * size)%nat -> length positions' = (steps * size)%nat -> length features' = (steps * size)%nat ->
  usable (nc_threshold cfg) (steps * size) idx -> usable (nc_threshold cfg) (steps * size) idx' -> (forall v, length (global_decoder p v) = (steps * nc_dims cfg)%nat) ->
  renames (steps * size) sigma -> (forall i, (i < steps * size)%nat -> (sigma i / size = i / size)%nat) ->
  (forall i, (i < steps * size)%nat -> nth_error positions' (sigma i) = nth_error positions i /\ nth_error features' (sigma i) = nth_error features i) ->
  Permutation (used cfg positions' idx') (map (fun e => (sigma (fst e), sigma (snd e))) (used cfg positions idx)) ->
  exists global local local', apply cfg p positions idx features = Ok (global, local) /\ apply cfg p positions' idx' features' = Ok (global, local') /\
    length (concat local) = (steps * size)%nat /\ (forall i, (i < steps * size)%nat -> nth_error (concat local') (sigma i) = nth_error (concat local) i).
Proof.
  intros F W T T0 Lp Lf Lp' Lf' U U' G S Sd Hnth P. rewrite (graph_network _ p positions idx features steps size), (graph_network _ p positions' idx' features' steps size) by auto.
  assert (Dn : forall {A} (l l' : list A) d i, nth_error l' (sigma i) = nth_error l i -> nth (sigma i) l' d = nth i l d).
  { intros A l l' d i E. destruct (nth_error l i) as [x|] eqn:Ei.
    - rewrite (nth_error_nth _ _ d Ei), (nth_error_nth _ _ d E). reflexivity.
    - rewrite !nth_overflow; [reflexivity| |]; apply nth_error_None; auto. }
  assert (Ul : Forall (linked (steps * size)) (used cfg positions idx)) by (rewrite <- Lp; apply used_linked; rewrite Lp; auto).
  assert (He : forall e, linked (steps * size) e -> moved positions' (rename sigma e) = moved positions e). { intros e [A B]. unfold displaced, rename. cbn [fst snd]. rewrite !(Dn _ positions positions') by (apply Hnth; auto). reflexivity. }
  assert (Hn : forall i, (i < steps * size)%nat -> (fun i => nth i features' []) (sigma i) = (fun i => nth i features []) i). { intros i Hi. cbn. apply Dn, Hnth. auto. }
  pose proof (rename_latent (nc_width cfg) p (steps * size) sigma S (used cfg positions idx) (used cfg positions' idx') (moved positions) (moved positions') (fun i => nth i features []) (fun i => nth i features' []) Ul P He Hn (nc_recurrences cfg)) as (_ & N & Wh).
  set (L := latent _ _ _ (used cfg positions idx) _ _ _) in *. set (L' := latent _ _ _ (used cfg positions' idx') _ _ _) in *.
  exists (fst (readout (nc_dims cfg) steps size p L)), (snd (readout (nc_dims cfg) steps size p L)), (snd (readout (nc_dims cfg) steps size p L')). split; [reflexivity|]. split; [|split].
  - unfold readout. cbn [fst snd]. f_equal. f_equal. apply map_ext_in. intros t Ht. apply in_seq in Ht. rewrite Wh. f_equal.
    rewrite <- (map_map (fun i => (t * size + i)%nat) (fun j => pooling_decoder p (of_point L' j))). rewrite (vmean_perm _ _ (map (fun j => pooling_decoder p (of_point L' j)) (map (fun i => sigma (t * size + i)%nat) (seq 0 size)))).
    + rewrite map_map. f_equal. apply map_ext_in. intros i Hi. apply in_seq in Hi. rewrite N by nia. reflexivity.
    + apply Permutation_map. symmetry. apply (step_perm steps); auto. lia.
  - unfold readout. cbn [snd]. rewrite concat_table, map_length, seq_length. reflexivity.
  - intros i Hi. unfold readout. cbn [snd]. rewrite !concat_table.
    assert (Ns : forall k, (k < steps * size)%nat -> nth_error (seq 0 (steps * size)) k = Some k). { intros k Hk. rewrite (nth_error_nth' _ 0%nat) by (rewrite seq_length; auto). rewrite seq_nth by auto. reflexivity. }
    rewrite !nth_error_map, !Ns by (try apply S; auto). cbn. rewrite N by auto. reflexivity.
Qed.
(** C115: so the capacity, the places and the order of the links do not matter *)
Theorem capacity_irrelevant cfg p positions idx idx' features steps size :
  nc_format cfg = Sparse -> Nat.divide 8 (nc_width cfg) -> nc_steps cfg = steps -> (0 < steps)%nat ->
  length positions = (steps * size)%nat -> length features = (steps * size)%nat ->
  usable (nc_threshold cfg) (steps * size) idx -> usable (nc_threshold cfg) (steps * size) idx' -> (forall v, length (global_decoder p v) = (steps * nc_dims cfg)%nat) ->
  Permutation (used cfg positions idx') (used cfg positions idx) ->
  apply cfg p positions idx features = apply cfg p positions idx' features.
Proof.
  intros F W T T0 Lp Lf U U' G P. rewrite (graph_network _ p positions idx features steps size), (graph_network _ p positions idx' features steps size) by auto.
  assert (Ul : Forall (linked (steps * size)) (used cfg positions idx)) by (rewrite <- Lp; apply used_linked; rewrite Lp; auto).
  assert (S : renames (steps * size) (fun i => i)) by (split; auto).
  assert (P' : Permutation (used cfg positions idx') (map (rename (fun i => i)) (used cfg positions idx))). { unfold rename. erewrite map_ext; [rewrite map_id; exact P|]. intros [a b]; reflexivity. }
  pose proof (rename_latent (nc_width cfg) p (steps * size) (fun i => i) S (used cfg positions idx) (used cfg positions idx') (moved positions) (moved positions) (fun i => nth i features []) (fun i => nth i features []) Ul P' ltac:(intros [a b] _; reflexivity) ltac:(reflexivity) (nc_recurrences cfg)) as (_ & N & Wh).
  set (L := latent _ _ _ (used cfg positions idx) _ _ _) in *. set (L' := latent _ _ _ (used cfg positions idx') _ _ _) in *. unfold readout, table. rewrite Wh. f_equal. f_equal.
  - apply map_ext_in. intros t Ht. apply in_seq in Ht. f_equal. f_equal. apply map_ext_in. intros i Hi. apply in_seq in Hi. rewrite N by nia. reflexivity.
  - apply map_ext_in. intros t Ht. apply in_seq in Ht. apply map_ext_in. intros i Hi. apply in_seq in Hi. rewrite N by nia. reflexivity.
Qed.
(** C115: only displacements of the points matter, not where they are *)
Theorem only_displacements cfg p positions idx features (move : Pos -> Pos) : (forall a b, displacement (move a) (move b) = displacement a b) -> positions <> [] ->
  apply cfg p (map move positions) idx features = apply cfg p positions idx features.
Proof.
  intros H Ne. assert (Ps : forall i, position origin (map move positions) i = move (position origin positions i)).
  { intros i. unfold position. rewrite map_length. destruct positions as [|x l]; [contradiction|]. rewrite (nth_indep _ origin (move origin)) by (rewrite map_length; cbn; lia). apply map_nth. }
  assert (Ed : forall e, edge_displacement displacement origin (map move positions) e = edge_displacement displacement origin positions e) by (intros e; unfold edge_displacement; rewrite !Ps; apply H).
  unfold graph_apply. rewrite map_length. destruct (negb _); [reflexivity|]. f_equal. unfold create_graph. rewrite map_length.
  assert (Ek : filter (edge_kept displacement origin cfg (map move positions)) idx = filter (edge_kept displacement origin cfg positions) idx) by (apply filter_ext; intros e; unfold edge_kept; rewrite Ed, map_length; reflexivity).
  rewrite Ek. destruct (nc_format cfg); [reflexivity| |]; (destruct (if Rltb 0 (nc_threshold cfg) then _ else _) as [es real]; f_equal; f_equal; apply map_ext; intros e; rewrite Ed; reflexivity).
Qed.

Lemma near_linked cutoff positions : Forall (linked (length positions)) (near_pairs displacement origin cutoff positions).
Proof. apply Forall_forall. intros [a b] H. unfold near_pairs in H. apply filter_In in H. destruct H as [H _]. apply in_prod_iff in H. destruct H as [A B]. apply in_seq in A, B. split; cbn; lia. Qed.
Lemma firstn_repeat {A} (x : A) m : forall k, firstn k (repeat x m) = repeat x (Nat.min k m).
Proof. induction m as [|m IH]; intros k; [rewrite Nat.min_0_r; destruct k; reflexivity|]. destruct k as [|k]; [reflexivity|]. cbn. rewrite IH. reflexivity. Qed.
Lemma training_links update cutoff p positions features steps size capacity :
  finds_neighbors displacement origin cutoff update -> (0 < steps)%nat -> length positions = (steps * size)%nat -> length features = (steps * size)%nat ->
  (forall v, length (global_decoder p v) = (steps * 2)%nat) ->
  exists l, Permutation l (near_pairs displacement origin cutoff positions) /\ forall l', Permutation l' (firstn capacity l) ->
  train_alignment displacement origin update capacity (trained_config cutoff steps) p positions features =
  Ok (readout 2 steps size p (latent 64 p (steps * size) l' (moved positions) (fun i => nth i features []) 3)).
Proof.
  intros Hf T0 Lp Lf G. unfold train_alignment. destruct (Hf positions (create_neighbors capacity (length positions))) as (l & Pl & ->). cbn [nb_idx create_neighbors nb_capacity].
  exists l. split; [exact Pl|]. intros near Pn. rewrite firstn_app, firstn_repeat. set (l1 := firstn capacity l) in *. set (pad := repeat _ _).
  assert (Hl : Forall (linked (length positions)) l1). { apply Forall_forall. intros e He. assert (He' : In e l) by (rewrite <- (firstn_skipn capacity l); apply in_or_app; auto). apply (Permutation_in _ Pl) in He'. pose proof (near_linked cutoff positions) as X. rewrite Forall_forall in X. auto. }
  assert (Hpad : Forall (dummy (length positions)) pad). { apply Forall_forall. intros e He. apply repeat_spec in He. exact He. }
  assert (Us : forall m, Forall (linked (length positions)) m -> used (trained_config cutoff steps) positions (m ++ pad) = m).
  { intros m Hm. unfold used_links. cbn [nc_threshold trained_config]. replace (Rleb 0 0) with true by (symmetry; apply Rleb_true; lra). cbn [orb]. rewrite filter_app, (filter_all _ m), (filter_none _ pad), app_nil_r; [reflexivity| |].
    - intros e He. rewrite Forall_forall in Hpad. rewrite (Hpad _ He). unfold real_link. cbn [fst]. rewrite Nat.ltb_irrefl. reflexivity.
    - intros e He. rewrite Forall_forall in Hm. destruct (Hm _ He) as [A _]. unfold real_link. rewrite andb_true_r. apply Nat.ltb_lt. auto. }
  assert (Hnear : Forall (linked (length positions)) near). { apply Forall_forall. intros e He. apply (Permutation_in _ Pn) in He. rewrite Forall_forall in Hl. auto. }
  assert (U : forall m, Forall (linked (length positions)) m -> usable (nc_threshold (trained_config cutoff steps)) (steps * size) (m ++ pad)). { intros m Hm. right. cbn. split; [lra|]. rewrite <- Lp. exists m, pad. auto. }
  rewrite (capacity_irrelevant _ p positions (l1 ++ pad) (near ++ pad) features steps size); auto; [|cbn; exists 8%nat; reflexivity|rewrite !Us by auto; exact Pn].
  rewrite (graph_network _ p positions (near ++ pad) features steps size); auto; [|cbn; exists 8%nat; reflexivity]. rewrite Us by auto. reflexivity.
Qed.
(** C115: in training, if there is space for all near pairs, the network sees exactly these, for every capacity *)
Theorem training_graph update cutoff p positions features steps size capacity :
  finds_neighbors displacement origin cutoff update -> (0 < steps)%nat -> length positions = (steps * size)%nat -> length features = (steps * size)%nat ->
  (forall v, length (global_decoder p v) = (steps * 2)%nat) ->
  (length (near_pairs displacement origin cutoff positions) <= capacity)%nat ->
  train_alignment displacement origin update capacity (trained_config cutoff steps) p positions features =
  Ok (readout 2 steps size p (latent 64 p (steps * size) (near_pairs displacement origin cutoff positions) (moved positions) (fun i => nth i features []) 3)).
Proof.
  intros Hf T0 Lp Lf G Hc. destruct (training_links update cutoff p positions features steps size capacity) as (l & Pl & H); auto. apply H. rewrite firstn_all2 by (rewrite (Permutation_length Pl); auto). symmetry. exact Pl.
Qed.
(** C115: false that too small a capacity is noticed: links are left out *)
Theorem overflow_unnoticed_refuted update cutoff p positions features steps size capacity :
  finds_neighbors displacement origin cutoff update -> (0 < steps)%nat -> length positions = (steps * size)%nat -> length features = (steps * size)%nat ->
  (forall v, length (global_decoder p v) = (steps * 2)%nat) ->
  exists l dropped, Permutation (l ++ dropped) (near_pairs displacement origin cutoff positions) /\
  length dropped = (length (near_pairs displacement origin cutoff positions) - capacity)%nat /\
  train_alignment displacement origin update capacity (trained_config cutoff steps) p positions features =
  Ok (readout 2 steps size p (latent 64 p (steps * size) l (moved positions) (fun i => nth i features []) 3)).
Proof.
  intros Hf T0 Lp Lf G. destruct (training_links update cutoff p positions features steps size capacity) as (l & Pl & H); auto. exists (firstn capacity l), (skipn capacity l). rewrite firstn_skipn, skipn_length, (Permutation_length Pl). auto.
Qed.
End Net.

(** C115: and the list that is made first, before an update, is of links of the first point to itself *)
Theorem fresh_neighbors capacity points : nb_idx (create_neighbors capacity points) = repeat (0, 0)%nat capacity /\ nb_capacity (create_neighbors capacity points) = capacity /\
  nb_overflow (create_neighbors capacity points) = false /\ nb_points (create_neighbors capacity points) = points.
Proof. repeat split. Qed.
(** C115: sums and means are those of each column *)
Theorem column_sums width l : (forall v, In v l -> length v = width) ->
  length (vsum width l) = width /\ length (vmean width l) = width /\
  (forall k, (k < width)%nat -> nth k (vsum width l) 0 = rsum (map (fun v => nth k v 0) l) /\ nth k (vmean width l) 0 = rsum (map (fun v => nth k v 0) l) / INR (length l)) /\
  (forall v, vsquare v = rsum (map (fun k => nth k v 0 ^ 2) (seq 0 (length v)))).
Proof.
  intros H.
  assert (Nv : forall (a b : vec) k, length a = length b -> (k < length a)%nat -> nth k (vadd a b) 0 = nth k a 0 + nth k b 0).
  { unfold vadd. induction a as [|x a IH]; intros [|y b] k Hab Hk; cbn in *; try lia. destruct k as [|k]; [reflexivity|]. apply IH; lia. }
  assert (Ls : length (vsum width l) = width /\ forall k, (k < width)%nat -> nth k (vsum width l) 0 = rsum (map (fun v => nth k v 0) l)).
  { unfold vsum. induction l as [|v l IH]; cbn [fold_right map].
    - split; [apply repeat_length|]. intros k Hk. unfold rsum. cbn. apply nth_repeat.
    - destruct IH as [IL IN]; [intros; apply H; right; auto|]. assert (Lv : length v = width) by (apply H; left; auto). split.
      + unfold vadd at 1. rewrite map2_length; congruence.
      + intros k Hk. rewrite Nv by (rewrite ?IL; lia). rewrite IN by auto. reflexivity. }
  destruct Ls as [L N]. split; [auto|]. split; [unfold vmean; rewrite map_length; auto|]. split.
  - intros k Hk. split; [auto|]. unfold vmean. rewrite (nth_indep _ 0 ((fun x => x / INR (length l)) 0)) by (rewrite map_length, L; auto). rewrite (map_nth (fun x => x / INR (length l))), N by auto. reflexivity.
  - intros v. unfold vsquare. f_equal. clear. induction v as [|x v IH]; [reflexivity|]. cbn [length seq map nth]. f_equal; [ring|]. rewrite <- seq_shift, map_map. exact IH.
Qed.
Print Assumptions graph_network.
Print Assumptions column_sums.
Print Assumptions dense_refuted.
Print Assumptions points_renamed.
Print Assumptions capacity_irrelevant.
Print Assumptions only_displacements.
Print Assumptions training_graph.
Print Assumptions overflow_unnoticed_refuted.
Print Assumptions fresh_neighbors.

(** one point on a line, with a network that counts links: a capacity of one finds the link, none does not *)
Definition line_update (positions : list R) (nb : neighbors) : neighbors :=
  let l := near_pairs (fun a b => [a - b]) 0 1 positions in
  let n := length positions in
  mkneighbors (firstn (nb_capacity nb) (l ++ repeat (n, n) (nb_capacity nb))) n (nb_capacity nb <? length l)%nat (nb_capacity nb).
Definition counting : gparams :=
  mkgparams (fun v => v) (fun v => v) (fun v => v) (fun _ _ => repeat 1 64) (fun _ _ => repeat 0 64) (fun _ v => firstn 1 (skipn 64 v))
    (fun v => [nth 0 v 0; 0]) (fun _ => [0; 0]) (fun _ => [0; 0]).
Example graph_net_nonvacuous :
  finds_neighbors (fun a b => [a - b]) 0 1 line_update /\
  exists l l', train_alignment (fun a b => [a - b]) 0 line_update 1 (trained_config 1 1) counting [5] [[7]] = Ok ([[1; 0]], l) /\
    train_alignment (fun a b => [a - b]) 0 line_update 0 (trained_config 1 1) counting [5] [[7]] = Ok ([[0; 0]], l').
Proof.
  assert (F : finds_neighbors (fun a b => [a - b]) 0 1 line_update). { intros positions nb. exists (near_pairs (fun a b => [a - b]) 0 1 positions). split; [apply Permutation_refl|reflexivity]. }
  split; [exact F|].
  assert (N : near_pairs (fun a b => [a - b]) 0 1 [5] = [(0, 0)]%nat). { unfold near_pairs. cbn [length seq list_prod map app filter]. replace (Rltb _ _) with true; [reflexivity|]. symmetry. apply Rltb_true. unfold displaced, vsquare, rsum. cbn. lra. }
  pose proof (training_graph _ _ line_update 1 counting [5] [[7]] 1 1 1 F ltac:(lia) eq_refl eq_refl ltac:(reflexivity)) as A. rewrite N in A. specialize (A (le_n _)).
  destruct (overflow_unnoticed_refuted _ _ line_update 1 counting [5] [[7]] 1 1 0 F ltac:(lia) eq_refl eq_refl ltac:(reflexivity)) as (l & dropped & P & Ld & B). rewrite N in P, Ld. cbn in Ld. assert (El : l = []). { apply Permutation_length in P. rewrite app_length in P. cbn in P. destruct l; [reflexivity|cbn in P; lia]. } subst l.
  rewrite A, B. unfold readout. cbn [fst]. eexists _, _. split; f_equal; f_equal.
  - cbn [seq map]. f_equal. cbn [latent]. cbv [vmean vsum fold_right map length seq]. cbn. f_equal; [lra|f_equal; lra].
  - cbn [seq map]. f_equal. cbv [vmean vsum fold_right map length seq]. cbn. f_equal; [lra|f_equal; lra].
Qed.
(** two points that change their names *)
Example renamed_nonvacuous :
  let swap i := (1 - i)%nat in
  renames 2 swap /\ (forall i, (i < 1 * 2)%nat -> (swap i / 2 = i / 2)%nat) /\
  (forall i, (i < 2)%nat -> nth_error [6; 5] (swap i) = nth_error [5; 6] i) /\
  usable 0 2 [(0, 1); (0, 0); (2, 2)]%nat /\
  used_links (fun a b => [a - b]) 0 (trained_config 1 1) [6; 5] [(1, 1); (1, 0); (2, 2)]%nat =
  [(1, 1); (1, 0)]%nat /\ Permutation [(1, 1); (1, 0)]%nat (map (fun e => (swap (fst e), swap (snd e))) (used_links (fun a b => [a - b]) 0 (trained_config 1 1) [5; 6] [(0, 1); (0, 0); (2, 2)]%nat)).
Proof.
  cbv zeta. assert (L : Rleb 0 0 = true) by (apply Rleb_true; lra). split; [split; intros; lia|]. split; [intros [|[|i]] Hi; [reflexivity|reflexivity|lia]|]. split; [intros [|[|i]] Hi; [reflexivity|reflexivity|lia]|].
  split; [right; split; [lra|]; exists [(0, 1); (0, 0)]%nat, [(2, 2)]%nat; split; [reflexivity|]; split; repeat constructor|].
  unfold used_links, real_link. cbn [filter nc_threshold trained_config]. rewrite L. cbn. split; [reflexivity|]. constructor.
Qed.
