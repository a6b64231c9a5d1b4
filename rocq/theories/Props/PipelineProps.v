(** C72, C73: transitions out of trajectories, alignment of trajectories *)
From Coq Require Import Reals ZArith List Bool Lia Lra Arith.
From Verif Require Import Base.Prelude Base.Rounding Model.MicroscopeUtils Model.Io Model.Pipeline
  Spec.Grids Spec.Protos Spec.Records Spec.Pipelines Proofs.BaseFacts Proofs.ProtoFacts Props.Serialisation Props.IoProps.
Import ListNotations.
Open Scope R_scope.

(** * C72 *)
Definition vars_of (o : observation) : loop_vars := mkloop_vars (o_grid o) (o_fov o) (o_image o) (o_label_image o) (o_controls o).

Lemma transitions_loop_nth flag t : forall b i tr, nth_error (transitions_loop flag (Some (vars_of b)) t) i = Some tr ->
  exists before after, nth_error (b :: t) i = Some before /\ nth_error (b :: t) (S i) = Some after /\
    transition_between before after (if flag then o_controls after else o_controls before) tr.
Proof.
  induction t as [|o t IH]; intros b i tr E; [destruct i; discriminate|].
  cbn in E. destruct i as [|i].
  - cbn in E. injection E as <-. exists b, o. split; [reflexivity|]. split; [reflexivity|]. destruct flag; constructor; reflexivity.
  - cbn in E. apply (IH o) in E. exact E.
Qed.
Lemma transitions_loop_length flag t : forall b, length (transitions_loop flag (Some (vars_of b)) t) = length t.
Proof. induction t as [|o t IH]; intros b; auto. cbn. f_equal. apply (IH o). Qed.

(** C72: one trajectory: the transitions between adjacent observations, in order *)
Theorem adjacent_pairs flag t :
  let out := trajectories_to_transitions [t] flag in
  length out = pred (length t) /\
  forall i tr, nth_error out i = Some tr ->
    exists before after, nth_error t i = Some before /\ nth_error t (S i) = Some after /\
      transition_between before after (if flag then o_controls after else o_controls before) tr.
Proof.
  unfold trajectories_to_transitions. cbn [flat_map]. rewrite app_nil_r.
  destruct t as [|o t]; [split; [reflexivity|intros [|i] tr E; discriminate]|].
  cbn [transitions_loop app]. split; [apply (transitions_loop_length flag t o)|]. intros i tr E. apply (transitions_loop_nth flag t o). exact E.
Qed.
Print Assumptions adjacent_pairs.
(** C72: nothing across trajectories: those of many are those of each, one after the other *)
Theorem each_trajectory_alone ts flag :
  trajectories_to_transitions ts flag = concat (map (fun t => trajectories_to_transitions [t] flag) ts) /\
  length (trajectories_to_transitions ts flag) = list_sum (map (fun t => pred (length t)) ts).
Proof.
  assert (A : trajectories_to_transitions ts flag = concat (map (fun t => trajectories_to_transitions [t] flag) ts)).
  { unfold trajectories_to_transitions. rewrite flat_map_concat_map. f_equal. apply map_ext. intros t. cbn. rewrite app_nil_r. auto. }
  split; auto. rewrite A. clear A. induction ts as [|t ts IH]; auto. cbn [map concat list_sum fold_right].
  rewrite app_length, IH. f_equal. apply adjacent_pairs.
Qed.
Print Assumptions each_trajectory_alone.
Theorem transition_between_unique b a c tr tr' : transition_between b a c tr -> transition_between b a c tr' -> tr = tr'.
Proof. intros [] []. destruct tr, tr'. cbn in *. congruence. Qed.

Definition ex_obs (n : Z) (im lab : option image) : observation :=
  mkobs (mkgrid [mkpt (IZR n) 2] [14%Z]) (mkfov (mkpt 0 0) (mkpt 20 20)) [mkcontrol (mkpt (IZR n) 1) 1500000%Z None None] n im lab.
Example adjacent_pairs_nonvacuous :
  map (fun tr => (positions (t_grid_before tr), positions (t_grid_after tr), map (fun c => px (c_position c)) (t_controls tr)))
    (trajectories_to_transitions [[ex_obs 1 None None; ex_obs 2 None None; ex_obs 3 None None]; [ex_obs 4 None None]; [];
                                  [ex_obs 5 None None; ex_obs 6 None None]] false)
  = [([mkpt 1 2], [mkpt 2 2], [1]); ([mkpt 2 2], [mkpt 3 2], [2]); ([mkpt 5 2], [mkpt 6 2], [5])].
Proof. reflexivity. Qed.

(** ** the script *)
Lemma yields_list_of {B M T} (from_proto : M -> T) parse fs (g : @generator B) rs : yields from_proto parse fs g rs ->
  forall fuel, (length rs < fuel)%nat -> list_of from_proto parse fuel fs g = Ok rs.
Proof.
  induction 1 as [g g' E|g x g' l E Y IH]; intros [|fuel] Hf; cbn in Hf; try lia; cbn [list_of]; rewrite E; auto.
  rewrite IH by lia. reflexivity.
Qed.
Lemma models_of_models {B T} (ts : list T) : flat_map (model_of (B := B)) (map ModelRecord ts) = ts.
Proof. induction ts; cbn; congruence. Qed.
Lemma reading_file {B M T} (from_proto : M -> T) (parse : B -> res M) fs p bs ms : record_file p -> fs p = Some bs ->
  Forall2 (fun b m => parse b = Ok m) bs ms -> read_models from_proto parse fs p = Ok (map from_proto ms).
Proof.
  intros H E F. assert (Y : yields from_proto parse fs (read_records p true) (map ModelRecord (map from_proto ms))).
  { apply record_file_names in H.
    assert (Kr : Forall2 (fun b t => exists m, parse b = Ok m /\ t = from_proto m) bs (map from_proto ms)).
    { clear - F. induction F; cbn; constructor; eauto. }
    destruct bs as [|b bs].
    - inversion F; subst. cbn. eapply yields_nil. unfold read_next; cbn. rewrite H, E. reflexivity.
    - inversion F; subst. cbn in *. inversion Kr; subst. eapply yields_cons; [|apply reading_typed; eassumption].
      unfold read_next; cbn. rewrite H, E. cbn. unfold from_proto_string, fmap_res. rewrite H2. reflexivity. }
  unfold read_models. rewrite (yields_list_of _ _ _ _ _ Y).
  - cbn [bind]. rewrite models_of_models. reflexivity.
  - unfold file_fuel. rewrite E, !map_length. clear - F. induction F; cbn; lia.
Qed.
(** reading a file always comes to an end *)
Theorem reading_ends {B M T} (from_proto : M -> T) (parse : B -> res M) fs p :
  (forall b, parse b <> OutOfFuel) -> read_models from_proto parse fs p <> OutOfFuel.
Proof.
  intros NF. unfold read_models.
  assert (G : forall rest fuel, (length rest < fuel)%nat ->
    list_of from_proto parse fuel fs (mkgenerator p true (Reading rest)) <> OutOfFuel).
  { induction rest as [|b rest IH]; intros [|fuel] Hf; cbn in Hf; try lia; cbn; unfold read_next; cbn; [discriminate|].
    unfold from_proto_string, fmap_res. destruct (parse b) as [m0|e0|] eqn:Eb; cbn; [|discriminate|destruct (NF _ Eb)].
    specialize (IH fuel ltac:(lia)). destruct (list_of from_proto parse fuel fs _); cbn; congruence. }
  assert (L : list_of from_proto parse (file_fuel fs p) fs (read_records p true) <> OutOfFuel).
  { unfold file_fuel. destruct (fs p) as [bs|] eqn:E; cbn [list_of];
      destruct (read_next from_proto parse fs (read_records p true)) as [r g'] eqn:ER; unfold read_next in ER; cbn in ER;
      (destruct (is_tfrecords p); [|injection ER as <- <-; discriminate]); rewrite E in ER.
    2:{ injection ER as <- <-. discriminate. }
    destruct bs as [|b bs]; cbn in ER; [injection ER as <- <-; discriminate|]. unfold from_proto_string, fmap_res in ER.
    destruct (parse b) as [m0|e0|] eqn:Eb; cbn in ER; [|injection ER as <- <-; discriminate|destruct (NF _ Eb)].
    injection ER as <- <-. specialize (G bs (length (b :: bs)) ltac:(cbn; lia)).
    destruct (list_of from_proto parse (length (b :: bs)) fs _); cbn; congruence. }
  destruct (list_of from_proto parse (file_fuel fs p) fs (read_records p true)); cbn; congruence.
Qed.
Print Assumptions reading_ends.

Lemma from_proto_wf m o : In o (trajectory_from_proto m) -> wf_grid (o_grid o).
Proof.
  unfold trajectory_from_proto. intros H. apply in_map_iff in H. destruct H as (po & <- & _).
  unfold wf_grid, observation_from_proto, grid_from_proto. cbn. rewrite !map_length. reflexivity.
Qed.

(** an observation has an image but no label image *)
Definition unlabelled (o : observation) : Prop := o_image o <> None /\ o_label_image o = None.

Section Script.
Context {B : Type}.
Variable parse_trajectory : B -> res ptrajectory.
Variable serialize_transition : ptransition -> B.
Variable parse_transition : B -> res ptransition.

Lemma script_transition ts tr : (forall t o, In t ts -> In o t -> wf_grid (o_grid o)) -> In tr (trajectories_to_transitions ts false) ->
  exists t before after, In t ts /\ In before t /\ In after t /\ transition_between before after (o_controls before) tr.
Proof.
  intros W H. destruct (each_trajectory_alone ts false) as [E _]. rewrite E in H. apply in_concat in H. destruct H as (l & Hl & Ht).
  apply in_map_iff in Hl. destruct Hl as (t & <- & Hin). apply In_nth_error in Ht. destruct Ht as (i & Ei).
  destruct (adjacent_pairs false t) as [_ A]. destruct (A i tr Ei) as (b & a & E1 & E2 & TB).
  exists t, b, a. split; auto. split; [eapply nth_error_In; eauto|]. split; [eapply nth_error_In; eauto|]. auto.
Qed.

(** C72: the script: reading the target gives the transitions of the trajectories in the
    source, as stored; the source is unchanged *)
Theorem convert_writes source target fs bs ms : wire_format serialize_transition parse_transition ->
  record_file source -> record_file target -> fs source = Some bs ->
  Forall2 (fun b m => parse_trajectory b = Ok m) bs ms ->
  let ts := map trajectory_from_proto ms in
  (forall t o, In t ts -> In o t -> ~ unlabelled o) ->
  exists fs', convert_main parse_trajectory serialize_transition source target fs = (Ok tt, fs') /\
    yields transition_from_proto parse_transition fs' (read_records target true)
      (map ModelRecord (map stored_transition (trajectories_to_transitions ts false))) /\
    (source <> target -> fs' source = fs source).
Proof.
  intros W Hs Ht E F ts HU. unfold convert_main. rewrite (reading_file _ _ _ _ _ _ Hs E F). fold ts.
  assert (WG : forall t o, In t ts -> In o t -> wf_grid (o_grid o)).
  { intros t o Hin Ho. unfold ts in Hin. apply in_map_iff in Hin. destruct Hin as (m & <- & _). eapply from_proto_wf; eauto. }
  assert (Q : exists ps, Forall2 (fun t m => transition_to_proto t = Ok m) (trajectories_to_transitions ts false) ps /\
                         map transition_from_proto ps = map stored_transition (trajectories_to_transitions ts false)).
  { assert (K : Forall (fun tr => exists m, transition_to_proto tr = Ok m /\ transition_from_proto m = stored_transition tr) (trajectories_to_transitions ts false)).
    { apply Forall_forall. intros tr Htr. destruct (script_transition ts tr WG Htr) as (t & b & a & Hin & Hb & Ha & TB).
      destruct (transition_proto_exact tr) as [[M _]|[_ X]]; auto; [rewrite (tb_grid_before _ _ _ _ TB); eapply WG; eauto|rewrite (tb_grid_after _ _ _ _ TB); eapply WG; eauto|].
      exfalso. destruct M as [[M1 M2]|[M1 M2]].
      - apply (HU t b Hin Hb). split; [rewrite <- (tb_image_before _ _ _ _ TB); auto|rewrite <- (tb_label_before _ _ _ _ TB); auto].
      - apply (HU t a Hin Ha). split; [rewrite <- (tb_image_after _ _ _ _ TB); auto|rewrite <- (tb_label_after _ _ _ _ TB); auto]. }
    induction K as [|tr l (m & E1 & E2) K (ps & F1 & F2)]; [exists []; split; [constructor|reflexivity]|].
    exists (m :: ps). split; [constructor; auto|cbn; congruence]. }
  destruct Q as (ps & F1 & F2).
  destruct (write_read_round_trip transition_to_proto transition_from_proto serialize_transition parse_transition fs target _ _ W Ht F1) as (fs' & Ew & Y).
  exists fs'. split; [exact Ew|]. split; [rewrite <- F2; exact Y|].
  intros NE. unfold write_records in Ew. destruct (is_tfrecords target); [|discriminate].
  destruct (write_loop _ _ _) as [x l]. injection Ew as _ <-. unfold fs_write. destruct (path_eq_dec source target); [tauto|reflexivity].
Qed.

(** C72: an image without a label image in a trajectory of at least two observations cannot
    be converted *)
Theorem convert_unlabelled_refuted source target fs bs ms t o : record_file source -> record_file target -> fs source = Some bs ->
  Forall2 (fun b m => parse_trajectory b = Ok m) bs ms ->
  In t (map trajectory_from_proto ms) -> (2 <= length t)%nat -> In o t -> unlabelled o ->
  exists fs', convert_main parse_trajectory serialize_transition source target fs = (Raise ValueError, fs').
Proof.
  intros Hs Ht E F Hin HL Ho [U1 U2]. unfold convert_main. rewrite (reading_file _ _ _ _ _ _ Hs E F).
  set (ts := map trajectory_from_proto ms) in *.
  assert (WG : forall t o, In t ts -> In o t -> wf_grid (o_grid o)).
  { intros t' o' Hin' Ho'. unfold ts in Hin'. apply in_map_iff in Hin'. destruct Hin' as (m & <- & _). eapply from_proto_wf; eauto. }
  assert (X : exists tr, In tr (trajectories_to_transitions ts false) /\ transition_to_proto tr = Raise ValueError).
  { apply In_nth_error in Ho. destruct Ho as (i & Ei). assert (Hi : (i < length t)%nat) by (apply nth_error_Some; congruence).
    destruct (adjacent_pairs false t) as [AL A].
    set (k := if Nat.eq_dec i 0 then 0%nat else pred i).
    destruct (nth_error (trajectories_to_transitions [t] false) k) as [tr|] eqn:Ek.
    2:{ apply nth_error_None in Ek. rewrite AL in Ek. unfold k in Ek. destruct (Nat.eq_dec i 0); lia. }
    destruct (A k tr Ek) as (b & a & E1 & E2 & TB). exists tr. split.
    - destruct (each_trajectory_alone ts false) as [EE _]. rewrite EE. apply in_concat. exists (trajectories_to_transitions [t] false).
      split; [apply in_map_iff; eauto|eapply nth_error_In; eauto].
    - destruct (transition_proto_exact tr) as [[_ M]|[NM _]]; auto;
        [rewrite (tb_grid_before _ _ _ _ TB); eapply WG; eauto; eapply nth_error_In; eauto
        |rewrite (tb_grid_after _ _ _ _ TB); eapply WG; eauto; eapply nth_error_In; eauto|].
      exfalso. apply NM. unfold k in *. destruct (Nat.eq_dec i 0) as [->|NZ].
      + left. rewrite (tb_image_before _ _ _ _ TB), (tb_label_before _ _ _ _ TB). replace b with o by congruence. auto.
      + right. rewrite (tb_image_after _ _ _ _ TB), (tb_label_after _ _ _ _ TB). rewrite Nat.succ_pred in E2 by auto. replace a with o by congruence. auto. }
  destruct X as (tr & Htr & Er).
  assert (AE : forall tr e, In tr (trajectories_to_transitions ts false) -> transition_to_proto tr = Raise e -> e = ValueError).
  { intros tr' e H' E'. destruct (script_transition ts tr' WG H') as (t' & b & a & Hin' & Hb & Ha & TB).
    destruct (transition_proto_exact tr') as [[_ M]|[_ (m & M & _)]]; try congruence;
        [rewrite (tb_grid_before _ _ _ _ TB); eapply WG; eauto|rewrite (tb_grid_after _ _ _ _ TB); eapply WG; eauto]. }
  assert (NF : forall tr, transition_to_proto tr <> OutOfFuel).
  { intros tr'. unfold transition_to_proto, tensor_if, make_tensor_proto, grid_to_proto.
    repeat (match goal with |- context [match ?x with _ => _ end] => destruct x end; cbn [bind]; try discriminate). }
  apply record_file_names in Ht. unfold write_records. rewrite Ht.
  destruct (write_loop _ _ _) as [x l] eqn:EL. exists (fs_write fs target l). f_equal.
  clear - Htr Er AE NF EL. revert x l EL. induction (trajectories_to_transitions ts false) as [|y ys IH]; intros x l EL; [destruct Htr|].
  cbn in EL. destruct (transition_to_proto y) as [m|e|] eqn:Ey; cbn in EL.
  - destruct (write_loop _ _ (map ModelRecord ys)) as [x' l'] eqn:EL'. injection EL as <- <-.
    destruct Htr as [->|Htr]; [congruence|]. eapply IH; eauto. intros; eapply AE; eauto. right; auto.
  - injection EL as <- <-. f_equal. eapply AE; [left; reflexivity|auto].
  - destruct (NF _ Ey).
Qed.
End Script.
Print Assumptions convert_writes.
Print Assumptions convert_unlabelled_refuted.

Print Assumptions transition_between_unique.
