(** C73: alignment of trajectories *)
From Coq Require Import Reals ZArith Bool Lia Lra Arith.
From Coq Require Import String List.
From Verif Require Import Base.Prelude Base.Rounding Model.MicroscopeUtils Model.Io Model.Pipeline
  Spec.Grids Spec.Protos Spec.Records Spec.Pipelines Proofs.BaseFacts Proofs.ProtoFacts Props.IoProps Props.PipelineProps.
Import ListNotations.
Open Scope R_scope.

Lemma fov_shift_moved f v : moved_by f (fov_shift f v) v.
Proof. split; reflexivity. Qed.
Lemma moved_fov_shift f g v : moved_by f g v -> g = fov_shift f v.
Proof. destruct g. intros [E1 E2]. cbn in *. subst. reflexivity. Qed.
Lemma moved_compose f g h v w : moved_by f g v -> moved_by g h w -> moved_by f h (padd v w).
Proof.
  intros [A B] [C D]. split; [rewrite C, A|rewrite D, B]; apply pt_eq; cbn; ring.
Qed.
Lemma same_elsewhere_refl o : same_elsewhere o o.
Proof. constructor; auto. exists pzero. split; apply pt_eq; cbn; ring. Qed.
Lemma same_elsewhere_trans o o' o'' : same_elsewhere o o' -> same_elsewhere o' o'' -> same_elsewhere o o''.
Proof.
  intros [(v & V) A B C D] [(w & W) A' B' C' D']. constructor; try congruence. exists (padd v w). eapply moved_compose; eauto.
Qed.

Section Aligner.
Context {A : Type}.
Variable reset : nat -> A -> A.
Variable call : option image -> fov -> A -> res (grid * pt) * A.

(** what one pass over a trajectory does: the aligner is asked about each image at its field
    of view, moved back by the drift found so far; the drift it finds is added *)
Inductive pass (relabel : bool) (step : R) : trajectory -> pt -> A -> trajectory -> A -> Prop :=
| pass_nil drift a : pass relabel step [] drift a [] a
| pass_cons o t drift a g v a' o' t' a'' seen drift' :
    moved_by (o_fov o) seen (pneg drift) -> call (o_image o) seen a = (Ok (g, v), a') ->
    drift' = padd drift (pscale step v) ->
    moved_by (o_fov o) (o_fov o') (pneg drift') ->
    same_elsewhere o o' -> o_grid o' = (if relabel then g else o_grid o) ->
    pass relabel step t drift' a' t' a'' ->
    pass relabel step (o :: t) drift a (o' :: t') a''.

(** C73: exactly that *)
Theorem align_pass relabel step t : forall drift a t' a',
  align_loop call relabel step t drift a = (Ok t', a') <-> pass relabel step t drift a t' a'.
Proof.
  induction t as [|o t IH]; intros drift a t' a'.
  { cbn. split; [intros E; injection E as <- <-; constructor|]. intros P. inversion P; subst. reflexivity. }
  cbn. destruct (call _ _ _) as [[[g v]|e|] a1] eqn:Ec.
  - set (drift' := padd drift (pscale step v)).
    destruct (align_loop call relabel step t drift' a1) as [r a2] eqn:El. split.
    + intros E. destruct r as [t2|e|]; cbn in E; try discriminate. injection E as <- <-.
      econstructor; [apply fov_shift_moved|exact Ec|reflexivity|apply fov_shift_moved| |reflexivity|apply IH; exact El].
      constructor; auto. eexists. apply fov_shift_moved.
    + intros P. inversion P; subst.
      match goal with H : moved_by _ seen _ |- _ => apply moved_fov_shift in H; subst seen end.
      match goal with H : call _ _ _ = (Ok (g0, v0), _) |- _ => rewrite Ec in H; injection H as <- <- <- end.
      match goal with H : pass _ _ t _ _ _ _ |- _ => apply IH in H; fold drift' in H; rewrite El in H; injection H as -> -> end.
      cbn. do 3 f_equal. destruct o' as [g' f' c' e' i' l'].
      match goal with H : same_elsewhere _ _ |- _ => destruct H as [_ S1 S2 S3 S4] end. cbn in *.
      match goal with H : moved_by _ f' _ |- _ => apply moved_fov_shift in H; subst f' end. subst. reflexivity.
  - split; [discriminate|]. intros P. inversion P; subst.
    match goal with H : moved_by _ seen _ |- _ => apply moved_fov_shift in H; subst seen end. congruence.
  - split; [discriminate|]. intros P. inversion P; subst.
    match goal with H : moved_by _ seen _ |- _ => apply moved_fov_shift in H; subst seen end. congruence.
Qed.

Lemma pass_keeps relabel step t drift a t' a' : pass relabel step t drift a t' a' -> Forall2 same_elsewhere t t'.
Proof. induction 1; constructor; auto. Qed.
Lemma pass_grids step t drift a t' a' : pass false step t drift a t' a' -> map o_grid t' = map o_grid t.
Proof. induction 1; cbn; congruence. Qed.
Lemma Forall2_refl_of {X} (Q : X -> X -> Prop) l : (forall x, Q x x) -> Forall2 Q l l.
Proof. intros H. induction l; constructor; auto. Qed.
Lemma Forall2_trans_of {X} (Q : X -> X -> Prop) l l' l'' : (forall x y z, Q x y -> Q y z -> Q x z) ->
  Forall2 Q l l' -> Forall2 Q l' l'' -> Forall2 Q l l''.
Proof. intros H F. revert l''. induction F; intros l'' F'; inversion F'; subst; constructor; eauto. Qed.

(** C73: alignment keeps the number and order of the observations, their controls, times and
    images, moves each field of view without changing its size, and keeps the grids unless
    relabelling *)
Theorem alignment_keeps t args a t' a' : do_alignment reset call t args a = (Ok t', a') ->
  Forall2 same_elsewhere t t' /\ (aa_relabel args = false -> map o_grid t' = map o_grid t).
Proof.
  unfold do_alignment. generalize (seq 1 (aa_iterations args)). intros is. revert t a.
  induction is as [|i is IH]; intros t a E.
  { cbn in E. injection E as <- <-. split; auto. apply Forall2_refl_of. apply same_elsewhere_refl. }
  cbn in E. destruct (align_loop _ _ _ _ _ _) as [[t1|e|] a1] eqn:El; try discriminate.
  apply align_pass in El. destruct (IH _ _ E) as [F G]. split.
  - eapply Forall2_trans_of; [apply same_elsewhere_trans|eapply pass_keeps; eauto|auto].
  - intros NR. rewrite G by auto. rewrite NR in El. eapply pass_grids; eauto.
Qed.
Theorem moved_keeps_size f g v : moved_by f g v ->
  psub (upper_right g) (lower_left g) = psub (upper_right f) (lower_left f).
Proof. intros [-> ->]. apply pt_eq; cbn; ring. Qed.

(** C73: without iterations nothing happens; with one the step size does not matter; the last
    iteration always has step size 1 *)
Theorem no_iterations t args a : aa_iterations args = 0%nat -> do_alignment reset call t args a = (Ok t, a).
Proof. unfold do_alignment. intros ->. reflexivity. Qed.
Theorem last_step_full args : (aa_iterations args <> 0)%nat -> step_size_at args (aa_iterations args) = 1.
Proof. intros H. unfold step_size_at. field. apply not_0_INR. auto. Qed.
Theorem one_iteration t args a t' a' : aa_iterations args = 1%nat ->
  (do_alignment reset call t args a = (Ok t', a') <->
   pass (aa_relabel args) 1 t pzero (reset (aa_history_length args) a) t' a').
Proof.
  intros H. unfold do_alignment. rewrite H. cbn [seq align_iterations].
  assert (Q : step_size_at args 1 = 1) by (rewrite <- H; apply last_step_full; lia). rewrite Q.
  destruct (align_loop _ _ _ _ _ _) as [[t1|e|] a1] eqn:El.
  - rewrite <- align_pass, El. cbn. tauto.
  - rewrite <- align_pass, El. split; discriminate.
  - rewrite <- align_pass, El. split; discriminate.
Qed.

Lemma align_iterations_app args is is' t a :
  align_iterations reset call args (is ++ is') t a =
  match align_iterations reset call args is t a with
  | (Ok t, a) => align_iterations reset call args is' t a
  | (Raise e, a) => (Raise e, a)
  | (OutOfFuel, a) => (OutOfFuel, a)
  end.
Proof.
  revert t a. induction is as [|i is IH]; intros t a; [reflexivity|]. cbn.
  destruct (align_loop _ _ _ _ _ _) as [[t1|e|] a1]; auto.
Qed.

(** C73: many iterations: the last one is a pass with step size 1 over what the others made *)
Theorem last_iteration t args a t' a' : (aa_iterations args <> 0)%nat -> do_alignment reset call t args a = (Ok t', a') ->
  exists t1 a1, Forall2 same_elsewhere t t1 /\ (aa_relabel args = false -> map o_grid t1 = map o_grid t) /\
    pass (aa_relabel args) 1 t1 pzero (reset (aa_history_length args) a1) t' a'.
Proof.
  intros H E. unfold do_alignment in E. destruct (aa_iterations args) as [|n] eqn:En; [lia|].
  rewrite seq_S, align_iterations_app in E.
  destruct (align_iterations reset call args (seq 1 n) t a) as [[t1|e|] a1] eqn:Ei; try discriminate.
  exists t1, a1.
  assert (K : Forall2 same_elsewhere t t1 /\ (aa_relabel args = false -> map o_grid t1 = map o_grid t)).
  { clear - Ei. revert t a Ei. generalize (seq 1 n). intros is. induction is as [|i is IH]; intros t a E.
    { cbn in E. injection E as <- <-. split; auto. apply Forall2_refl_of. apply same_elsewhere_refl. }
    cbn in E. destruct (align_loop _ _ _ _ _ _) as [[t2|e|] a2] eqn:El; try discriminate.
    apply align_pass in El. destruct (IH _ _ E) as [F G]. split.
    - eapply Forall2_trans_of; [apply same_elsewhere_trans|eapply pass_keeps; eauto|auto].
    - intros NR. rewrite G by auto. rewrite NR in El. eapply pass_grids; eauto. }
  split; [apply K|]. split; [apply K|].
  cbn [align_iterations Nat.add] in E.
  assert (Q : step_size_at args (S n) = 1) by (rewrite <- En; apply last_step_full; lia). rewrite Q in E.
  destruct (align_loop _ _ _ _ _ _) as [[t2|e|] a2] eqn:El; try discriminate. cbn in E. injection E as <- <-.
  apply align_pass. auto.
Qed.

(** an aligner that sees where each image really is: it answers with how far the field of
    view it is told is off *)
Definition sees_truth (truth : option image -> fov) : Prop :=
  forall im f a, (exists v, moved_by (truth im) f v) ->
    exists g v a', call im f a = (Ok (g, v), a') /\ moved_by (truth im) f v.

(** C73: with such an aligner, after any number of iterations but zero, every observation is
    where it really is *)
Theorem alignment_finds_truth truth t args a : sees_truth truth -> (aa_iterations args <> 0)%nat ->
  Forall (fun o => exists v, moved_by (truth (o_image o)) (o_fov o) v) t ->
  exists t' a', do_alignment reset call t args a = (Ok t', a') /\ Forall (fun o => o_fov o = truth (o_image o)) t'.
Proof.
  intros ST HN F.
  assert (Runs : forall rl step t drift a, Forall (fun o => exists v, moved_by (truth (o_image o)) (o_fov o) v) t ->
    exists t' a', pass rl step t drift a t' a' /\ Forall (fun o => exists v, moved_by (truth (o_image o)) (o_fov o) v) t' /\
      (step = 1 -> Forall (fun o => o_fov o = truth (o_image o)) t')).
  { clear - ST. intros rl step t. induction t as [|o t IH]; intros drift a F.
    { exists [], a. repeat split; constructor. }
    inversion F as [|? ? (e & Me) F']; subst.
    destruct (ST (o_image o) (fov_shift (o_fov o) (pneg drift)) a) as (g & v & a1 & Ec & Mv).
    { exists (padd e (pneg drift)). eapply moved_compose; [exact Me|apply fov_shift_moved]. }
    set (drift' := padd drift (pscale step v)).
    destruct (IH drift' a1 F') as (t' & a' & P & FM & FT).
    set (o' := mkobs (if rl then g else o_grid o) (fov_shift (o_fov o) (pneg drift')) (o_controls o) (o_elapsed o) (o_image o) (o_label_image o)).
    exists (o' :: t'), a'. split; [|split].
    - econstructor; [apply fov_shift_moved|exact Ec|reflexivity|apply (fov_shift_moved (o_fov o))| |reflexivity|exact P].
      constructor; auto. eexists. apply fov_shift_moved.
    - constructor; auto. cbn. exists (padd e (pneg drift')). eapply moved_compose; [exact Me|apply fov_shift_moved].
    - intros ->. constructor; auto. cbn. destruct Mv as [V1 V2], Me as [E1 E2]. cbn in V1, V2.
      destruct (truth (o_image o)) as [ll ur]. cbn in *. unfold fov_shift. f_equal.
      + injection V1 as X Y. rewrite E1 in *. apply pt_eq; cbn in *; lra.
      + injection V2 as X Y. rewrite E2 in *. apply pt_eq; cbn in *; lra. }
  destruct (aa_iterations args) as [|n] eqn:En; [lia|].
  assert (Front : forall is t a, Forall (fun o => exists v, moved_by (truth (o_image o)) (o_fov o) v) t ->
    exists t' a', align_iterations reset call args is t a = (Ok t', a') /\ Forall (fun o => exists v, moved_by (truth (o_image o)) (o_fov o) v) t').
  { clear - Runs. induction is as [|i is IH]; intros t a F; [exists t, a; auto|].
    destruct (Runs (aa_relabel args) (step_size_at args i) t pzero (reset (aa_history_length args) a) F) as (t1 & a1 & P & F1 & _).
    apply align_pass in P. cbn. rewrite P. apply IH. auto. }
  destruct (Front (seq 1 n) t a F) as (t1 & a1 & E1 & F1).
  destruct (Runs (aa_relabel args) 1 t1 pzero (reset (aa_history_length args) a1) F1) as (t2 & a2 & P & _ & FT).
  exists t2, a2. split; auto. unfold do_alignment. rewrite En, seq_S, align_iterations_app, E1. cbn [align_iterations Nat.add].
  assert (Q : step_size_at args (S n) = 1) by (rewrite <- En; apply last_step_full; lia). rewrite Q.
  apply align_pass in P. rewrite P. reflexivity.
Qed.

(** C73: what the aligner remembers does not matter, if its reset forgets: the trajectories of
    the script are aligned independently *)
Theorem alignment_starts_afresh t args a b : (forall x y, reset (aa_history_length args) x = reset (aa_history_length args) y) -> (aa_iterations args <> 0)%nat ->
  do_alignment reset call t args a = do_alignment reset call t args b.
Proof.
  intros R H. unfold do_alignment. destruct (aa_iterations args); [lia|]. cbn. rewrite (R a b). reflexivity.
Qed.
Theorem aligned_independently args ts a ts' a' : (forall x y, reset (aa_history_length args) x = reset (aa_history_length args) y) -> (aa_iterations args <> 0)%nat ->
  align_all reset call args ts a = (Ok ts', a') ->
  Forall2 (fun t t' => forall b, exists b', do_alignment reset call t args b = (Ok t', b')) ts ts'.
Proof.
  intros R H. revert a ts'. induction ts as [|t ts IH]; intros a ts' E; cbn in E.
  { injection E as <- <-. constructor. }
  destruct (do_alignment reset call t args a) as [[t1|e|] a1] eqn:Ed; try discriminate.
  destruct (align_all reset call args ts a1) as [[r|e|] a2] eqn:Ea; cbn in E; try discriminate.
  injection E as <- <-. constructor; eauto. intros b. rewrite (alignment_starts_afresh t args b a), Ed; eauto.
Qed.
Lemma align_all_keeps args ts a ts' a' : align_all reset call args ts a = (Ok ts', a') ->
  Forall2 (fun t t' => Forall2 same_elsewhere t t' /\ (aa_relabel args = false -> map o_grid t' = map o_grid t)) ts ts'.
Proof.
  revert a ts'. induction ts as [|t ts IH]; intros a ts' E; cbn in E.
  { injection E as <- <-. constructor. }
  destruct (do_alignment reset call t args a) as [[t1|e|] a1] eqn:Ed; try discriminate.
  destruct (align_all reset call args ts a1) as [[r|e|] a2] eqn:Ea; cbn in E; try discriminate.
  injection E as <- <-. constructor; eauto. eapply alignment_keeps; eauto.
Qed.

(** C73: if the aligner raises on some observation, so does the alignment *)
Theorem alignment_raises relabel step t : forall drift a e a', align_loop call relabel step t drift a = (Raise e, a') ->
  exists o f a1, In o t /\ (exists v, moved_by (o_fov o) f v) /\ call (o_image o) f a1 = (Raise e, a').
Proof.
  induction t as [|o t IH]; intros drift a e a' E; cbn in E; [discriminate|].
  destruct (call _ _ _) as [[[g v]|e1|] a1] eqn:Ec; try discriminate.
  - destruct (align_loop call relabel step t _ a1) as [[t2|e2|] a2] eqn:El; cbn in E; try discriminate. injection E as -> ->.
    destruct (IH _ _ _ _ El) as (o' & f & a3 & Hin & M & C). exists o', f, a3. split; [right; auto|]. auto.
  - injection E as -> ->. exists o, (fov_shift (o_fov o) (pneg drift)), a. split; [left; auto|]. split; auto. eexists. apply fov_shift_moved.
Qed.

(** ** the script *)
Context {B : Type}.
Variable parse : B -> res ptrajectory.
Variable serialize : ptrajectory -> B.

(** C73: the script writes the aligned trajectories of its source, in order *)
Theorem align_script_writes source target fs a args fs' a' bs ms : wire_format serialize parse ->
  record_file source -> record_file target -> fs source = Some bs -> Forall2 (fun b m => parse b = Ok m) bs ms ->
  (forall o f x g v x', call o f x = (Ok (g, v), x') -> wf_grid g) ->
  align_main reset call parse serialize source target None args fs a = (Ok tt, fs', a') ->
  exists ts', align_all reset call args (map trajectory_from_proto ms) a = (Ok ts', a') /\
    yields trajectory_from_proto parse fs' (read_records target true) (map ModelRecord (map (map stored_observation) ts')).
Proof.
  intros W Hs Ht E F WG. unfold align_main. cbn [map_res]. rewrite (reading_file _ _ _ _ _ _ Hs E F). cbn [bind concat].
  rewrite app_nil_r. set (ts := map trajectory_from_proto ms).
  destruct (align_all reset call args ts a) as [[ts'|e|] a1] eqn:Ea; try discriminate. intros M.
  assert (K : forall t o, In t ts' -> In o t -> wf_grid (o_grid o)).
  { assert (K0 : forall t o, In t ts -> In o t -> wf_grid (o_grid o)).
    { intros t o Hin Ho. unfold ts in Hin. apply in_map_iff in Hin. destruct Hin as (m & <- & _). eapply from_proto_wf; eauto. }
    clear - Ea K0 WG.
    assert (PG : forall rl step t drift x t' x', pass rl step t drift x t' x' -> (forall o, In o t -> wf_grid (o_grid o)) -> forall o, In o t' -> wf_grid (o_grid o)).
    { intros rl step t drift x t' x' P. induction P; intros H' o'' Ho; [destruct Ho|].
      destruct Ho as [<-|Ho]; [|apply IHP; auto; intros; apply H'; right; auto].
      rewrite H4. destruct rl; [eapply WG; eauto|apply H'; left; auto]. }
    assert (IG : forall is t x t' x', align_iterations reset call args is t x = (Ok t', x') -> (forall o, In o t -> wf_grid (o_grid o)) -> forall o, In o t' -> wf_grid (o_grid o)).
    { induction is as [|i is IH]; intros t x t' x' Ei H'; cbn in Ei; [injection Ei as <- <-; auto|].
      destruct (align_loop _ _ _ _ _ _) as [[t1|e|] x1] eqn:El; try discriminate. apply align_pass in El.
      eapply IH; [exact Ei|]. eapply PG; eauto. }
    revert a ts' Ea. induction ts as [|t ts IH]; intros a ts' Ea; cbn in Ea.
    { injection Ea as <- <-. intros t o []. }
    destruct (do_alignment reset call t args a) as [[t1|e|] x1] eqn:Ed; try discriminate.
    destruct (align_all reset call args ts x1) as [[r|e|] x2] eqn:Er; cbn in Ea; try discriminate.
    injection Ea as <- <-. intros t2 o [<-|Hin] Ho; [|eapply IH; eauto; intros; eapply K0; eauto; right; auto].
    eapply IG; [exact Ed| |exact Ho]. intros; eapply K0; eauto. left; auto. }
  destruct (trajectories_file_round_trip B serialize parse fs target ts' W Ht K) as (fs2 & Ew & Y).
  match type of M with context [write_records ?x ?y ?z ?w ?v] => replace (write_records x y z w v) with (Ok tt : res unit, fs2) in M by (symmetry; exact Ew) end. injection M as <- <-. exists ts'. split; auto.
Qed.

(** C73: a directory is read for files that cannot be read: with any such file the script raises *)
Theorem align_directory_refuted source target fs a args files : (exists p, In p files) ->
  (forall p, In p files -> ~ record_file p) ->
  align_main reset call parse serialize source target (Some files) args fs a = (Raise ValueError, fs, a).
Proof.
  intros (p & Hp) NR. unfold align_main.
  assert (X : map_res (read_models trajectory_from_proto parse fs) files = Raise ValueError); [|rewrite X; reflexivity].
  destruct files as [|q files]; [destruct Hp|]. cbn [map_res].
  assert (Q : read_models trajectory_from_proto parse fs q = Raise ValueError); [|rewrite Q; reflexivity].
  assert (NQ : is_tfrecords q = false).
  { destruct (is_tfrecords q) eqn:Eq; auto. exfalso. apply (NR q); [left; auto|]. apply record_file_names. auto. }
  unfold read_models, file_fuel. destruct (fs q); cbn [list_of]; unfold read_next; cbn; rewrite NQ; reflexivity.
Qed.
End Aligner.
Print Assumptions align_pass.
Print Assumptions alignment_keeps.
Print Assumptions one_iteration.
Print Assumptions last_iteration.
Print Assumptions alignment_finds_truth.
Print Assumptions aligned_independently.
Print Assumptions alignment_raises.
Print Assumptions align_script_writes.
Print Assumptions align_directory_refuted.

Example recordio_nonvacuous : ~ record_file (path_of "data/run1.recordio"%string) /\ record_file (path_of "data/run1.tfrecords"%string).
Proof. rewrite <- !record_file_names. split; [discriminate|reflexivity]. Qed.

(** an aligner that sees that every image is at the origin; a drifting trajectory *)
Definition ex_call (im : option image) (f : fov) (a : unit) : res (grid * pt) * unit := (Ok (mkgrid [] [], lower_left f), tt).
Example alignment_nonvacuous :
  let at_ x := mkobs (mkgrid [mkpt x 0] [14%Z]) (mkfov (mkpt x 0) (mkpt (x + 20) 20)) [] 0%Z (Some [[0]]) None in
  sees_truth ex_call (fun _ => mkfov pzero (mkpt 20 20)) /\
  exists t', do_alignment (fun _ a => a) ex_call [at_ 1; at_ 2; at_ 5] (mkalign_args 5 2 (1/2) false) tt = (Ok t', tt) /\
    map (fun o => px (lower_left (o_fov o))) t' = [0; 0; 0].
Proof.
  intros at_. assert (ST : sees_truth ex_call (fun _ => mkfov pzero (mkpt 20 20))).
  { intros im f a (v & V1 & V2). unfold ex_call. eexists _, _, _. split; [reflexivity|].
    destruct f as [ll ur]. cbn in *. subst. split; cbn; apply pt_eq; cbn; ring. }
  split; auto.
  destruct (alignment_finds_truth (fun _ a => a) ex_call (fun _ => mkfov pzero (mkpt 20 20)) [at_ 1; at_ 2; at_ 5] (mkalign_args 5 2 (1/2) false) tt ST)
    as (t' & [] & E & F); [cbn; lia| |].
  { repeat constructor; [exists (mkpt 1 0)|exists (mkpt 2 0)|exists (mkpt 5 0)]; split; apply pt_eq; cbn; ring. }
  exists t'. split; auto. destruct (alignment_keeps (fun _ a => a) ex_call _ _ _ _ _ E) as [K _]. clear E.
  inversion K as [|? o1 ? r1 _ K1]; subst. inversion K1 as [|? o2 ? r2 _ K2]; subst. inversion K2 as [|? o3 ? r3 _ K3]; subst. inversion K3; subst.
  inversion F as [|? ? F1 G1]; subst. inversion G1 as [|? ? F2 G2]; subst. inversion G2 as [|? ? F3 _]; subst.
  cbn. rewrite F1, F2, F3. reflexivity.
Qed.

Print Assumptions moved_keeps_size.
Print Assumptions no_iterations.
Print Assumptions last_step_full.
Print Assumptions alignment_starts_afresh.
