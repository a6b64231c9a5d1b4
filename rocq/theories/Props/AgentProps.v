(** Properties C38 and C80: the greedy and the uniform agent. *)
From Coq Require Import Reals ZArith List Bool Lia Lra Arith.
From Flocq Require Import Core.
From Verif Require Import Base.Prelude Base.Rounding Base.Random Model.Geometry Model.Agents Spec.Acting Spec.Registry
  Proofs.BaseFacts Proofs.GeometryFacts Proofs.ExampleSampler.
Import ListNotations.
Open Scope R_scope.

(** rotating by the angle of d is turning towards d *)
Lemma rotate_towards v d : d <> pzero -> rotate v (get_angle d) = towards d v.
Proof.
  intros N. assert (H : 0 < pnorm d).
  { destruct (pnorm_nonneg d) as [K|K]; auto. symmetry in K. apply pnorm_zero in K. tauto. }
  pose proof (get_angle_polar d) as E. pose proof (f_equal px E) as Ex. pose proof (f_equal py E) as Ey. cbn in Ex, Ey.
  assert (Cd : cos (get_angle d) = px d / pnorm d) by (apply (Rmult_eq_reg_l (pnorm d)); [rewrite <- Ex; field; lra|lra]).
  assert (Sd : sin (get_angle d) = py d / pnorm d) by (apply (Rmult_eq_reg_l (pnorm d)); [rewrite <- Ey; field; lra|lra]).
  unfold towards, rotate. rewrite Cd, Sd. apply pt_eq; cbn [px py]; field; lra.
Qed.

(** ** C38 *)

(** the agent turns argmax + offset + noise towards the first of the
    neighbours closest to the goal; it draws twice *)
Theorem greedy_action : forall G (s : sampler G) a u v n0 n1 n2 goal g,
  let deltas := [n0; n1; n2] in
  n0 <> pzero -> n1 <> pzero -> n2 <> pzero ->
  exists best n,
    nth_error deltas best = Some n /\
    (forall k m, nth_error deltas k = Some m -> pdist n goal <= pdist m goal) /\
    (forall k m, (k < best)%nat -> nth_error deltas k = Some m -> pdist n goal < pdist m goal) /\
    let '(nx, g1) := s_normal s (ga_position_noise_sigma a) g in
    let '(ny, g2) := s_normal s (ga_position_noise_sigma a) g1 in
    let beam := towards n (padd (padd (ga_argmax a) (ga_fixed_offset a)) (mkpt nx ny)) in
    greedy_step s a [u; v; px n0; py n0; px n1; py n1; px n2; py n2; px goal; py goal] g = (Ok [px beam; py beam], g2).
Proof.
  intros G s a u v n0 n1 n2 goal g deltas N0 N1 N2.
  set (scores := map (fun d => pnorm (psub d goal)) deltas).
  destruct (argmin_Some scores) as (best & Hb); [discriminate|].
  pose proof (argmin_spec _ _ Hb) as (Lb & Mb & Fb).
  assert (L3 : length scores = 3%nat) by reflexivity. rewrite L3 in *.
  destruct (nth_error deltas best) as [n|] eqn:En; [|apply nth_error_None in En; cbn in En; lia].
  assert (Sc : forall k m, nth_error deltas k = Some m -> nth k scores 0 = pdist m goal).
  { intros k m Hk. apply nth_error_nth_default. unfold scores. rewrite nth_error_map, Hk. reflexivity. }
  exists best, n. split; [exact En|]. split; [|split].
  - intros k m Hk. rewrite <- (Sc _ _ En), <- (Sc _ _ Hk). apply Mb. apply nth_error_lt in Hk. exact Hk.
  - intros k m Hlt Hk. rewrite <- (Sc _ _ En), <- (Sc _ _ Hk). apply Fb. exact Hlt.
  - destruct (s_normal s (ga_position_noise_sigma a) g) as [nx g1] eqn:E1.
    destruct (s_normal s (ga_position_noise_sigma a) g1) as [ny g2] eqn:E2.
    cbv zeta. unfold greedy_step. rewrite !pt_eta. fold deltas. fold scores. rewrite Hb. unfold get_angles.
    rewrite nth_error_map, En. cbn [option_map]. rewrite E1, E2. rewrite rotate_towards; [reflexivity|].
    apply nth_error_In in En. destruct En as [<-|[<-|[<-|[]]]]; auto.
Qed.
Print Assumptions greedy_action.

(** it fails exactly on vectors of another length, before drawing *)
Theorem greedy_errors : forall G (s : sampler G) a obs g e g',
  greedy_step s a obs g = (Raise e, g') <-> e = AssertionError /\ g' = g /\ length obs <> 10%nat.
Proof.
  intros G s a obs g e g'.
  destruct (Nat.eq_dec (length obs) 10) as [L|L].
  - destruct obs as [|x0 [|x1 [|x2 [|x3 [|x4 [|x5 [|x6 [|x7 [|x8 [|x9 [|x10 r]]]]]]]]]]]; try discriminate.
    split; [|intros (_ & _ & K); tauto]. unfold greedy_step.
    set (ds := [mkpt x2 x3; mkpt x4 x5; mkpt x6 x7]). set (gd := mkpt x8 x9).
    destruct (argmin_Some (map (fun d => pnorm (psub d gd)) ds)) as (best & Hb); [discriminate|]. rewrite Hb.
    apply argmin_spec in Hb as (Lb & _). cbn in Lb. unfold get_angles. rewrite nth_error_map.
    destruct (nth_error ds best) eqn:En; [|apply nth_error_None in En; cbn in En; lia]. cbn [option_map].
    destruct (s_normal s (ga_position_noise_sigma a) g) as [nx g1].
    destruct (s_normal s (ga_position_noise_sigma a) g1) as [ny g2]. discriminate.
  - assert (E : greedy_step s a obs g = (Raise AssertionError, g)).
    { destruct obs as [|x0 [|x1 [|x2 [|x3 [|x4 [|x5 [|x6 [|x7 [|x8 [|x9 [|x10 r]]]]]]]]]]]; try reflexivity. cbn in L. lia. }
    rewrite E. split.
    + intros K. injection K as <- <-. auto.
    + intros (-> & -> & _). reflexivity.
Qed.
Print Assumptions greedy_errors.

(** turning keeps lengths: how far from the silicon the beam goes does not
    depend on the neighbour *)
Theorem greedy_distance : forall d v, d <> pzero -> pnorm (towards d v) = pnorm v.
Proof. intros d v N. rewrite <- rotate_towards by exact N. apply rotate_norm. Qed.
Print Assumptions greedy_distance.

(** by default: no noise, and exactly 1.42 A in the direction of the chosen
    neighbour *)
Theorem default_greedy_action : forall G (s : sampler G) u v n0 n1 n2 goal g, sampler_ok s ->
  let deltas := [n0; n1; n2] in
  n0 <> pzero -> n1 <> pzero -> n2 <> pzero ->
  exists n beam g', In n deltas /\ (forall m, In m deltas -> pdist n goal <= pdist m goal) /\
    greedy_step s default_greedy [u; v; px n0; py n0; px n1; py n1; px n2; py n2; px goal; py goal] g
      = (Ok [px beam; py beam], g') /\
    beam = pscale (142 / 100 / pnorm n) n /\ pnorm beam = 142 / 100.
Proof.
  intros G s u v n0 n1 n2 goal g Hs deltas N0 N1 N2.
  destruct (greedy_action G s default_greedy u v n0 n1 n2 goal g N0 N1 N2) as (best & n & En & M & _ & E).
  pose proof (normal_zero s Hs g) as Z1. cbn [default_greedy ga_position_noise_sigma] in E.
  destruct (s_normal s 0 g) as [nx g1]. pose proof (normal_zero s Hs g1) as Z2. destruct (s_normal s 0 g1) as [ny g2].
  cbn [fst] in Z1, Z2. subst nx ny. cbv zeta in E.
  assert (Hn : n <> pzero) by (apply nth_error_In in En; destruct En as [<-|[<-|[<-|[]]]]; auto).
  assert (Hp : 0 < pnorm n).
  { destruct (pnorm_nonneg n) as [K|K]; auto. symmetry in K. apply pnorm_zero in K. tauto. }
  exists n. eexists. exists g2. split; [eapply nth_error_In; eauto|]. split; [|split; [exact E|]].
  - intros m Hm. destruct (In_nth_error _ _ Hm) as (k & Hk). eapply M; eauto.
  - split.
    + unfold towards. cbn. apply pt_eq; cbn; field; lra.
    + rewrite greedy_distance by exact Hn. unfold pnorm, psq. cbn.
      replace ((142 / 100 + 0 + 0) * (142 / 100 + 0 + 0) + (0 + 0 + 0) * (0 + 0 + 0)) with (142 / 100 * (142 / 100)) by field.
      apply sqrt_square. lra.
Qed.
Print Assumptions default_greedy_action.

Example greedy_nonvacuous : exists beam g',
  greedy_step (ex_sampler 0) default_greedy [9; 9; 0; 2; 3; 0; -1; -1; 2; 0] 0%nat = (Ok [px beam; py beam], g') /\
  beam = mkpt (142 / 100) 0.
Proof.
  destruct (default_greedy_action nat (ex_sampler 0) 9 9 (mkpt 0 2) (mkpt 3 0) (mkpt (-1) (-1)) (mkpt 2 0) 0%nat
    (ex_sampler_ok 0 ltac:(lra))) as (n & beam & g' & Hn & M & E & B & _).
  1-3: intros K; injection K; intros; lra.
  exists beam, g'. split; [exact E|].
  assert (D1 : pdist n (mkpt 2 0) <= 1).
  { replace 1 with (pdist (mkpt 3 0) (mkpt 2 0)).
    - apply M. right; left; reflexivity.
    - unfold pdist, pnorm, psq, psub; cbn. replace ((3-2)*(3-2)+(0-0)*(0-0)) with 1 by ring. apply sqrt_1. }
  apply (proj1 (pdist_le_sq _ _ 1 ltac:(lra))) in D1. unfold psq, psub in D1.
  destruct Hn as [<-|[<-|[<-|[]]]]; cbn in D1; try (exfalso; lra).
  rewrite B. assert (Hp : pnorm (mkpt 3 0) = 3).
  { unfold pnorm, psq; cbn. replace (3*3+0*0) with (3*3) by ring. apply sqrt_square; lra. }
  rewrite Hp. apply pt_eq; cbn; field.
Qed.

(** ** C80: the search for the best beam position, and the uniform agent *)
Lemma linspace_range low high n x : low <= high -> In x (linspace low high n) -> low <= x <= high.
Proof.
  intros H Hx. unfold linspace in Hx. apply in_map_iff in Hx as (i & <- & Hi). apply in_seq in Hi.
  destruct (Nat.eq_dec n 1) as [->|N].
  - assert (i = 0)%nat by lia. subst i. cbn [INR]. lra.
  - assert (0 < INR (n - 1)) by (apply lt_0_INR; lia).
    assert (0 <= INR i <= INR (n - 1)) by (split; [apply pos_INR|apply le_INR; lia]).
    assert (Q : INR i * ((high - low) / INR (n - 1)) = (INR i / INR (n - 1)) * (high - low)) by (field; lra).
    rewrite Q. assert (0 <= INR i / INR (n - 1) <= 1).
    { split; [apply Rmult_le_pos; [lra|apply Rlt_le, Rinv_0_lt_compat; lra]|].
      apply (Rmult_le_reg_r (INR (n - 1))); [lra|]. unfold Rdiv. rewrite Rmult_assoc, Rinv_l by lra. lra. }
    nra.
Qed.

Lemma linspace_nth low high n i : (i < n)%nat ->
  nth_error (linspace low high n) i = Some (low + INR i * ((high - low) / INR (n - 1))).
Proof.
  intros H. unfold linspace. rewrite nth_error_map.
  replace (nth_error (seq 0 n) i) with (Some i); [reflexivity|]. symmetry.
  rewrite (nth_error_nth' _ 0%nat) by (rewrite seq_length; auto). rewrite seq_nth by auto. reflexivity.
Qed.

(** the point of the search grid in column i and row j *)
Definition grid_point (low high : R) (n i j : nat) : pt :=
  mkpt (low + INR i * ((high - low) / INR (n - 1))) (low + INR j * ((high - low) / INR (n - 1))).

Lemma search_points_In low high resolution p :
  let n := Z.to_nat (Zfloor ((high - low) / resolution)) in
  In p (search_points low high resolution) <-> exists i j, (i < n)%nat /\ (j < n)%nat /\ p = grid_point low high n i j.
Proof.
  intros n. unfold search_points. fold n. rewrite in_flat_map. split.
  - intros (y & Hy & Hp). apply in_map_iff in Hp as (x & <- & Hx).
    apply in_map_iff in Hx as (i & <- & Hi). apply in_map_iff in Hy as (j & <- & Hj).
    apply in_seq in Hi, Hj. exists i, j. repeat split; lia.
  - intros (i & j & Hi & Hj & ->). exists (low + INR j * ((high - low) / INR (n - 1))). split.
    + apply in_map_iff. exists j. split; auto. apply in_seq. lia.
    + apply in_map_iff. exists (low + INR i * ((high - low) / INR (n - 1))). split; [reflexivity|].
      apply in_map_iff. exists i. split; auto. apply in_seq. lia.
Qed.

(** the search returns a point of the grid, inside the bounds, with no better
    grid point *)
Theorem find_argmax_best : forall low high resolution t p, low <= high ->
  let n := Z.to_nat (Zfloor ((high - low) / resolution)) in
  find_argmax low high resolution t = Ok p ->
  (exists i j, (i < n)%nat /\ (j < n)%nat /\ p = grid_point low high n i j) /\
  (forall i j, (i < n)%nat -> (j < n)%nat -> t (grid_point low high n i j) <= t p) /\
  low <= px p <= high /\ low <= py p <= high.
Proof.
  intros low high resolution t p H n E. unfold find_argmax in E.
  destruct (Reqb resolution 0); [discriminate|].
  destruct (argmax (map t (search_points low high resolution))) as [k|] eqn:Ek; [|discriminate].
  destruct (nth_error (search_points low high resolution) k) as [q|] eqn:Eq; [|discriminate]. injection E as ->.
  assert (Hin : In p (search_points low high resolution)) by (eapply nth_error_In; eauto).
  pose proof (proj1 (search_points_In low high resolution p) Hin) as (i & j & Hi & Hj & Ep). fold n in Hi, Hj, Ep.
  split; [eauto|]. split.
  - intros i' j' Hi' Hj'.
    assert (Hin' : In (grid_point low high n i' j') (search_points low high resolution)).
    { apply search_points_In. eauto. }
    destruct (In_nth_error _ _ Hin') as (k' & Hk').
    unfold argmax in Ek. apply argmin_spec in Ek as (Lk & Mk & _). rewrite !map_length in *.
    specialize (Mk k'). pose proof (nth_error_lt _ _ _ Hk') as Lk'. specialize (Mk Lk').
    rewrite (nth_error_nth_default _ k 0 (- t p)) in Mk by (rewrite !nth_error_map, Eq; reflexivity).
    rewrite (nth_error_nth_default _ k' 0 (- t (grid_point low high n i' j'))) in Mk
      by (rewrite !nth_error_map, Hk'; reflexivity). lra.
  - subst p. split; eapply linspace_range; eauto; apply in_map_iff; [exists i|exists j]; (split; [reflexivity|apply in_seq; lia]).
Qed.
Print Assumptions find_argmax_best.

(** ... and it fails exactly if the resolution is 0 or not even one point
    fits *)
Theorem find_argmax_errors : forall low high resolution t e,
  find_argmax low high resolution t = Raise e <->
  (e = ZeroDivisionError /\ resolution = 0) \/
  (e = ValueError /\ resolution <> 0 /\ (high - low) / resolution < 1).
Proof.
  intros low high resolution t e. unfold find_argmax.
  destruct (Reqb resolution 0) eqn:E0.
  - apply Reqb_true in E0. split; [intros K; injection K as <-; auto|]. intros [(-> & _)|(_ & K & _)]; [reflexivity|tauto].
  - apply Reqb_false in E0.
    assert (Q : search_points low high resolution = [] <-> (high - low) / resolution < 1).
    { set (n := Z.to_nat (Zfloor ((high - low) / resolution))).
      split.
      - intros K. destruct (Rlt_le_dec ((high - low) / resolution) 1) as [C|C]; auto. exfalso.
        assert (Hn : (0 < n)%nat).
        { assert (1 <= Zfloor ((high - low) / resolution))%Z by (apply Zfloor_lub; exact C). unfold n. lia. }
        assert (In (grid_point low high n 0 0) (search_points low high resolution)) by (apply search_points_In; eauto).
        rewrite K in H. inversion H.
      - intros C. destruct (search_points low high resolution) as [|p l] eqn:K; auto. exfalso.
        assert (Hp : In p (search_points low high resolution)) by (rewrite K; left; auto).
        apply search_points_In in Hp as (i & j & Hi & _).
        assert (Zfloor ((high - low) / resolution) < 1)%Z.
        { apply lt_IZR. eapply Rle_lt_trans; [apply Zfloor_lb|exact C]. }
        lia. }
    destruct (argmax (map t (search_points low high resolution))) as [k|] eqn:Ek.
    + assert (Lk : (k < length (search_points low high resolution))%nat).
      { unfold argmax in Ek. apply argmin_spec in Ek as (Lk & _). rewrite !map_length in Lk. exact Lk. }
      destruct (nth_error (search_points low high resolution) k) eqn:Eq; [|apply nth_error_None in Eq; lia].
      split; [discriminate|]. intros [(_ & K)|(_ & _ & K)]; [tauto|]. apply Q in K. rewrite K in Lk. simpl in Lk. lia.
    + unfold argmax in Ek. apply argmin_None in Ek. apply map_eq_nil in Ek. apply map_eq_nil in Ek.
      split; [intros K; injection K as <-; right; split; auto; split; auto; apply Q; auto|].
      intros [(_ & K)|(-> & _)]; [tauto|reflexivity].
Qed.
Print Assumptions find_argmax_errors.

(** which of the two sources of the argmax is used *)
Theorem new_greedy_spec : forall t manual low high resolution sigma offset a,
  new_greedy t manual low high resolution sigma offset = Ok a <->
  ga_fixed_offset a = offset /\ ga_position_noise_sigma a = sigma /\
  match t with
  | Some t => find_argmax low high resolution t = Ok (ga_argmax a)
  | None => manual = Some (ga_argmax a)
  end.
Proof.
  intros t manual low high resolution sigma offset [am fo sg]. unfold new_greedy. cbn [ga_argmax ga_fixed_offset ga_position_noise_sigma].
  destruct t as [t|].
  - rewrite bind_Ok. split.
    + intros (p & E & K). injection K as <- <- <-. auto.
    + intros (<- & <- & E). eauto.
  - destruct manual as [p|].
    + split; [intros K; injection K as <- <- <-; auto|]. intros (<- & <- & K). injection K as <-. reflexivity.
    + split; [discriminate|]. intros (_ & _ & K). discriminate.
Qed.
Print Assumptions new_greedy_spec.
Theorem new_greedy_nothing : forall low high resolution sigma offset e,
  new_greedy None None low high resolution sigma offset = Raise e <-> e = ValueError.
Proof. intros. cbn. split; [intros K; injection K as <-; auto|intros ->; reflexivity]. Qed.
Print Assumptions new_greedy_nothing.

Example find_argmax_nonvacuous : exists p, find_argmax (-1) 1 (1/2) (fun p => px p) = Ok p /\ px p = 1.
Proof.
  destruct (find_argmax (-1) 1 (1/2) (fun p => px p)) as [p|e|] eqn:E.
  - exists p. split; auto.
    assert (N : Z.to_nat (Zfloor ((1 - -1) / (1/2))) = 4%nat).
    { replace ((1 - -1) / (1/2)) with (IZR 4) by field. rewrite Zfloor_IZR. reflexivity. }
    destruct (find_argmax_best (-1) 1 (1/2) (fun p => px p) p ltac:(lra) E) as (_ & M & B & _). rewrite N in M.
    specialize (M 3%nat 0%nat ltac:(lia) ltac:(lia)). unfold grid_point in M. cbn [px Nat.sub INR] in M. lra.
  - apply find_argmax_errors in E as [(_ & K)|(_ & _ & K)]; lra.
  - unfold find_argmax in E. destruct (Reqb (1/2) 0); [discriminate|].
    destruct (argmax _) as [k|]; [|discriminate]. destruct (nth_error _ k); discriminate.
Qed.

(** the uniform agent returns actions of the requested size within its bounds *)
Theorem uniform_agent_bounds : forall G (s : sampler G) low high size g, sampler_ok s -> low <= high ->
  length (fst (uniform_actions s low high size g)) = size /\
  forall x, In x (fst (uniform_actions s low high size g)) -> low <= x <= high.
Proof.
  intros G s low high size g Hs H. revert g. induction size as [|n IH]; intros g; cbn [uniform_actions].
  - split; [reflexivity|intros x []].
  - pose proof (uniform_range s Hs low high g H) as Rg. destruct (s_uniform s low high g) as [x g1]. specialize (IH g1).
    destruct (uniform_actions s low high n g1) as [xs g2]. cbn [fst] in *. destruct IH as [L I]. split; [simpl; auto|].
    intros y [<-|Hy]; auto.
Qed.
Print Assumptions uniform_agent_bounds.

(** and draws every entry from the whole range, one after the other *)
Theorem uniform_agent_drawn : forall G (s : sampler G) low high size g,
  drawn_from s (repeat (low, high) size) g (fst (uniform_actions s low high size g)) (snd (uniform_actions s low high size g)).
Proof.
  intros G s low high size. induction size as [|n IH]; intros g; cbn [uniform_actions repeat].
  - constructor.
  - destruct (s_uniform s low high g) as [x g1] eqn:E. specialize (IH g1).
    destruct (uniform_actions s low high n g1) as [xs g2]. econstructor; eauto.
Qed.
Print Assumptions uniform_agent_drawn.
Example uniform_agent_nonvacuous :
  fst (uniform_actions (ex_sampler 0) (-1) 3 3 0%nat) = [1; 1; 1] /\
  drawn_from (ex_sampler 0) [(-1, 3); (-1, 3); (-1, 3)] 0%nat [1; 1; 1] 3%nat.
Proof.
  assert (E : fst (uniform_actions (ex_sampler 0) (-1) 3 3 0%nat) = [1; 1; 1])
    by (cbn; repeat (apply (f_equal2 cons); [lra|]); reflexivity).
  split; [exact E|]. rewrite <- E. exact (uniform_agent_drawn nat (ex_sampler 0) (-1) 3 3 0%nat).
Qed.
