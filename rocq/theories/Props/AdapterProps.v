(** Properties C29-C33: action adapters. *)
From Coq Require Import Reals ZArith List Bool Lia Lra Arith.
From Flocq Require Import Core.
From Verif Require Import Base.Prelude Base.Rounding Base.Random Model.Constants Model.MicroscopeUtils
  Model.Graphene Model.ActionAdapters Spec.Grids Spec.Material Spec.Acting
  Proofs.BaseFacts Proofs.RoundingFacts Proofs.FovFacts Proofs.MaterialFacts Proofs.ExampleSampler
  Proofs.ActingFacts.
Import ListNotations.
Open Scope R_scope.
Local Arguments new_relative (min_dwell max_dwell)%Z max_distance%R.

(** ** Exact results of every adapter *)

(** the direct adapter accepts actions of two or three entries and aims at the
    first two, limited to the field of view *)
Theorem direct_adapter_result : forall G st o a cs,
  fst (aa_get_action (@direct_adapter G) st o a) = Ok cs <->
  exists x y q, (a = [x; y] \/ exists z, a = [x; y; z]) /\
    point_limited_to 0 1 (mkpt x y) q /\ cs = [aimed_for q 1500000].
Proof.
  intros G st o a cs. cbn [direct_adapter aa_get_action fst]. unfold direct_get_action. rewrite fixed_dwell_value.
  assert (K : forall x y q, point_limited_to 0 1 (mkpt x y) q <-> q = mkpt (clip x 0 1) (clip y 0 1)).
  { intros x y q. rewrite pclip_limited. reflexivity. }
  split.
  - intros E. destruct a as [|x [|y [|z [|w l]]]]; cbn in E; try discriminate.
    + injection E as <-. exists x, y, (mkpt (clip x 0 1) (clip y 0 1)). rewrite K. auto.
    + injection E as <-. exists x, y, (mkpt (clip x 0 1) (clip y 0 1)). rewrite K. eauto.
  - intros (x & y & q & A & Q & ->). apply K in Q. subst q. destruct A as [->|[z ->]]; reflexivity.
Qed.
Print Assumptions direct_adapter_result.

Theorem direct_adapter_errors : forall G st o a e,
  fst (aa_get_action (@direct_adapter G) st o a) = Raise e <->
  e = ValueError /\ length a <> 2%nat /\ length a <> 3%nat.
Proof.
  intros G st o a e. cbn [direct_adapter aa_get_action fst]. unfold direct_get_action.
  destruct a as [|x [|y [|z [|w l]]]]; cbn; split; try discriminate; try (intros (_ & A & B); lia);
    try (intros E; injection E as <-; repeat split; lia); intros (-> & _); reflexivity.
Qed.
Print Assumptions direct_adapter_errors.

(** the delta adapter accepts actions of two entries (or one, used twice) and
    moves the beam from where it was *)
Theorem delta_adapter_result : forall G (s : sampler G) b o a cs b',
  aa_get_action (delta_adapter s) b o a = (Ok cs, b') <->
  exists dx dy, (a = [dx; dy] \/ a = [dx] /\ dy = dx) /\
    point_limited_to 0 1 (mkpt (px b + dx) (py b + dy)) b' /\ cs = [aimed_for b' 1500000].
Proof.
  intros G s b o a cs b'. cbn [delta_adapter aa_get_action]. unfold delta_get_action. rewrite fixed_dwell_value.
  split.
  - intros E. destruct a as [|x [|y [|z l]]]; cbn [broadcast2] in E; try discriminate; injection E as <- <-.
    + exists x, x. rewrite pclip_limited. auto.
    + exists x, y. rewrite pclip_limited. auto.
  - intros (dx & dy & A & Q & ->). apply pclip_limited in Q. subst b'.
    destruct A as [->|[-> ->]]; reflexivity.
Qed.
Print Assumptions delta_adapter_result.

Theorem delta_adapter_errors : forall G (s : sampler G) b o a e b',
  aa_get_action (delta_adapter s) b o a = (Raise e, b') <->
  e = ValueError /\ b' = b /\ length a <> 1%nat /\ length a <> 2%nat.
Proof.
  intros G s b o a e b'. cbn [delta_adapter aa_get_action]. unfold delta_get_action.
  destruct a as [|x [|y [|z l]]]; cbn [broadcast2 length]; split; try discriminate;
    try (intros (_ & _ & A & B); lia); try (intros E; injection E as <- <-; repeat split; lia);
    intros (-> & -> & _); reflexivity.
Qed.
Print Assumptions delta_adapter_errors.

(** a reset of the delta adapter draws x, then y, uniformly from [0, 1] *)
Theorem delta_adapter_reset : forall G (s : sampler G) b g,
  let '(x, g1) := s_uniform s 0 1 g in
  let '(y, g2) := s_uniform s 0 1 g1 in
  aa_reset (delta_adapter s) b g = (mkpt x y, g2).
Proof.
  intros G s b g. cbn [delta_adapter aa_reset]. unfold delta_reset.
  destruct (s_uniform s 0 1 g) as [x g1]. destruct (s_uniform s 0 1 g1) as [y g2]. reflexivity.
Qed.
Print Assumptions delta_adapter_reset.

Theorem relative_adapter_result : forall G lo hi dist st o a cs, wf_grid (o_grid o) ->
  fst (aa_get_action (@relative_adapter G (new_relative lo hi dist)) st o a) = Ok cs <->
  exists si dx dy ex ey q t,
    lone_silicon (o_grid o) si /\ width (o_fov o) <> 0 /\ height (o_fov o) <> 0 /\
    offsets a dx dy /\ limited_to (-1) 1 dx ex /\ limited_to (-1) 1 dy ey /\
    point_limited_to 0 1 (mkpt (px si + ex * (dist / width (o_fov o))) (py si + ey * (dist / height (o_fov o)))) q /\
    dwell_of lo hi a t /\ cs = [aimed_for q t].
Proof.
  intros G lo hi dist st o a cs W. destruct (relative_spec lo hi dist o a W) as (A & _). exact (A cs).
Qed.
Print Assumptions relative_adapter_result.

Theorem relative_adapter_errors : forall G lo hi dist st o a e, wf_grid (o_grid o) ->
  fst (aa_get_action (@relative_adapter G (new_relative lo hi dist)) st o a) = Raise e <->
  (e = RuntimeError /\ count_number 14 (o_grid o) <> 1%nat) \/
  (e = ZeroDivisionError /\ count_number 14 (o_grid o) = 1%nat /\ (width (o_fov o) = 0 \/ height (o_fov o) = 0)) \/
  (e = ValueError /\ count_number 14 (o_grid o) = 1%nat /\ width (o_fov o) <> 0 /\ height (o_fov o) <> 0 /\ a = []) \/
  (e = IndexError /\ count_number 14 (o_grid o) = 1%nat /\ width (o_fov o) <> 0 /\ height (o_fov o) <> 0 /\
     lo <> hi /\ (1 <= length a < 3)%nat).
Proof.
  intros G lo hi dist st o a e W. destruct (relative_spec lo hi dist o a W) as (_ & A & _). exact (A e).
Qed.
Print Assumptions relative_adapter_errors.

Theorem material_frame_adapter_result : forall G lo hi dist st o a cs, wf_grid (o_grid o) ->
  fst (aa_get_action (@material_frame_adapter G (new_relative lo hi dist)) st o a) = Ok cs <->
  exists si dx dy q t,
    lone_silicon (o_grid o) si /\ offsets a dx dy /\
    point_limited_to 0 1 (relative_to (o_fov o) (padd (at_relative (o_fov o) si) (mkpt dx dy))) q /\
    dwell_of lo hi a t /\ cs = [aimed_for q t].
Proof.
  intros G lo hi dist st o a cs W. destruct (material_frame_spec lo hi dist o a W) as (A & _). exact (A cs).
Qed.
Print Assumptions material_frame_adapter_result.

Theorem material_frame_adapter_errors : forall G lo hi dist st o a e, wf_grid (o_grid o) ->
  fst (aa_get_action (@material_frame_adapter G (new_relative lo hi dist)) st o a) = Raise e <->
  (e = RuntimeError /\ count_number 14 (o_grid o) <> 1%nat) \/
  (e = ValueError /\ count_number 14 (o_grid o) = 1%nat /\ a = []) \/
  (e = IndexError /\ count_number 14 (o_grid o) = 1%nat /\ lo <> hi /\ (1 <= length a < 3)%nat).
Proof.
  intros G lo hi dist st o a e W. destruct (material_frame_spec lo hi dist o a W) as (_ & A & _). exact (A e).
Qed.
Print Assumptions material_frame_adapter_errors.

(** resets of the stateless adapters do nothing *)
Theorem stateless_resets : forall G cfg st (g : G),
  aa_reset direct_adapter st g = (st, g) /\ aa_reset (relative_adapter cfg) st g = (st, g) /\
  aa_reset (material_frame_adapter cfg) st g = (st, g).
Proof. intros. repeat split. Qed.
Print Assumptions stateless_resets.

(** the defaults of the relative adapters: 1.5 s, one bond length *)
Theorem relative_defaults : default_relative = new_relative 1500000 1500000 (142 / 100).
Proof. unfold default_relative. fold fixed_dwell. rewrite fixed_dwell_value. reflexivity. Qed.
Print Assumptions relative_defaults.

(** ** C29 *)

(** everything a history of resets and actions can bring an adapter to *)
Inductive adapter_run {G St} (ad : action_adapter G St) : St -> list (res (list control)) -> St -> Prop :=
| run_start st : adapter_run ad st [] st
| run_reset st rs st1 g : adapter_run ad st rs st1 -> adapter_run ad st rs (fst (aa_reset ad st1 g))
| run_action st rs st1 o a : adapter_run ad st rs st1 -> wf_grid (o_grid o) ->
    adapter_run ad st (rs ++ [fst (aa_get_action ad st1 o a)]) (snd (aa_get_action ad st1 o a)).

Lemma run_one {G St} (ad : action_adapter G St) (P : res (list control) -> Prop) :
  (forall st o a, wf_grid (o_grid o) -> P (fst (aa_get_action ad st o a))) ->
  forall st rs st', adapter_run ad st rs st' -> forall r, In r rs -> P r.
Proof.
  intros H st rs st' R. induction R; intros r Hr; auto; [inversion Hr|].
  apply in_app_iff in Hr as [Hr|[<-|[]]]; auto.
Qed.

Definition one_control_in_view (r : res (list control)) : Prop :=
  forall cs, r = Ok cs -> exists c, cs = [c] /\ in_view (c_position c).

Lemma limited_in_view p q : point_limited_to 0 1 p q -> in_view q.
Proof. intros [A B]. split; eapply limited_range; eauto; lra. Qed.

(** after any history, with any actions: one control, in the field of view *)
Theorem controls_in_view : forall G (s : sampler G) lo hi dist,
  (forall st rs st', adapter_run (@direct_adapter G) st rs st' ->
     forall r, In r rs -> one_control_in_view r) /\
  (forall st rs st', adapter_run (delta_adapter s) st rs st' ->
     forall r, In r rs -> one_control_in_view r) /\
  (forall st rs st', adapter_run (@relative_adapter G (new_relative lo hi dist)) st rs st' ->
     forall r, In r rs -> one_control_in_view r) /\
  (forall st rs st', adapter_run (@material_frame_adapter G (new_relative lo hi dist)) st rs st' ->
     forall r, In r rs -> one_control_in_view r).
Proof.
  intros G s lo hi dist.
  repeat split; intros st rs st'; revert st rs st'; apply run_one; intros st o a W cs E.
  - apply direct_adapter_result in E as (x & y & q & _ & Q & ->). eexists. split; [reflexivity|].
    exact (limited_in_view _ _ Q).
  - destruct (aa_get_action (delta_adapter s) st o a) as [r b'] eqn:E'. cbn [fst] in E. subst r.
    apply delta_adapter_result in E' as (dx & dy & _ & Q & ->). eexists. split; [reflexivity|].
    exact (limited_in_view _ _ Q).
  - apply relative_adapter_result in E as (si & dx & dy & ex & ey & q & t & _ & _ & _ & _ & _ & _ & Q & _ & ->); auto.
    eexists. split; [reflexivity|]. exact (limited_in_view _ _ Q).
  - apply material_frame_adapter_result in E as (si & dx & dy & q & t & _ & _ & Q & _ & ->); auto.
    eexists. split; [reflexivity|]. exact (limited_in_view _ _ Q).
Qed.
Print Assumptions controls_in_view.

Definition ex_observation : observation :=
  mkobs (mkgrid [mkpt (1/2) (1/2); mkpt (1/4) (1/4)] [14; 6]%Z) (mkfov (mkpt 0 0) (mkpt 20 10)) [] 0%Z None None.

Example controls_in_view_nonvacuous :
  exists rs st', adapter_run (@delta_adapter nat (ex_sampler 0)) (mkpt 5 5) rs st' /\ length rs = 2%nat /\
    rs = [Ok [aimed_for (mkpt 1 1) 1500000]; Ok [aimed_for (mkpt (1/2) 0) 1500000]].
Proof.
  assert (W : wf_grid (o_grid ex_observation)) by reflexivity.
  pose proof (run_action (@delta_adapter nat (ex_sampler 0)) (mkpt 5 5) [] _ ex_observation [1; 1]
                (run_start _ (mkpt 5 5)) W) as A.
  pose proof (run_action _ _ _ _ ex_observation [- (1/2); - 9] A W) as B. clear A.
  cbn [app delta_adapter aa_get_action delta_get_action broadcast2 fst snd] in B.
  eexists. eexists. split; [exact B|]. split; [reflexivity|].
  unfold aimed_for, beam_control, pclip, padd. rewrite fixed_dwell_value. cbn [px py].
  replace (clip (5 + 1) 0 1) with 1 by (symmetry; apply clip_high; lra).
  replace (clip (1 + - (1/2)) 0 1) with (1/2) by (rewrite clip_id; lra).
  replace (clip (1 + - 9) 0 1) with 0 by (symmetry; apply clip_low; lra). reflexivity.
Qed.

(** actions of the advertised shape are accepted (the relative adapters also
    need an observation with one silicon and an extent), those of the direct
    adapter are not changed *)
Theorem advertised_actions_accepted : forall G (s : sampler G) lo hi dist o a, wf_grid (o_grid o) ->
  (fits direct_action_spec a -> exists x y, a = [x; y] /\
     forall st, fst (aa_get_action (@direct_adapter G) st o a) = Ok [aimed_for (mkpt x y) 1500000]) /\
  (fits delta_action_spec a -> forall st, exists b, aa_get_action (delta_adapter s) st o a = (Ok [aimed_for b 1500000], b)) /\
  (fits (relative_action_spec (new_relative lo hi dist)) a -> count_number 14 (o_grid o) = 1%nat ->
     (forall st, exists cs, fst (aa_get_action (@material_frame_adapter G (new_relative lo hi dist)) st o a) = Ok cs) /\
     (width (o_fov o) <> 0 -> height (o_fov o) <> 0 -> forall st,
        exists cs, fst (aa_get_action (@relative_adapter G (new_relative lo hi dist)) st o a) = Ok cs)).
Proof.
  intros G s lo hi dist o a W. split; [|split].
  - intros F. inversion F as [|? x ? l Hx F1]; subst. inversion F1 as [|? y ? l' Hy F2]; subst. inversion F2; subst.
    cbn [fst snd] in Hx, Hy. exists x, y. split; auto. intros st. apply direct_adapter_result.
    exists x, y, (mkpt x y). split; auto. split; auto. apply pclip_limited. symmetry. apply pclip_id. split; cbn; lra.
  - intros F. inversion F as [|? x ? l Hx F1]; subst. inversion F1 as [|? y ? l' Hy F2]; subst. inversion F2; subst.
    intros st. eexists. apply delta_adapter_result. exists x, y. split; auto. split; [|reflexivity].
    apply pclip_limited. reflexivity.
  - intros F C.
    assert (L : (2 <= length a)%nat /\ (lo <> hi -> (3 <= length a)%nat)).
    { pose proof (Forall2_len _ _ _ F) as L. unfold relative_action_spec in L. cbn [rel_fixed_dwell_time new_relative] in L.
      destruct (Z.eqb_spec lo hi); cbn [length] in L; split; try lia; tauto. }
    split.
    + intros st. destruct (fst (aa_get_action (@material_frame_adapter G (new_relative lo hi dist)) st o a)) as [cs|e|] eqn:E.
      * eauto.
      * exfalso. apply material_frame_adapter_errors in E; auto.
        destruct E as [(_ & K)|[(_ & _ & ->)|(_ & _ & N & K)]]; [tauto|simpl in L; lia|]. destruct L as [_ L]. specialize (L N). lia.
      * exfalso. exact (proj2 (proj2 (material_frame_spec lo hi dist o a W)) E).
    + intros Nw Nh st. destruct (fst (aa_get_action (@relative_adapter G (new_relative lo hi dist)) st o a)) as [cs|e|] eqn:E.
      * eauto.
      * exfalso. apply relative_adapter_errors in E; auto.
        destruct E as [(_ & K)|[(_ & _ & [K|K])|[(_ & _ & _ & _ & ->)|(_ & _ & _ & _ & N & K)]]];
          [tauto|tauto|tauto|simpl in L; lia|]. destruct L as [_ L]. specialize (L N). lia.
      * exfalso. exact (proj2 (proj2 (relative_spec lo hi dist o a W)) E).
Qed.
Print Assumptions advertised_actions_accepted.

(** the advertised shapes and bounds *)
Theorem advertised_bounds : forall lo hi dist a,
  (fits direct_action_spec a <-> exists x y, a = [x; y] /\ 0 <= x <= 1 /\ 0 <= y <= 1) /\
  (fits delta_action_spec a <-> exists x y, a = [x; y] /\ Rabs x <= 1 / 10 /\ Rabs y <= 1 / 10) /\
  (fits (relative_action_spec (new_relative lo hi dist)) a <-> exists x y l, a = x :: y :: l /\ Rabs x <= 1 /\ Rabs y <= 1 /\
     (if Z.eq_dec lo hi then l = [] else exists t, l = [t] /\ 0 <= t <= 1)).
Proof.
  intros lo hi dist a.
  assert (Ab : forall x b, Rabs x <= b <-> - b <= x <= b).
  { intros x b. split; [intros K; pose proof (Rle_abs x); pose proof (Rle_abs (- x)); rewrite Rabs_Ropp in *; lra|apply Rabs_le]. }
  unfold fits. split; [|split].
  - split.
    + intros F. inversion F as [|? x ? l Hx F1]; subst. inversion F1 as [|? y ? l' Hy F2]; subst. inversion F2; subst. eauto.
    + intros (x & y & -> & Hx & Hy). repeat (apply Forall2_cons; [cbn; lra|]). apply Forall2_nil.
  - split.
    + intros F. inversion F as [|? x ? l Hx F1]; subst. inversion F1 as [|? y ? l' Hy F2]; subst. inversion F2; subst.
      exists x, y. rewrite !Ab. cbn in *. auto.
    + intros (x & y & -> & Hx & Hy). apply Ab in Hx. apply Ab in Hy. repeat (apply Forall2_cons; [cbn; lra|]). apply Forall2_nil.
  - unfold relative_action_spec. cbn [rel_fixed_dwell_time new_relative].
    destruct (Z.eq_dec lo hi) as [E|E].
    + rewrite (proj2 (Z.eqb_eq _ _) E). split.
      * intros F. inversion F as [|? x ? l Hx F1]; subst. inversion F1 as [|? y ? l' Hy F2]; subst. inversion F2; subst.
        exists x, y, []. rewrite !Ab. cbn in *. auto.
      * intros (x & y & l & -> & Hx & Hy & ->). apply Ab in Hx. apply Ab in Hy. repeat (apply Forall2_cons; [cbn; lra|]). apply Forall2_nil.
    + rewrite (proj2 (Z.eqb_neq _ _) E). split.
      * intros F. inversion F as [|? x ? l Hx F1]; subst. inversion F1 as [|? y ? l' Hy F2]; subst. inversion F2 as [|? t ? l2 Ht F3]; subst. inversion F3; subst.
        exists x, y, [t]. rewrite !Ab. cbn in *. eauto 10.
      * intros (x & y & l & -> & Hx & Hy & t & -> & Ht). apply Ab in Hx. apply Ab in Hy. repeat (apply Forall2_cons; [cbn; lra|]). apply Forall2_nil.
Qed.
Print Assumptions advertised_bounds.

(** ** C30 *)
Lemma dwell_range lo hi a t : (lo <= hi)%Z -> dwell_of lo hi a t -> (lo <= t <= hi)%Z.
Proof.
  intros L [(-> & ->)|(N & x & y & _ & Ly & ->)]; [lia|].
  apply limited_range in Ly; [|lra]. assert (IZR lo < IZR hi) by (apply IZR_lt; lia).
  split.
  - rewrite <- (rhe_IZR lo) at 1. apply rhe_mono. nra.
  - rewrite <- (rhe_IZR hi) at 2. apply rhe_mono. nra.
Qed.

Theorem relative_dwell_times : forall G lo hi dist st o a c, wf_grid (o_grid o) -> (lo <= hi)%Z ->
  fst (aa_get_action (@relative_adapter G (new_relative lo hi dist)) st o a) = Ok [c] \/
  fst (aa_get_action (@material_frame_adapter G (new_relative lo hi dist)) st o a) = Ok [c] ->
  (lo <= c_dwell c <= hi)%Z /\
  (lo <> hi -> exists x, nth_error a 2 = Some x /\
     (x <= 0 -> c_dwell c = lo) /\ (1 <= x -> c_dwell c = hi) /\
     (0 <= x <= 1 -> c_dwell c = round_half_even (IZR lo + x * (IZR hi - IZR lo)))).
Proof.
  intros G lo hi dist st o a c W L E.
  assert (D : dwell_of lo hi a (c_dwell c)).
  { destruct E as [E|E].
    - apply relative_adapter_result in E as (si & dx & dy & ex & ey & q & t & _ & _ & _ & _ & _ & _ & _ & D & E); auto.
      injection E as ->. exact D.
    - apply material_frame_adapter_result in E as (si & dx & dy & q & t & _ & _ & _ & D & E); auto.
      injection E as ->. exact D. }
  split; [eapply dwell_range; eauto|].
  intros N. destruct D as [(K & _)|(_ & x & y & Hx & Ly & ->)]; [tauto|]. exists x. split; auto.
  apply limited_clip in Ly; [|lra]. subst y. repeat split; intros B.
  - rewrite clip_low by lra. replace (0 * (IZR hi - IZR lo) + IZR lo) with (IZR lo) by ring. apply rhe_IZR.
  - rewrite clip_high by lra. replace (1 * (IZR hi - IZR lo) + IZR lo) with (IZR hi) by ring. apply rhe_IZR.
  - rewrite clip_id by lra. f_equal. ring.
Qed.
Print Assumptions relative_dwell_times.

(** a larger dwell action never gives a shorter dwell time *)
Theorem dwell_time_monotone : forall lo hi a a' t t' x x', (lo <= hi)%Z ->
  dwell_of lo hi a t -> dwell_of lo hi a' t' ->
  nth_error a 2 = Some x -> nth_error a' 2 = Some x' -> x <= x' -> (t <= t')%Z.
Proof.
  intros lo hi a a' t t' x x' L D D' Hx Hx' Hle.
  destruct D as [(-> & ->)|(N & x0 & y & Ex & Ly & ->)].
  - destruct D' as [(_ & ->)|(N & _)]; [lia|tauto].
  - destruct D' as [(K & _)|(_ & x0' & y' & Ex' & Ly' & ->)]; [tauto|].
    assert (x0 = x) by congruence. assert (x0' = x') by congruence. subst x0 x0'.
    apply limited_clip in Ly; [|lra]. apply limited_clip in Ly'; [|lra]. subst y y'.
    apply rhe_mono. assert (clip x 0 1 <= clip x' 0 1) by (apply clip_mono; lra).
    assert (IZR lo <= IZR hi) by (apply IZR_le; lia). nra.
Qed.
Print Assumptions dwell_time_monotone.

Theorem relative_dwell_monotone : forall G lo hi dist st st' o o' a a' c c' x x',
  wf_grid (o_grid o) -> wf_grid (o_grid o') -> (lo <= hi)%Z ->
  fst (aa_get_action (@relative_adapter G (new_relative lo hi dist)) st o a) = Ok [c] ->
  fst (aa_get_action (@relative_adapter G (new_relative lo hi dist)) st' o' a') = Ok [c'] ->
  nth_error a 2 = Some x -> nth_error a' 2 = Some x' -> x <= x' -> (c_dwell c <= c_dwell c')%Z.
Proof.
  intros G lo hi dist st st' o o' a a' c c' x x' W W' L E E' Hx Hx' Hle.
  apply relative_adapter_result in E as (si & dx & dy & ex & ey & q & t & _ & _ & _ & _ & _ & _ & _ & D & E); auto.
  apply relative_adapter_result in E' as (si' & dx' & dy' & ex' & ey' & q' & t' & _ & _ & _ & _ & _ & _ & _ & D' & E'); auto.
  injection E as ->. injection E' as ->. exact (dwell_time_monotone _ _ _ _ _ _ _ _ L D D' Hx Hx' Hle).
Qed.
Print Assumptions relative_dwell_monotone.

Example relative_dwell_nonvacuous : exists c,
  fst (aa_get_action (@relative_adapter (list R) (new_relative 1000000 3000000 (142/100))) tt ex_observation [1; -3; 1/4]) = Ok [c] /\
  c_dwell c = 1500000%Z.
Proof.
  exists (aimed_for (mkpt (1/2 + 1 * (142 / 100 / 20)) (1/2 + (-1) * (142 / 100 / 10))) 1500000). split; [|reflexivity].
  apply relative_adapter_result; [reflexivity|].
  exists (mkpt (1/2) (1/2)), 1, (-3), 1, (-1), (mkpt (1/2 + 1 * (142 / 100 / 20)) (1/2 + (-1) * (142 / 100 / 10))), 1500000%Z.
  split; [split; [reflexivity|left; reflexivity]|]. split; [unfold width; cbn; lra|]. split; [unfold height; cbn; lra|].
  split; [right; eexists; reflexivity|]. split; [right; left; lra|]. split; [left; lra|].
  split; [split; right; left; unfold width, height, ex_observation; cbn [px py o_fov lower_left upper_right]; split; lra|].
  split; [|reflexivity]. right. split; [lia|]. exists (1/4), (1/4). split; [reflexivity|]. split; [right; left; lra|].
  replace (1/4 * (3000000 - 1000000) + 1000000) with (IZR 1500000) by lra. symmetry. apply rhe_IZR.
Qed.

(** ** C31 *)
Theorem relative_needs_one_silicon : forall G lo hi dist st o a, wf_grid (o_grid o) ->
  (fst (aa_get_action (@relative_adapter G (new_relative lo hi dist)) st o a) = Raise RuntimeError <->
     count_number 14 (o_grid o) <> 1%nat) /\
  (fst (aa_get_action (@material_frame_adapter G (new_relative lo hi dist)) st o a) = Raise RuntimeError <->
     count_number 14 (o_grid o) <> 1%nat).
Proof.
  intros G lo hi dist st o a W. rewrite relative_adapter_errors, material_frame_adapter_errors by auto.
  split; split; try (intros K; left; split; auto; fail).
  - intros [(_ & K)|[(K & _)|[(K & _)|(K & _)]]]; auto; discriminate.
  - intros [(_ & K)|[(K & _)|(K & _)]]; auto; discriminate.
Qed.
Print Assumptions relative_needs_one_silicon.

Theorem relative_missing_dwell : forall G lo hi dist st o a, wf_grid (o_grid o) ->
  count_number 14 (o_grid o) = 1%nat -> width (o_fov o) <> 0 -> height (o_fov o) <> 0 -> a <> [] ->
  (fst (aa_get_action (@relative_adapter G (new_relative lo hi dist)) st o a) = Raise IndexError <->
     lo <> hi /\ (length a < 3)%nat) /\
  (fst (aa_get_action (@material_frame_adapter G (new_relative lo hi dist)) st o a) = Raise IndexError <->
     lo <> hi /\ (length a < 3)%nat).
Proof.
  intros G lo hi dist st o a W C Nw Nh Na. rewrite relative_adapter_errors, material_frame_adapter_errors by auto.
  assert (1 <= length a)%nat by (destruct a; [congruence|simpl; lia]).
  split; split.
  - intros [(K & _)|[(K & _)|[(K & _)|(_ & _ & _ & _ & K)]]]; try discriminate. destruct K as [K1 K2]. split; [exact K1|lia].
  - intros [K1 K2]. repeat right. repeat (split; auto).
  - intros [(K & _)|[(K & _)|(_ & _ & K)]]; try discriminate. destruct K as [K1 K2]. split; [exact K1|lia].
  - intros [K1 K2]. repeat right. repeat (split; auto).
Qed.
Print Assumptions relative_missing_dwell.

Example relative_needs_one_silicon_nonvacuous :
  fst (aa_get_action (@relative_adapter (list R) default_relative) tt
    (mkobs (mkgrid [mkpt 0 0; mkpt 1 1] [14; 14]%Z) (mkfov (mkpt 0 0) (mkpt 1 1)) [] 0%Z None None) [0; 0])
  = Raise RuntimeError.
Proof. rewrite relative_defaults. apply relative_needs_one_silicon; [reflexivity|]. cbn. lia. Qed.

(** ** C32 *)

(** the beam never goes further than the configured distance per axis, and
    reaches the requested point whenever that is in view *)
Theorem relative_aim : forall G lo hi dist st o a c si dx dy ex ey, wf_grid (o_grid o) -> proper (o_fov o) -> 0 <= dist ->
  lone_silicon (o_grid o) si -> in_view si -> offsets a dx dy ->
  limited_to (-1) 1 dx ex -> limited_to (-1) 1 dy ey ->
  fst (aa_get_action (@relative_adapter G (new_relative lo hi dist)) st o a) = Ok [c] ->
  let target := padd (at_relative (o_fov o) si) (mkpt (ex * dist) (ey * dist)) in
  (inside (lower_left (o_fov o)) (upper_right (o_fov o)) 0 target -> at_relative (o_fov o) (c_position c) = target) /\
  Rabs (px (at_relative (o_fov o) (c_position c)) - px (at_relative (o_fov o) si)) <= dist /\
  Rabs (py (at_relative (o_fov o) (c_position c)) - py (at_relative (o_fov o) si)) <= dist.
Proof.
  intros G lo hi dist st o a c si dx dy ex ey W P Hd Ls V Of Lx Ly E target.
  apply relative_adapter_result in E as (si' & dx' & dy' & ex' & ey' & q & t & Ls' & Nw & Nh & Of' & Lx' & Ly' & Lq & _ & E); auto.
  injection E as ->. cbn [c_position aimed_for].
  assert (si' = si) by (eapply lone_unique; eauto). subst si'.
  assert (dx' = dx /\ dy' = dy) as [-> ->].
  { destruct Of as [[-> ->]|[r ->]], Of' as [[K1 K2]|[r' K]]; try discriminate.
    - injection K1 as ->. auto.
    - injection K as -> ->. auto. }
  apply limited_range in Lx as Rx; [|lra]. apply limited_range in Ly as Ry; [|lra].
  apply limited_clip in Lx; [|lra]. apply limited_clip in Lx'; [|lra]. assert (ex' = ex) by congruence.
  apply limited_clip in Ly; [|lra]. apply limited_clip in Ly'; [|lra]. assert (ey' = ey) by congruence.
  clear Lx Lx' Ly Ly'. subst ex' ey' target.
  unfold proper in P. unfold width, height in *. unfold at_relative, inside, padd. cbn [px py].
  destruct (o_fov o) as [[x0 y0] [x1 y1]], si as [sx sy], q as [qx qy], V as [Vx Vy], Lq as [Qx Qy].
  cbn [px py lower_left upper_right] in *. destruct P as [Px Py].
  assert (Aux : forall s u q w e, 0 <= s <= 1 -> 0 < w -> -1 <= e <= 1 -> limited_to 0 1 (s + e * (dist / w)) q ->
    (u - 0 <= u + s * w + e * dist <= u + w + 0 -> u + q * w = u + s * w + e * dist) /\
    Rabs (u + q * w - (u + s * w)) <= dist).
  { intros s u q w e Hs Hw He Lq.
    set (v := e * (dist / w)) in *. assert (Vw : v * w = e * dist) by (unfold v; field; lra).
    split.
    - intros B. apply limited_id in Lq; [subst q; rewrite <- Vw; ring|]. split; nra.
    - replace (u + q * w - (u + s * w)) with ((q - s) * w) by ring.
      assert (- dist <= e * dist <= dist) by nra.
      assert (Hd' : 0 <= dist / w) by (apply Rmult_le_pos; [lra|apply Rlt_le, Rinv_0_lt_compat; lra]).
      assert (Hw' : dist / w * w = dist) by (field; lra).
      assert (- (dist / w) <= q - s <= dist / w).
      { assert (- (dist / w) <= v <= dist / w) by (unfold v; nra).
        destruct Lq as [(A & ->)|[(A & ->)|(A & ->)]]; lra. }
      apply Rabs_le. nra. }
  destruct (Aux sx x0 qx (x1 - x0) ex) as [A1 A2]; auto; try lra.
  destruct (Aux sy y0 qy (y1 - y0) ey) as [B1 B2]; auto; try lra.
  split; [|split; assumption].
  intros [K1 K2]. rewrite A1 by lra. rewrite B1 by lra. f_equal; ring.
Qed.
Print Assumptions relative_aim.

(** the material-frame adapter aims exactly at silicon + action angstroms, if
    that is in view; otherwise at the nearest point of the field of view per
    axis *)
Theorem material_frame_aim : forall G lo hi dist st o a c si dx dy, wf_grid (o_grid o) -> proper (o_fov o) ->
  lone_silicon (o_grid o) si -> offsets a dx dy ->
  fst (aa_get_action (@material_frame_adapter G (new_relative lo hi dist)) st o a) = Ok [c] ->
  let target := padd (at_relative (o_fov o) si) (mkpt dx dy) in
  let beam := at_relative (o_fov o) (c_position c) in
  limited_to (px (lower_left (o_fov o))) (px (upper_right (o_fov o))) (px target) (px beam) /\
  limited_to (py (lower_left (o_fov o))) (py (upper_right (o_fov o))) (py target) (py beam).
Proof.
  intros G lo hi dist st o a c si dx dy W P Ls Of E target beam.
  apply material_frame_adapter_result in E as (si' & dx' & dy' & q & t & Ls' & Of' & Lq & _ & E); auto.
  injection E as ->. subst beam. cbn [c_position aimed_for].
  assert (si' = si) by (eapply lone_unique; eauto). subst si'.
  assert (dx' = dx /\ dy' = dy) as [-> ->].
  { destruct Of as [[-> ->]|[r ->]], Of' as [[K1 K2]|[r' K]]; try discriminate.
    - injection K1 as ->. auto.
    - injection K as -> ->. auto. }
  fold target in Lq. clearbody target. unfold proper in P. unfold at_relative. cbn [px py].
  destruct (o_fov o) as [[x0 y0] [x1 y1]], target as [tx ty], q as [qx qy], Lq as [Qx Qy].
  cbn [px py lower_left upper_right relative_to] in *. destruct P as [Px Py].
  assert (Aux : forall u v t q, u < v -> limited_to 0 1 ((t - u) / (v - u)) q -> limited_to u v t (u + q * (v - u))).
  { intros u v t0 q Huv Lq. set (r := (t0 - u) / (v - u)) in *.
    assert (Hr : t0 = u + r * (v - u)) by (unfold r; field; lra). clearbody r. unfold limited_to.
    destruct Lq as [(A & ->)|[(A & ->)|(A & ->)]]; [left|right; left|right; right]; subst t0; split; nra. }
  split; apply Aux; auto.
Qed.
Print Assumptions material_frame_aim.

Example relative_aim_nonvacuous : exists c,
  fst (aa_get_action (@material_frame_adapter (list R) default_relative) tt ex_observation [1; -2]) = Ok [c] /\
  proper (o_fov ex_observation) /\ lone_silicon (o_grid ex_observation) (mkpt (1/2) (1/2)) /\
  at_relative (o_fov ex_observation) (c_position c) = mkpt 11 3.
Proof.
  exists (aimed_for (mkpt (11/20) (3/10)) 1500000). split; [|split; [|split]].
  - rewrite relative_defaults. apply material_frame_adapter_result; [reflexivity|].
    exists (mkpt (1/2) (1/2)), 1, (-2), (mkpt (11/20) (3/10)), 1500000%Z.
    split; [split; [reflexivity|left; reflexivity]|]. split; [right; eexists; reflexivity|].
    split; [split; right; left; cbn; split; lra|]. split; [left; split; reflexivity|reflexivity].
  - unfold proper; cbn; lra.
  - split; [reflexivity|left; reflexivity].
  - unfold at_relative; cbn. f_equal; lra.
Qed.

(** ** C33 *)

(** the beam positions after each of a sequence of two-entry actions *)
Fixpoint beam_path (b : pt) (moves : list pt) : list pt :=
  match moves with
  | [] => []
  | m :: moves =>
      let b := snd (delta_get_action b [px m; py m]) in
      b :: beam_path b moves
  end.

(** each position is the previous one plus the action, limited to the field of
    view, and each action returns one control at the new position *)
Theorem delta_walk : forall G (s : sampler G) o b m,
  exists b', aa_get_action (delta_adapter s) b o [px m; py m] = (Ok [aimed_for b' 1500000], b') /\
    point_limited_to 0 1 (padd b m) b'.
Proof.
  intros G s o b m. eexists. split.
  - apply delta_adapter_result. exists (px m), (py m). split; [left; reflexivity|]. split; [|reflexivity].
    apply pclip_limited. reflexivity.
  - apply pclip_limited. reflexivity.
Qed.
Print Assumptions delta_walk.

(** the running sums start + m1, start + m1 + m2, ... *)
Fixpoint running_sums (b : pt) (moves : list pt) : list pt :=
  match moves with
  | [] => []
  | m :: moves => padd b m :: running_sums (padd b m) moves
  end.

Theorem delta_unclipped : forall moves b,
  (forall p, In p (running_sums b moves) -> in_view p) -> beam_path b moves = running_sums b moves.
Proof.
  induction moves as [|m moves IH]; intros b H; [reflexivity|]. cbn [beam_path running_sums] in *.
  assert (E : snd (delta_get_action b [px m; py m]) = padd b m).
  { unfold delta_get_action. cbn [broadcast2 snd]. replace (mkpt (px m) (py m)) with m by (destruct m; reflexivity).
    apply pclip_id, H. left; reflexivity. }
  rewrite E. f_equal. apply IH. intros p Hp. apply H. right. exact Hp.
Qed.
Print Assumptions delta_unclipped.

(** the last running sum is the start plus the sum of the moves *)
Theorem running_sums_last : forall moves b d, moves <> [] ->
  last (running_sums b moves) d = padd b (psum moves).
Proof.
  induction moves as [|m moves IH]; intros b d N; [congruence|]. destruct moves as [|m' moves].
  - cbn. apply pt_eq; cbn; ring.
  - change (last (running_sums b (m :: m' :: moves)) d) with (last (running_sums (padd b m) (m' :: moves)) d).
    rewrite IH by discriminate. apply pt_eq; cbn; ring.
Qed.
Print Assumptions running_sums_last.

(** after a reset and any history the beam is in the field of view *)
Theorem delta_in_view : forall G (s : sampler G) b0 g0 rs b, sampler_ok s ->
  adapter_run (delta_adapter s) (fst (aa_reset (delta_adapter s) b0 g0)) rs b -> in_view b.
Proof.
  intros G s b0 g0 rs b Hs H.
  assert (R0 : forall b1 g, in_view (fst (aa_reset (delta_adapter s) b1 g))).
  { intros b1 g. cbn [delta_adapter aa_reset]. unfold delta_reset.
    pose proof (uniform_range s Hs 0 1 g). destruct (s_uniform s 0 1 g) as [x g1].
    pose proof (uniform_range s Hs 0 1 g1). destruct (s_uniform s 0 1 g1) as [y g2].
    cbn [fst] in *. split; cbn; lra. }
  remember (fst (aa_reset (delta_adapter s) b0 g0)) as st. induction H as [st|st rs st1 g H IH|st rs st1 o a H IH W]; subst.
  - apply R0.
  - apply R0.
  - specialize (IH eq_refl). cbn [delta_adapter aa_get_action]. unfold delta_get_action.
    destruct (broadcast2 a); cbn [snd]; auto. apply pclip_in_view.
Qed.
Print Assumptions delta_in_view.

Example delta_unclipped_nonvacuous :
  beam_path (mkpt (1/2) (1/2)) [mkpt (1/10) 0; mkpt 0 (1/10)] = running_sums (mkpt (1/2) (1/2)) [mkpt (1/10) 0; mkpt 0 (1/10)].
Proof.
  apply delta_unclipped. intros p [<-|[<-|[]]]; unfold in_view; cbn; lra.
Qed.
