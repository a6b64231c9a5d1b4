(** The exposure loop of PristineSingleDopedGraphene.apply_control. *)
From Coq Require Import Reals ZArith List Bool Arith Lia Lra Sorting.Sorted.
From Flocq Require Import Core.
From Verif Require Import Base.Prelude Base.Matrix Base.Rounding Base.Random Model.Constants
  Model.Geometry Model.MicroscopeUtils Model.Graphene Spec.Grids Spec.Neighbours Spec.Material Spec.MaterialRuns
  Proofs.BaseFacts Proofs.RoundingFacts Proofs.MaterialFacts Proofs.RateFacts.
Import ListNotations.
Open Scope R_scope.

Section Exposure.
Context {G : Type} (s : sampler G).

(** one step of the loop, as a case analysis with all successful branches *)
Lemma loop_cases (P : exposure -> Prop) fuel rf pos dwell elapsed gr g :
  ((dwell <= elapsed)%Z -> P (mkexposure (G := G) (Ok tt) gr g [])) ->
  ((elapsed < dwell)%Z -> fuel = O -> P (mkexposure OutOfFuel gr g [])) ->
  ((elapsed < dwell)%Z -> forall e, rf gr pos = Raise e -> P (mkexposure (Raise e) gr g [])) ->
  ((elapsed < dwell)%Z -> rf gr pos = OutOfFuel -> P (mkexposure OutOfFuel gr g [])) ->
  ((elapsed < dwell)%Z -> rf gr pos = Ok [] -> P (mkexposure (Raise ZeroDivisionError) gr g [])) ->
  ((elapsed < dwell)%Z -> forall rs, rf gr pos = Ok rs -> total_rate rs < 0 ->
     P (mkexposure (Raise ValueError) gr g [])) ->
  ((elapsed < dwell)%Z -> forall rs, rf gr pos = Ok rs -> rs <> [] -> total_rate rs = 0 ->
     (elapsed + 3600000000 <= dwell)%Z ->
     P (mkexposure (Raise ValueError) gr (snd (s_exponential s 0 g)) [])) ->
  ((elapsed < dwell)%Z -> forall rs fuel', fuel = S fuel' -> rf gr pos = Ok rs -> rs <> [] -> total_rate rs = 0 ->
     (dwell < elapsed + 3600000000)%Z ->
     P (mkexposure (Ok tt) gr (snd (s_exponential s 0 g)) [])) ->
  ((elapsed < dwell)%Z -> forall rs fuel', fuel = S fuel' -> rf gr pos = Ok rs -> 0 < total_rate rs ->
     let '(x, g1) := s_exponential s (1 / total_rate rs) g in
     (dwell < elapsed + waiting x)%Z -> P (mkexposure (Ok tt) gr g1 [])) ->
  ((elapsed < dwell)%Z -> forall rs, rf gr pos = Ok rs -> 0 < total_rate rs ->
     let '(x, g1) := s_exponential s (1 / total_rate rs) g in
     (elapsed + waiting x <= dwell)%Z ->
     let p := map (fun r => f32 (snd r) / total_rate rs) rs in
     (exists y, In y p /\ y < 0) \/ choice_tolerance < Rabs (rsum p - 1) ->
     P (mkexposure (Raise ValueError) gr g1 [])) ->
  ((elapsed < dwell)%Z -> forall rs, rf gr pos = Ok rs -> 0 < total_rate rs ->
     let '(x, g1) := s_exponential s (1 / total_rate rs) g in
     (elapsed + waiting x <= dwell)%Z ->
     let p := map (fun r => f32 (snd r) / total_rate rs) rs in
     (forall y, In y p -> 0 <= y) -> Rabs (rsum p - 1) <= choice_tolerance ->
     let '(i, g2) := s_choice_p s p g1 in
     nth_error rs i = None ->
     P (mkexposure (Raise IndexError) gr g2 [])) ->
  ((elapsed < dwell)%Z -> forall rs fuel', fuel = S fuel' -> rf gr pos = Ok rs -> 0 < total_rate rs ->
     let '(x, g1) := s_exponential s (1 / total_rate rs) g in
     (elapsed + waiting x <= dwell)%Z ->
     let p := map (fun r => f32 (snd r) / total_rate rs) rs in
     (forall y, In y p -> 0 <= y) -> Rabs (rsum p - 1) <= choice_tolerance ->
     let '(i, g2) := s_choice_p s p g1 in
     forall gr' r', nth_error rs i = Some (gr', r') ->
     P (add_transition (elapsed + waiting x, gr')%Z
          (exposure_loop s fuel' rf pos dwell (elapsed + waiting x)%Z gr' g2))) ->
  P (exposure_loop s fuel rf pos dwell elapsed gr g).
Proof.
  intros H1 H2 H3 H4 H5 H6 H7 H8 H9 H10 H11 H12.
  destruct fuel as [|fuel]; cbn [exposure_loop].
  { destruct (Z.ltb_spec elapsed dwell) as [L|L]; cbn [negb]; auto. }
  destruct (Z.ltb_spec elapsed dwell) as [L|L]; cbn [negb]; auto.
  destruct (rf gr pos) as [rs|e|] eqn:Er; auto.
  destruct rs as [|r0 rs0]; auto. set (rs := r0 :: rs0) in *.
  assert (rs <> []) as Hn by (unfold rs; discriminate). clearbody rs. clear r0 rs0.
  unfold draw_seconds.
  destruct (Rltb (total_rate rs) 0) eqn:B0.
  { apply Rltb_true in B0. eauto. }
  apply Rltb_false in B0.
  destruct (Reqb (total_rate rs) 0) eqn:B1.
  - apply Reqb_true in B1.
    replace (td_seconds 3600) with 3600000000%Z.
    2:{ symmetry. replace 3600 with (total_seconds 3600000000%Z) by (unfold total_seconds; lra). apply td_total. }
    destruct (Z.leb_spec (elapsed + 3600000000) dwell) as [M|M].
    + eapply H7; eauto.
    + destruct fuel as [|fuel]; cbn [exposure_loop];
        rewrite (proj2 (Z.ltb_ge _ _)) by lia; cbn [negb]; eapply H8; eauto.
  - apply Reqb_false in B1. assert (0 < total_rate rs) as T by lra.
    specialize (H9 L rs fuel eq_refl eq_refl T). specialize (H10 L rs eq_refl T).
    specialize (H11 L rs eq_refl T). specialize (H12 L rs fuel eq_refl eq_refl T).
    destruct (s_exponential s (1 / total_rate rs) g) as [x g1].
    unfold td_seconds. fold (waiting x).
    destruct (Z.leb_spec (elapsed + waiting x) dwell) as [M|M].
    + unfold rng_choice_p.
      destruct (existsb (fun y => Rltb y 0) _) eqn:X.
      { apply existsb_exists in X. destruct X as (y & Hy & By). apply Rltb_true in By.
        apply H10; auto. left. eauto. }
      assert (Nn : forall y, In y (map (fun r => f32 (snd r) / total_rate rs) rs) -> 0 <= y).
      { intros y Hy. destruct (Rle_dec 0 y); auto. exfalso.
        assert (existsb (fun y => Rltb y 0) (map (fun r => f32 (snd r) / total_rate rs) rs) = true).
        { apply existsb_exists. exists y. split; auto. apply Rltb_true. lra. }
        congruence. }
      destruct (Rltb choice_tolerance _) eqn:Y.
      { apply Rltb_true in Y. apply H10; auto. }
      apply Rltb_false in Y. specialize (H11 M Nn Y). specialize (H12 M Nn Y).
      destruct (s_choice_p s _ g1) as [i g2].
      destruct (nth_error rs i) as [[gr' r']|] eqn:Ei; eauto.
    + destruct fuel as [|fuel]; cbn [exposure_loop];
        rewrite (proj2 (Z.ltb_ge _ _)) by lia; cbn [negb]; auto.
Qed.

(** successors *)
Definition steps_to (rf : rate_function) (pos : pt) (g g' : grid) : Prop :=
  exists rs r, rf g pos = Ok rs /\ In (g', r) rs.


Ltac draws :=
  repeat match goal with
  | |- let '(_, _) := s_exponential s ?sc ?g in _ =>
      let x := fresh "x" in let g1 := fresh "g1" in
      destruct (s_exponential s sc g) as [x g1] eqn:?
  | |- let '(_, _) := s_choice_p s ?p ?g in _ =>
      let i := fresh "i" in let g2 := fresh "g2" in
      destruct (s_choice_p s p g) as [i g2] eqn:?
  | |- forall _, _ => intro
  | |- let _ := _ in _ => intro
  end.
Ltac loop :=
  apply loop_cases; draws; try discriminate;
  repeat match goal with H : S _ = S _ |- _ => injection H as H; subst end.

Lemma last_cons {A} (x d : A) l : last (x :: l) d = last l x.
Proof.
  revert x d; induction l as [|y l IH]; intros x d; [reflexivity|].
  change (last (y :: l) d = last (y :: l) x). rewrite !IH. reflexivity.
Qed.

Lemma loop_chain fuel rf pos dwell : forall elapsed gr g,
  let e := exposure_loop s fuel rf pos dwell elapsed gr g in
  chain (steps_to rf pos) gr (map snd (e_transitions e)) /\
  e_grid e = last (map snd (e_transitions e)) gr.
Proof.
  induction fuel as [|fuel IH]; intros elapsed gr g; cbv zeta;
    loop; simpl; try (split; [constructor|reflexivity]).
  match goal with |- context [exposure_loop s fuel' rf pos dwell ?el gr' ?gg] =>
     destruct (IH el gr' gg) as [C E] end.
  split.
  - constructor; [|exact C]. exists rs, r'. split; auto. eapply nth_error_In; eauto.
  - rewrite E. symmetry. apply last_cons.
Qed.

(** times *)
Lemma waiting_nonneg x : 0 <= x -> (0 <= waiting x)%Z.
Proof.
  intros H. unfold waiting. apply (td_nonneg (Rmin x 3600)). apply Rmin_glb; lra.
Qed.

Lemma loop_times fuel rf pos dwell : sampler_ok s -> forall elapsed gr g,
  let e := exposure_loop s fuel rf pos dwell elapsed gr g in
  StronglySorted Z.le (map fst (e_transitions e)) /\
  Forall (fun t => elapsed <= t <= dwell)%Z (map fst (e_transitions e)).
Proof.
  intros O. induction fuel as [|fuel IH]; intros elapsed gr g; cbv zeta;
    loop; simpl; try solve [split; constructor].
  match goal with H : s_exponential _ _ _ = _ |- _ =>
      pose proof (exponential_range _ O (1 / total_rate rs) g) as X; rewrite H in X; simpl in X end.
  apply waiting_nonneg in X.
  match goal with |- context [exposure_loop s fuel' rf pos dwell ?el gr' ?gg] =>
     destruct (IH el gr' gg) as [C E] end.
  split; constructor; auto.
  - eapply Forall_impl; [|exact E]. simpl. intros; lia.
  - lia.
  - eapply Forall_impl; [|exact E]. simpl. intros; lia.
Qed.

(** termination *)
Lemma waiting_pos x : / 2000000 < x -> (1 <= waiting x)%Z.
Proof.
  intros H. unfold waiting.
  assert (/ 2 < Rmin x 3600 * 1000000).
  { unfold Rmin. destruct (Rle_dec x 3600); lra. }
  set (y := Rmin x 3600 * 1000000) in *.
  pose proof (rhe_error y) as E.
  assert (0 <= round_half_even y)%Z. { rewrite <- (rhe_IZR 0). apply rhe_mono. lra. }
  destruct (Z.eq_dec (round_half_even y) 0) as [Z0|]; [|lia].
  exfalso. rewrite Z0 in E. unfold Rabs in E. destruct (Rcase_abs (y - 0)); lra.
Qed.

Lemma waiting_zero x : 0 <= x <= / 2000000 -> waiting x = 0%Z.
Proof.
  intros H. unfold waiting. rewrite Rmin_left by lra.
  destruct (Req_dec x (/ 2000000)) as [->|].
  - replace (/ 2000000 * 1000000) with (/ 2) by field.
    unfold round_half_even, ZnearestE, Znearest.
    assert (Zfloor (/ 2) = 0%Z) as ->. { apply Zfloor_imp. simpl. lra. }
    rewrite Rcompare_Eq by (simpl; lra). reflexivity.
  - apply rhe_near. rewrite Rabs_pos_eq by (simpl; lra). simpl. lra.
Qed.

Lemma loop_terminates fuel rf pos dwell :
  (forall sc g, / 2000000 < fst (s_exponential s sc g)) ->
  (forall g, rf g pos <> OutOfFuel) ->
  forall elapsed gr g, (dwell <= elapsed + Z.of_nat fuel)%Z ->
  e_result (exposure_loop s fuel rf pos dwell elapsed gr g) <> OutOfFuel.
Proof.
  intros D F. induction fuel as [|fuel IH]; intros elapsed gr g L;
    loop; simpl; try discriminate; try lia; try solve [exfalso; eapply F; eauto].
  apply IH.
  match goal with H : s_exponential _ _ _ = _ |- _ =>
      pose proof (D (1 / total_rate rs) g) as X; rewrite H in X; simpl in X end.
  apply waiting_pos in X. lia.
Qed.

Lemma total_nonneg rs : (forall (g' : grid) r, In (g', r) rs -> 0 <= r) -> 0 <= total_rate rs.
Proof.
  intros H. apply rsum_nonneg. intros x Hx. apply in_map_iff in Hx. destruct Hx as ([a b] & <- & Hb).
  apply H in Hb. exact Hb.
Qed.

Lemma rsum_div (rs : rates) t : (forall g' r, In (g', r) rs -> f32 r = r) ->
  rsum (map (fun r => f32 (snd r) / t) rs) = total_rate rs / t.
Proof.
  unfold total_rate. induction rs as [|[a b] rs IH]; intros H; simpl; [unfold Rdiv; ring|].
  rewrite IH; [|intros; eapply H; right; eauto]. simpl. rewrite (H a b (or_introl eq_refl)). unfold Rdiv. ring.
Qed.

Lemma choice_in_range rs g : sampler_ok s -> 0 < total_rate rs ->
  (forall (g' : grid) r, In (g', r) rs -> 0 <= r /\ f32 r = r) ->
  let p := map (fun r => f32 (snd r) / total_rate rs) rs in
  (forall y, In y p -> 0 <= y) /\ rsum p = 1 /\
  exists g' r', nth_error rs (fst (s_choice_p s p g)) = Some (g', r') /\ 0 < r'.
Proof.
  intros O T H p.
  assert (Nn : forall y, In y p -> 0 <= y).
  { intros y Hy. apply in_map_iff in Hy. destruct Hy as ([a b] & <- & Hb). destruct (H a b Hb) as [B1 B2].
    simpl. rewrite B2. apply Rmult_le_pos; auto. left. apply Rinv_0_lt_compat; auto. }
  assert (S1 : rsum p = 1).
  { unfold p. rewrite rsum_div; [field; lra|]. intros a b Hab. apply (H a b Hab). }
  split; [auto|]. split; [auto|].
  destruct (choice_p_range _ O p g) as (y & Hy & Py); [lra|auto|].
  apply nth_error_map_Some in Hy. destruct Hy as ([a b] & Hab & E). exists a, b. split; auto.
  apply nth_error_In in Hab. destruct (H a b Hab) as [B1 B2]. simpl in E. rewrite B2 in E.
  destruct (Req_dec b 0) as [->|]; [|lra]. unfold Rdiv in E. rewrite Rmult_0_l in E. lra.
Qed.

Lemma tolerance_nonneg : 0 <= choice_tolerance.
Proof. apply sqrt_pos. Qed.

(** the loop never raises *)
Lemma loop_safe rf pos (I : grid -> Prop) dwell : sampler_ok s ->
  well_behaved rf pos I -> (dwell < 3600000000)%Z ->
  forall fuel elapsed gr g, (0 <= elapsed)%Z -> I gr ->
  let e := exposure_loop s fuel rf pos dwell elapsed gr g in
  (e_result e = Ok tt \/ e_result e = OutOfFuel) /\ I (e_grid e).
Proof.
  intros O W Hd. induction fuel as [|fuel IH]; intros elapsed gr g He Hi; cbv zeta;
  destruct (W gr Hi) as (rs0 & E0 & N0 & P0);
  (assert (T0 : 0 <= total_rate rs0) by (apply total_nonneg; intros; eapply P0; eauto));
  loop; simpl; auto; try congruence;
  (match goal with H : rf gr pos = Ok ?r |- _ => tryif constr_eq r rs0 then fail else (assert (r = rs0) by congruence; subst r) end);
  try lia; try lra.
  all: destruct (choice_in_range rs0 g1 O ltac:(assumption)) as (C1 & C2 & g' & r1 & C3 & C4);
    [intros a b Hab; destruct (P0 a b Hab) as (? & ? & ?); auto|].
  all: try match goal with H : _ \/ choice_tolerance < _ |- _ =>
     exfalso; destruct H as [(y & Hy & Ny)|H];
     [apply C1 in Hy; lra|fold p in C2; rewrite C2 in H;
      replace (1 - 1) with 0 in H by ring; rewrite Rabs_R0 in H; pose proof tolerance_nonneg; lra] end.
  all: try (match goal with H : s_choice_p _ _ _ = _, H' : nth_error _ _ = None |- _ =>
     exfalso; fold p in C3; rewrite H in C3; simpl in C3; congruence end).
  match goal with H : s_exponential _ _ _ = _ |- _ =>
      pose proof (exponential_range _ O (1 / total_rate rs0) g) as X; rewrite H in X; simpl in X end.
  apply waiting_nonneg in X.
  apply IH; [lia|]. eapply P0. eapply nth_error_In; eauto.
Qed.

(** zero total rate *)
Lemma loop_zero rf pos dwell fuel gr g rs : rf gr pos = Ok rs -> rs <> [] -> total_rate rs = 0 ->
  (0 < dwell)%Z ->
  let e := exposure_loop s (S fuel) rf pos dwell 0%Z gr g in
  e_result e = (if (dwell <? 3600000000)%Z then Ok tt else Raise ValueError) /\
  e_grid e = gr /\ e_transitions e = [].
Proof.
  intros E N T D. cbv zeta. loop; simpl; try congruence; try lia;
  (match goal with H : rf gr pos = Ok ?r |- _ => tryif constr_eq r rs then fail else (assert (r = rs) by congruence; subst r) end);
  try lra; repeat split; auto.
  - rewrite (proj2 (Z.ltb_ge _ _)) by lia; auto.
  - rewrite (proj2 (Z.ltb_lt _ _)) by lia; auto.
Qed.

(** divergence with tiny draws *)
Lemma loop_diverges rf pos (I : grid -> Prop) dwell : sampler_ok s ->
  well_behaved rf pos I -> (forall g rs, I g -> rf g pos = Ok rs -> 0 < total_rate rs) ->
  (forall sc g, fst (s_exponential s sc g) <= / 2000000) -> (0 < dwell)%Z ->
  forall fuel gr g, I gr ->
  e_result (exposure_loop s fuel rf pos dwell 0%Z gr g) = OutOfFuel.
Proof.
  intros O W Pt Tn Hd. induction fuel as [|fuel IH]; intros gr g Hi;
  destruct (W gr Hi) as (rs0 & E0 & N0 & P0);
  (assert (T0 : 0 < total_rate rs0) by (eapply Pt; eauto));
  loop; simpl; auto; try lia; try congruence;
  (match goal with H : rf gr pos = Ok ?r |- _ => tryif constr_eq r rs0 then fail else (assert (r = rs0) by congruence; subst r) end);
  try lra.
  all: match goal with H : s_exponential _ _ _ = _ |- _ =>
      pose proof (exponential_range _ O (1 / total_rate rs0) g) as X; rewrite H in X; simpl in X;
      pose proof (Tn (1 / total_rate rs0) g) as Y; rewrite H in Y; simpl in Y end;
    pose proof (waiting_zero _ (conj X Y)) as Wz; try lia.
  all: destruct (choice_in_range rs0 g1 O ltac:(assumption)) as (C1 & C2 & g' & r1 & C3 & C4);
    [intros a b Hab; destruct (P0 a b Hab) as (? & ? & ?); auto|].
  all: try match goal with H : _ \/ choice_tolerance < _ |- _ =>
     exfalso; destruct H as [(y & Hy & Ny)|H];
     [apply C1 in Hy; lra|fold p in C2; rewrite C2 in H;
      replace (1 - 1) with 0 in H by ring; rewrite Rabs_R0 in H; pose proof tolerance_nonneg; lra] end.
  all: try (match goal with H : s_choice_p _ _ _ = _, H' : nth_error _ _ = None |- _ =>
     exfalso; fold p in C3; rewrite H in C3; simpl in C3; congruence end).
  rewrite Wz. apply IH. eapply P0. eapply nth_error_In; eauto.
Qed.
(** a first draw inside the exposure is a transition *)
Lemma loop_first_hop rf pos (I : grid -> Prop) dwell : sampler_ok s ->
  well_behaved rf pos I -> (forall g rs, I g -> rf g pos = Ok rs -> 0 < total_rate rs) ->
  (forall sc g, (waiting (fst (s_exponential s sc g)) <= dwell)%Z) -> (0 < dwell)%Z ->
  forall fuel gr g, I gr ->
  e_transitions (exposure_loop s (S fuel) rf pos dwell 0%Z gr g) <> [].
Proof.
  intros O WB Pos Dr Dw fuel gr g Ig.
  destruct (WB gr Ig) as (rs & Er & Nn & Hrs). pose proof (Pos gr rs Ig Er) as Tp.
  apply loop_cases; try (intros; exfalso; lia); try (intros; exfalso; congruence);
    try (intros _ rs' Er' ; rewrite Er in Er'; injection Er' as <-; intros; exfalso; lra);
    try (intros _ rs' f' _ Er' ; rewrite Er in Er'; injection Er' as <-; intros; exfalso; lra).
  - intros _ rs' f' Ef Er' _. destruct (s_exponential s (1 / total_rate rs') g) as [x g1] eqn:Ex.
    intros W. exfalso. specialize (Dr (1 / total_rate rs') g). rewrite Ex in Dr. simpl in Dr. lia.
  - intros _ rs' Er' _. rewrite Er in Er'; injection Er' as <-. destruct (s_exponential s _ g) as [x g1].
    intros _ p [(y & Hy & Ly)|T]; exfalso; destruct (choice_in_range rs g1 O Tp) as (C1 & C2 & _);
      try (intros a b Hab; apply (Hrs a b Hab)).
    + specialize (C1 y Hy). lra.
    + fold p in C2. rewrite C2 in T. rewrite Rminus_diag_eq in T by reflexivity. rewrite Rabs_R0 in T.
      pose proof tolerance_nonneg. lra.
  - intros _ rs' Er' _. rewrite Er in Er'; injection Er' as <-. destruct (s_exponential s _ g) as [x g1].
    intros _ p _ _. destruct (choice_in_range rs g1 O Tp) as (C1 & C2 & gr' & r' & Hn & _).
    { intros a b Hab. apply (Hrs a b Hab). }
    fold p in Hn. destruct (s_choice_p s p g1) as [i g2]. simpl in Hn. congruence.
  - intros _ rs' f' Ef Er' _. destruct (s_exponential s _ g) as [x g1].
    intros _ p _ _. destruct (s_choice_p s p g1) as [i g2]. intros. simpl. discriminate.
Qed.

End Exposure.

(** competing exponential clocks *)
Lemma loop_clocks {G} (s : sampler G) fuel rf pos dwell : forall elapsed gr g l,
  let e := exposure_loop (recording s) fuel rf pos dwell elapsed gr (g, l) in
  e_result e = Ok tt ->
  exists ds g', e_rng e = (g', l ++ ds) /\
    clocks (fun gr rs => rf gr pos = Ok rs) dwell elapsed gr ds (e_transitions e) (e_grid e).
Proof.
  induction fuel as [|fuel IH]; intros elapsed gr g l; cbv zeta; apply loop_cases; intros;
   repeat match goal with
   | |- let '(_, _) := s_exponential (recording s) ?sc (?g, ?l) in _ =>
      cbn [recording s_exponential fst snd];
      let x := fresh "x" in let g1 := fresh "g1" in
      destruct (s_exponential s sc g) as [x g1] eqn:?
   | |- let '(_, _) := s_choice_p (recording s) ?p (?g, ?l) in _ =>
      cbn [recording s_choice_p fst snd];
      let i := fresh "i" in let g2 := fresh "g2" in
      destruct (s_choice_p s p g) as [i g2] eqn:?
   | |- forall _, _ => intro
   | |- let _ := _ in _ => intro
   end; try discriminate;
   repeat match goal with H : S _ = S _ |- _ => injection H as H; subst end.
  - exists [], g. simpl. rewrite app_nil_r. split; auto. constructor; auto.
  - exists [], g. simpl. rewrite app_nil_r. split; auto. constructor; auto.
  - simpl. destruct (s_exponential s 0 g) as [x g'] eqn:X. simpl. exists [Waited 0 x], g'. split; auto.
    eapply clocks_never; eauto.
  - simpl. eexists [_], _. split; [reflexivity|]. eapply clocks_too_late; eauto.
  - simpl in *. destruct (IH _ _ _ _ H7) as (ds & g' & E & C).
    exists (Waited (1 / total_rate rs) x :: Chose (map (fun r => f32 (snd r) / total_rate rs) rs) i :: ds), g'. split.
    + rewrite E. rewrite <- !app_assoc. reflexivity.
    + eapply clocks_hop; eauto.
Qed.

Lemma loop_not_runtime {G} (s : sampler G) fuel rf pos dwell :
  (forall gr, rf gr pos <> Raise RuntimeError) ->
  forall elapsed gr g, e_result (exposure_loop s fuel rf pos dwell elapsed gr g) <> Raise RuntimeError.
Proof.
  intros H. induction fuel as [|fuel IH]; intros elapsed gr g; cbn [exposure_loop].
  - destruct (negb _); simpl; discriminate.
  - destruct (negb _); [simpl; discriminate|]. specialize (H gr).
    destruct (rf gr pos) as [[|r0 rs]|e|]; try (simpl; congruence).
    unfold draw_seconds. destruct (Rltb _ 0); [simpl; discriminate|].
    destruct (Reqb (total_rate (r0 :: rs)) 0).
    + destruct (_ <=? _)%Z; [simpl; discriminate|apply IH].
    + destruct (s_exponential s _ g) as [x g1]. destruct (_ <=? _)%Z; [|apply IH].
      unfold rng_choice_p. destruct (existsb _ _); [simpl; discriminate|]. destruct (Rltb _ _); [simpl; discriminate|].
      destruct (s_choice_p s _ g1) as [i g2].
      destruct (nth_error _ i) as [[gr' r']|]; [|simpl; discriminate]. simpl. apply IH.
Qed.

Lemma recording_loop {G} (s : sampler G) fuel rf pos dwell : forall elapsed gr g l,
  let e := exposure_loop (recording s) fuel rf pos dwell elapsed gr (g, l) in
  let e' := exposure_loop s fuel rf pos dwell elapsed gr g in
  e_result e' = e_result e /\ e_grid e' = e_grid e /\ e_rng e' = fst (e_rng e) /\ e_transitions e' = e_transitions e.
Proof.
  induction fuel as [|fuel IH]; intros elapsed gr g l; cbn [exposure_loop].
  - destruct (negb _); simpl; auto.
  - destruct (negb _); [simpl; auto|].
    destruct (rf gr pos) as [[|r0 rs]| |]; try (simpl; auto; fail).
    unfold draw_seconds. destruct (Rltb _ 0); [simpl; auto|].
    destruct (Reqb (total_rate (r0 :: rs)) 0) eqn:Ez.
    + cbn [s_exponential recording fst snd].
      destruct (s_exponential s 0 g) as [x g1]. cbn [fst snd].
      destruct (_ <=? _)%Z; [simpl; auto|apply IH].
    + cbn [s_exponential recording fst snd].
      destruct (s_exponential s _ g) as [x g1]. cbn [fst snd].
      destruct (_ <=? _)%Z; [|apply IH].
      unfold rng_choice_p. destruct (existsb _ _); [simpl; auto|]. destruct (Rltb _ _); [simpl; auto|].
      cbn [s_choice_p recording fst snd]. destruct (s_choice_p s _ g1) as [i g2].
      destruct (nth_error _ i) as [[gr' r']|]; [|simpl; auto].
      destruct (IH (elapsed + td_seconds (Rmin x 3600))%Z gr' g2 (l ++ [Waited (1 / total_rate (r0 :: rs)) x] ++ [Chose (map (fun r => f32 (snd r) / total_rate (r0 :: rs)) (r0 :: rs)) i])) as (H1 & H2 & H3 & H4).
      rewrite app_assoc in *. cbn [e_result e_grid e_rng e_transitions add_transition].
      repeat split; auto. f_equal. auto.
Qed.
