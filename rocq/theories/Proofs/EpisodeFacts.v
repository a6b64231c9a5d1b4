(** Facts about environments around a sheet: what is in view, and what the
    states of such an environment satisfy. *)
From Coq Require Import Reals ZArith List Bool Lia Lra Arith Psatz.
From Verif Require Import Base.Prelude Base.Rounding Base.Random Model.Constants Model.Geometry Model.MicroscopeUtils
  Model.Graphene Model.Simulator Model.ActionAdapters Model.Goals Model.FeatureConstructors Model.Environment
  Spec.Grids Spec.Neighbours Spec.Lattice Spec.Material Spec.MaterialRuns Spec.Simulation Spec.Acting Spec.Episodes
  Proofs.BaseFacts Proofs.FovFacts Proofs.GeometryFacts Proofs.MaterialFacts Proofs.LatticeFacts Proofs.RateFacts Proofs.SheetFacts
  Proofs.CanonicalFacts Proofs.ViewFacts Proofs.SimulatorFacts Proofs.SimulatorRuns
  Proofs.SimulatorHistories Proofs.ActingFacts Proofs.EnvironmentFacts.
Import ListNotations.
Open Scope R_scope.

(** * Four atoms in view *)
Lemma honeycomb_shift x y dx dy : honeycomb x y -> Z.even (dx + dy) = true ->
  ((x + dx) mod 3 <> 0)%Z -> honeycomb (x + dx) (y + dy).
Proof.
  intros (P & _) E M. split; auto. replace (x + dx + (y + dy))%Z with (x + y + (dx + dy))%Z by ring.
  rewrite Z.even_add, P, E. reflexivity.
Qed.

Lemma sqrt3_bounds : 1732 / 1000 < sqrt 3 < 1733 / 1000.
Proof. pose proof sqrt3_sq. pose proof sqrt3_pos. nra. Qed.

Lemma row_fits n y y' : on_sheet n 1 y \/ (exists x, on_sheet n x y) -> (0 <= y')%Z -> (y' <= y)%Z \/ (4 <= n)%nat /\ (y' <= 3)%Z \/ (3 <= n)%nat /\ (y' <= 2)%Z ->
  (IZR y' + 1) * (sqrt 3 / 2) <= INR n.
Proof.
  intros H Hy C. assert (S : exists x, on_sheet n x y) by (destruct H; eauto). destruct S as (x & _ & _ & _ & S).
  pose proof sqrt3_bounds as B.
  destruct C as [C|[(Hn & C)|(Hn & C)]].
  - apply IZR_le in C. nra.
  - apply IZR_le in C. apply le_INR in Hn. simpl in Hn. nra.
  - apply IZR_le in C. apply le_INR in Hn. simpl in Hn. nra.
Qed.

Lemma small_rows n x y : on_sheet n x y -> (n = 3)%nat -> (y <= 2)%Z.
Proof.
  intros (_ & _ & _ & S) ->. simpl in S. pose proof sqrt3_bounds as B.
  destruct (Z.le_gt_cases y 2) as [|K]; auto. exfalso.
  assert (3 <= y)%Z as K' by lia. apply IZR_le in K'. nra.
Qed.

Definition close (x y x' y' : Z) : Prop := (0 < (x - x') * (x - x') + 3 * ((y - y') * (y - y')) <= 27)%Z.

Lemma three_close n x y : (3 <= n)%nat -> on_sheet n x y ->
  exists x1 y1 x2 y2 x3 y3, on_sheet n x1 y1 /\ on_sheet n x2 y2 /\ on_sheet n x3 y3 /\
    close x y x1 y1 /\ close x y x2 y2 /\ close x y x3 y3 /\
    (x1, y1) <> (x2, y2) /\ (x1, y1) <> (x3, y3) /\ (x2, y2) <> (x3, y3).
Proof.
  intros Hn S. pose proof S as (Hc & Hx & Hy & Hr).
  assert (Ne : exists e, (e = 1 \/ e = -1)%Z /\ (0 <= x + 3 * e < 2 * Z.of_nat n)%Z).
  { destruct (Z.le_gt_cases x 2); [exists 1%Z|exists (-1)%Z]; lia. }
  destruct Ne as (e & He & Hxe).
  assert (M3 : (x mod 3 = 1 \/ x mod 3 = 2)%Z) by (destruct Hc; pose proof (Z.mod_pos_bound x 3); lia).
  pose proof (Z.div_mod x 3 ltac:(lia)) as Dx.
  assert (Ond : forall dx dy, Z.even (dx + dy) = true -> ((x + dx) mod 3 <> 0)%Z -> (0 <= x + dx < 2 * Z.of_nat n)%Z ->
     (0 <= y + dy)%Z -> (y + dy <= y)%Z \/ (4 <= n)%nat /\ (y + dy <= 3)%Z \/ (3 <= n)%nat /\ (y + dy <= 2)%Z -> on_sheet n (x + dx) (y + dy)).
  { intros dx dy P M B Hy' Rw. split; [apply honeycomb_shift; auto|]. split; [auto|]. split; [auto|].
    apply (row_fits n y); eauto. }
  assert (Md : forall k, (((x + k) mod 3) = ((x mod 3 + k) mod 3))%Z) by (intros; rewrite Zplus_mod_idemp_l; reflexivity).
  assert (Cases : (exists f, (f = 1 \/ f = -1)%Z /\ (0 <= y + 2 * f)%Z /\ (0 <= y + f)%Z /\
       ((y + 2 * f <= y)%Z \/ (4 <= n)%nat /\ (y + 2 * f <= 3)%Z \/ (3 <= n)%nat /\ (y + 2 * f <= 2)%Z) /\
       ((y + f <= y)%Z \/ (4 <= n)%nat /\ (y + f <= 3)%Z \/ (3 <= n)%nat /\ (y + f <= 2)%Z)) \/ (n = 3%nat /\ y = 1%Z)).
  { destruct (Z.le_gt_cases 2 y); [left; exists (-1)%Z; lia|].
    destruct (Z.eq_dec y 0); [left; exists 1%Z; lia|].
    destruct (Nat.eq_dec n 3); [right; lia|]. left. exists 1%Z. lia. }
  destruct Cases as [(f & Hf & B1 & B2 & B3 & B4)|(-> & ->)].
  - destruct (Z.eq_dec ((x + e) mod 3) 0) as [M0|M0].
    + exists (x + 0)%Z, (y + 2 * f)%Z, (x + 3 * e)%Z, (y + f)%Z, (x + 2 * e)%Z, (y + 0)%Z.
      split; [apply Ond; auto; try lia; [destruct Hf as [->| ->]; reflexivity|rewrite Z.add_0_r; lia]|].
      split; [apply Ond; auto; [destruct Hf as [->| ->], He as [->| ->]; reflexivity|]; rewrite Md in *; destruct He as [->| ->], M3 as [-> | ->]; cbv; discriminate|].
      split; [apply Ond; auto; try lia; [destruct He as [->| ->]; reflexivity|]; rewrite Md in *; destruct He as [->| ->], M3 as [Mx|Mx]; rewrite Mx in *; cbv in *; congruence|].
      unfold close. destruct He as [->| ->], Hf as [->| ->]; repeat split; try lia; intros K; injection K; lia.
    + exists (x + 0)%Z, (y + 2 * f)%Z, (x + 3 * e)%Z, (y + f)%Z, (x + e)%Z, (y + f)%Z.
      split; [apply Ond; auto; try lia; [destruct Hf as [->| ->]; reflexivity|rewrite Z.add_0_r; lia]|].
      split; [apply Ond; auto; [destruct Hf as [->| ->], He as [->| ->]; reflexivity|]; rewrite Md in *; destruct He as [->| ->], M3 as [-> | ->]; cbv; discriminate|].
      split; [apply Ond; auto; try lia; destruct Hf as [->| ->], He as [->| ->]; reflexivity|].
      unfold close. destruct He as [->| ->], Hf as [->| ->]; repeat split; try lia; intros K; injection K; lia.
  - assert (Hx' : (x = 1 \/ x = 5)%Z).
    { destruct Hc as (P & M). simpl in Hx. assert (x = 0 \/ x = 1 \/ x = 2 \/ x = 3 \/ x = 4 \/ x = 5)%Z as K by lia.
      destruct K as [->|[->|[->|[->|[->| ->]]]]]; cbv in P; try discriminate; auto. exfalso. apply M. reflexivity. }
    assert (Hxe' : (x = 1 /\ e = 1 \/ x = 5 /\ e = -1)%Z) by (change (Z.of_nat 3) with 3%Z in Hxe; lia).
    exists (x + e)%Z, (1 + -1)%Z, (x + e)%Z, (1 + 1)%Z, (x + 3 * e)%Z, (1 + -1)%Z.
    split; [apply Ond; try lia; destruct Hxe' as [(-> & ->)|(-> & ->)]; (reflexivity || (cbv; discriminate) || lia)|].
    split; [apply Ond; try lia; destruct Hxe' as [(-> & ->)|(-> & ->)]; (reflexivity || (cbv; discriminate) || lia)|].
    split; [apply Ond; try lia; destruct Hxe' as [(-> & ->)|(-> & ->)]; (reflexivity || (cbv; discriminate) || lia)|].
    unfold close. destruct Hxe' as [(-> & ->)|(-> & ->)]; repeat split; try lia; intros K; injection K; lia.
Qed.

(** every atom of a sheet has three others within 3.75 angstroms *)
Lemma graphene_three n ps p : (3 <= n)%nat -> graphene_sheet n ps -> In p ps ->
  exists a b c, In a ps /\ In b ps /\ In c ps /\ NoDup [p; a; b; c] /\
    pdist p a <= 15 / 4 /\ pdist p b <= 15 / 4 /\ pdist p c <= 15 / 4.
Proof.
  intros Hn (sites & t & o & r & N & I & -> & _) Hp.
  apply in_map_iff in Hp as (q & <- & Hq). apply I in Hq as (x & y & -> & S).
  destruct (three_close n x y Hn S) as (x1 & y1 & x2 & y2 & x3 & y3 & S1 & S2 & S3 & C1 & C2 & C3 & N12 & N13 & N23).
  assert (In' : forall x y, on_sheet n x y -> In (turned r (padd (pscale (142 / 100) (site x y)) t))
     (map (fun p => turned r (padd (pscale (142 / 100) p) t)) sites)).
  { intros u v Suv. apply in_map_iff. exists (site u v). split; auto. apply I. eauto. }
  assert (Far : forall u v u' v', (u, v) <> (u', v') ->
     turned r (padd (pscale (142 / 100) (site u v)) t) <> turned r (padd (pscale (142 / 100) (site u' v')) t)).
  { intros u v u' v' K E. pose proof (graphene_scaled t r (site u v) (site u' v')) as D. rewrite E, pdist_self in D.
    assert (site u v = site u' v') by (apply pdist_zero; lra). apply site_inj in H. apply K. f_equal; tauto. }
  assert (Near : forall u v, close x y u v ->
     pdist (turned r (padd (pscale (142 / 100) (site x y)) t)) (turned r (padd (pscale (142 / 100) (site u v)) t)) <= 15 / 4).
  { intros u v K. rewrite graphene_scaled. unfold pdist, pnorm. rewrite site_dist.
    apply Rle_trans with (142 / 100 * sqrt (264 / 100 * (264 / 100))).
    - apply Rmult_le_compat_l; [lra|]. apply sqrt_le_1_alt. destruct K as (_ & K). apply IZR_le in K. lra.
    - rewrite sqrt_square; lra. }
  exists (turned r (padd (pscale (142 / 100) (site x1 y1)) t)),
         (turned r (padd (pscale (142 / 100) (site x2 y2)) t)),
         (turned r (padd (pscale (142 / 100) (site x3 y3)) t)).
  assert (P : forall u v, close x y u v -> (x, y) <> (u, v)).
  { intros u v (K & _) E. injection E as <- <-. lia. }
  split; [auto|]. split; [auto|]. split; [auto|]. split; [|auto].
  pose proof (Far _ _ _ _ (P _ _ C1)). pose proof (Far _ _ _ _ (P _ _ C2)). pose proof (Far _ _ _ _ (P _ _ C3)).
  pose proof (Far _ _ _ _ N12). pose proof (Far _ _ _ _ N13). pose proof (Far _ _ _ _ N23).
  constructor; [simpl; intuition congruence|]. constructor; [simpl; intuition congruence|].
  constructor; [simpl; intuition congruence|]. constructor; [simpl; tauto|constructor].
Qed.

Lemma pdist_box p q r : pdist p q <= r -> - r <= px p - px q <= r /\ - r <= py p - py q <= r.
Proof.
  intros H. unfold pdist, pnorm, psq, psub in H; cbn [px py] in H.
  generalize dependent (px p - px q). generalize dependent (py p - py q). intros v u H.
  assert (Hr : 0 <= r) by (eapply Rle_trans; [apply sqrt_pos|exact H]).
  assert (Hs : 0 <= u * u + v * v) by nra.
  assert (K : u * u + v * v <= r * r).
  { rewrite <- (sqrt_sqrt _ Hs). apply Rmult_le_compat; auto; apply sqrt_pos. }
  split; split; nra.
Qed.

(** an observation that shows the silicon in the middle half of a square of
    at least 15 angstroms *)
Record pictures (gr : grid) (si : pt) (a : R) (obs : observation) : Prop := {
  pic_silicon : silicon_at gr si;
  pic_square : square (o_fov obs) a;
  pic_size : 15 <= a <= 30;
  pic_safe : safe (relative_to (o_fov obs) si);
  pic_shows : shows (o_fov obs) gr (o_grid obs)
}.

Lemma pictures_proper gr si a obs : pictures gr si a obs -> proper (o_fov obs).
Proof. intros [_ [H1 H2] S _ _]. split; lra. Qed.
Lemma pictures_wf gr si a obs : pictures gr si a obs -> wf_grid (o_grid obs).
Proof. intros [_ _ _ _ (W & _)]. exact W. Qed.
Lemma pictures_inside gr si a obs : pictures gr si a obs -> inside (lower_left (o_fov obs)) (upper_right (o_fov obs)) 0 si.
Proof. intros [_ Sq S Sf _]. eapply safe_inside; eauto. lra. Qed.
Lemma pictures_lone gr si a obs : pictures gr si a obs -> lone_silicon (o_grid obs) (relative_to (o_fov obs) si).
Proof.
  intros P. apply lone_silicon_iff; [eapply pictures_wf; eauto|]. destruct P as [D Sq S Sf Sh].
  apply (shows_silicon _ _ _ _ Sh D). eapply safe_inside; eauto. lra.
Qed.

Lemma safe_margin f a p q : square f a -> 15 <= a -> safe (relative_to f p) -> pdist p q <= 15 / 4 ->
  inside (lower_left f) (upper_right f) 0 q.
Proof.
  intros [H1 H2] Ha [(A1 & A2) (B1 & B2)] D. apply pdist_box in D as [D1 D2].
  unfold relative_to in *; simpl in *. rewrite H1 in *. rewrite H2 in *.
  assert (T : forall u l, (1 / 4 <= (u - l) / a -> l + a / 4 <= u) /\ ((u - l) / a <= 3 / 4 -> u <= l + 3 * a / 4)).
  { intros u l. assert (E : (u - l) / a * a = u - l) by (field; lra). split; intros K; nra. }
  destruct (T (px p) (px (lower_left f))) as [T1 T2]. destruct (T (py p) (py (lower_left f))) as [T3 T4].
  specialize (T1 A1). specialize (T2 A2). specialize (T3 B1). specialize (T4 B2).
  unfold inside. lra.
Qed.

Lemma four_in_view n ps gr si a obs : (3 <= n)%nat -> graphene_sheet n ps -> doped_sheet ps gr ->
  pictures gr si a obs -> (4 <= length (positions (o_grid obs)))%nat.
Proof.
  intros Hn Gs (Ep & _) P. destruct P as [(k & D & Ek) Sq S Sf (W & sel & Hsel & F2)].
  rewrite Ep in Ek. pose proof (nth_error_In _ _ Ek) as Hp.
  destruct (graphene_three n ps si Hn Gs Hp) as (b & c & d & Hb & Hc & Hd & N & D1 & D2 & D3).
  assert (Wg : wf_grid gr) by apply D.
  assert (At : forall q, In q ps -> exists z, In (q, z) (atoms gr)).
  { intros q Hq. rewrite <- Ep in Hq. apply In_nth_error in Hq as (i & Hi).
    destruct (nth_error (numbers gr) i) as [z|] eqn:Ez.
    - exists z. apply (nth_error_In _ i). unfold atoms. apply nth_error_combine. auto.
    - exfalso. apply nth_error_None in Ez. unfold wf_grid in Wg. assert (i < length (positions gr))%nat by (apply nth_error_Some; congruence). lia. }
  assert (Sel : forall q, In q ps -> pdist si q <= 15 / 4 -> In q (map fst sel)).
  { intros q Hq Dq. destruct (At q Hq) as (z & Hz). apply in_map_iff. exists (q, z). split; auto.
    apply (selects_In _ _ _ Hsel). split; auto. simpl. eapply safe_margin; eauto. lra. }
  assert (L : (length [si; b; c; d] <= length (map fst sel))%nat).
  { apply NoDup_incl_length; auto. intros q [<-|[<-|[<-|[<-|[]]]]]; apply Sel; auto. rewrite pdist_self. lra. }
  rewrite map_length in L. apply Forall2_len in F2. unfold atoms in F2. rewrite combine_length in F2. unfold wf_grid in W. simpl in L. lia.
Qed.

(** * The simulator inside *)
Section Inside.
Context {G : Type}.
Variable s : sampler G.
Variable render : @renderer G.

Lemma reachable_perform rf cols d sim r g : reachable s render rf cols d sim ->
  reachable s render rf cols d (out_sim (perform s render r sim g)).
Proof. intros (os & h & Hh). exists os. eexists. eapply history_snoc; eauto. Qed.

Lemma reachable_after_reset rf cols d sim b g : reachable s render rf cols d sim ->
  reachable s render rf cols d (out_sim (sim_do_reset s render b sim g)).
Proof. intros H. rewrite <- (proj1 (perform_reset s render b sim g)). apply reachable_perform; auto. Qed.
Lemma reachable_after_step rf cols d sim fuel cs b g : reachable s render rf cols d sim ->
  reachable s render rf cols d (out_sim (step_and_image s render fuel cs b sim g)).
Proof. intros H. rewrite <- (proj1 (perform_step s render fuel cs b sim g)). apply reachable_perform; auto. Qed.

Lemma reachable_ready rf cols d sim : sampler_ok s -> (2 <= cols)%nat -> hopping rf ->
  reachable s render rf cols d sim -> sim_reset sim = true ->
  exists ps gr f a prm, ready sim ps gr f a prm /\ graphene_sheet cols ps.
Proof.
  intros O C H (os & h & Hh) E. destruct (reachable_inv s render rf cols d os h sim O C H Hh) as [_ _ _ [(F & _)|(ps & gr & f & a & prm & Rd & Sh)]].
  - congruence.
  - exists ps, gr, f, a, prm. split; auto. apply sheet_of_graphene; auto.
Qed.
Lemma reachable_config rf cols d sim : sampler_ok s -> (2 <= cols)%nat -> hopping rf ->
  reachable s render rf cols d sim -> m_rate_function (sim_material sim) = rf /\ m_columns (sim_material sim) = cols /\ sim_image_duration sim = d.
Proof.
  intros O C H (os & h & Hh). destruct (reachable_inv s render rf cols d os h sim O C H Hh) as [I1 I2 I3 _]. auto.
Qed.

Lemma sim_reset_pictures rf cols d sim b g obs : sampler_ok s -> (2 <= cols)%nat -> hopping rf ->
  reachable s render rf cols d sim ->
  let o := sim_do_reset s render b sim g in
  out_result o = Ok obs ->
  exists ps gr si a, m_grid (sim_material (out_sim o)) = Some gr /\ graphene_sheet cols ps /\ doped_sheet ps gr /\
    pictures gr si a obs /\ o_elapsed obs = d /\ sim_fov (out_sim o) = Some (o_fov obs).
Proof.
  intros O C H Rc o E.
  destruct (reachable_reset s render rf cols d sim b g obs O C H Rc E) as
      (ps & gr & si & a & prm & g1 & g2 & g3 & icbs & _ & _ & _ & Es & Eg & Rd & Sh & D & Ha & Hs & Hf & _ & He & _).
  fold o in Es, Eg, Rd. exists ps, gr, si, a. split; [exact Eg|]. split; [apply sheet_of_graphene; auto|].
  split; [apply Rd|]. rewrite Hf. split; [|split; [auto|rewrite Es; reflexivity]]. constructor; auto; rewrite Hf; auto.
  - apply square_around_square.
  - rewrite relative_centre by lra. unfold safe; simpl; lra.
Qed.

Lemma sim_step_pictures rf cols d sim fuel cs b g obs : sampler_ok s -> (2 <= cols)%nat -> hopping rf ->
  reachable s render rf cols d sim ->
  let o := step_and_image s render fuel cs b sim g in
  out_result o = Ok obs ->
  exists ps gr si a, m_grid (sim_material (out_sim o)) = Some gr /\ graphene_sheet cols ps /\ doped_sheet ps gr /\
    pictures gr si a obs /\
    (o_elapsed obs = zsum (map c_dwell cs) + d \/ o_elapsed obs = zsum (map c_dwell cs) + 2 * d)%Z /\
    sim_fov (out_sim o) = Some (o_fov obs).
Proof.
  intros O C H Rc o E.
  destruct (reachable_step s render rf cols d sim fuel cs b g obs O C H Rc E) as
      (ps & gr & f & a & prm & cbs & Rd & St & _ & _ & Ed & _).
  fold o in St.
  assert (Rs : sim_reset (out_sim o) = true) by (destruct St; reflexivity).
  destruct (reachable_ready rf cols d (out_sim o) O C H) as (ps' & gr2 & f2 & a2 & prm2 & Rd2 & Gs); auto.
  { apply reachable_after_step; auto. }
  exists ps', gr2. destruct Rd.
  destruct St as [m' g1 gr' si obs g' cbs icbs B Hg' Hsi Hsafe Hf Hsh Hc Hl He Hp
                 |m' g1 gr' si f' obs g' cbs icbs B Hg' Hsi Hsafe Hf' Hf Hsh Hc Hl He Hp].
  - assert (gr2 = gr') by (destruct Rd2 as [_ _ K _ _ _ _ _ _ _]; cbn in K; congruence). subst gr2.
    exists si, a. split; [exact Hg'|]. split; [auto|]. split; [apply Rd2|]. split; [|split; [left; rewrite He, Ed; reflexivity|cbn; congruence]].
    constructor; auto; rewrite Hf; auto.
  - assert (gr2 = gr') by (destruct Rd2 as [_ _ K _ _ _ _ _ _ _]; cbn in K; congruence). subst gr2.
    exists si, a. split; [exact Hg'|]. split; [auto|]. split; [apply Rd2|]. split; [|split; [right; rewrite He, Ed; unfold timedelta in *; lia|cbn; congruence]].
    constructor; auto; rewrite Hf; subst f'; auto.
    + apply square_around_square.
    + rewrite relative_centre by lra. unfold safe; simpl; lra.
Qed.

Lemma pictured_image b prm obs g g' cbs : pictured render b prm obs g g' cbs -> (b = true <-> o_image obs <> None).
Proof.
  unfold pictured. destruct b.
  - intros (i & _ & -> & _). split; auto. discriminate.
  - intros (-> & _). split; [discriminate|tauto].
Qed.
Lemma sim_reset_image rf cols d sim b g obs : sampler_ok s -> (2 <= cols)%nat -> hopping rf ->
  reachable s render rf cols d sim -> out_result (sim_do_reset s render b sim g) = Ok obs -> (b = true <-> o_image obs <> None).
Proof.
  intros O C H Rc E.
  destruct (reachable_reset s render rf cols d sim b g obs O C H Rc E) as
      (ps & gr & si & a & prm & g1 & g2 & g3 & icbs & _ & _ & _ & _ & _ & _ & _ & _ & _ & _ & _ & _ & _ & _ & Pc & _).
  eapply pictured_image; eauto.
Qed.
Lemma sim_step_image rf cols d sim fuel cs b g obs : sampler_ok s -> (2 <= cols)%nat -> hopping rf ->
  reachable s render rf cols d sim -> out_result (step_and_image s render fuel cs b sim g) = Ok obs -> (b = true <-> o_image obs <> None).
Proof.
  intros O C H Rc E.
  destruct (reachable_step s render rf cols d sim fuel cs b g obs O C H Rc E) as
      (ps & gr & f & a & prm & cbs & Rd & St & _).
  destruct St; eapply pictured_image; eauto.
Qed.

(** a reset of a sheet raises only if the image cannot be rendered *)
Lemma sim_reset_total rf cols d sim b g : sampler_ok s -> (2 <= cols)%nat -> hopping rf ->
  reachable s render rf cols d sim ->
  (b = true -> forall og f prm g, exists i g', render og f prm g = (Ok i, g')) ->
  exists obs, out_result (sim_do_reset s render b sim g) = Ok obs.
Proof.
  intros O C H Rc Rn. destruct (reachable_config rf cols d sim O C H Rc) as (_ & Ec & _).
  destruct (reset_run s render b sim g O ltac:(lia)) as
    (m' & gr & ps & i & si & a & prm & f & g1 & g2 & g3 & grps & E1 & E2 & E3 & E4 & E5 & E6 & E7 & E8 & E9 & E10 & E11 & E12 & E13 & E14 & E15 & E16).
  destruct E16 as [(obs & icbs & Er & _)|(r & Eb & En & Nr & _)]; [eauto|].
  exfalso. destruct (Rn Eb (view gr f) f prm g3) as (im & g' & K). rewrite En in K. injection K as -> _. eapply Nr; eauto.
Qed.

End Inside.

(** * The states of an environment *)
Section Inv.
Context {G St Goal F : Type}.
Variable s : sampler G.
Variable render : @renderer G.
Variable adapter : action_adapter G St.
Variable features : feature_constructor Goal F.
Variable goal_m : goal_methods G Goal.
Variable fuel : nat.
Variable rf : rate_function.
Variable cols : nat.
Variable d : timedelta.

Record env_inv (e : @env G St Goal) : Prop := {
  ei_sim : reachable s render rf cols d (env_sim e);
  ei_seen : exists si, wf_grid (o_grid (env_last_observation e)) /\ proper (o_fov (env_last_observation e)) /\
    lone_silicon (o_grid (env_last_observation e)) si;
  ei_ready : env_requires_reset e = false -> sim_reset (env_sim e) = true
}.

Hypothesis O : sampler_ok s.
Hypothesis C : (2 <= cols)%nat.
Hypothesis H : hopping rf.

Lemma pictures_seen gr si a obs : pictures gr si a obs -> exists si, wf_grid (o_grid obs) /\ proper (o_fov obs) /\
    lone_silicon (o_grid obs) si.
Proof.
  intros P. eexists. split; [eapply pictures_wf; eauto|]. split; [eapply pictures_proper; eauto|eapply pictures_lone; eauto].
Qed.

Lemma reset_keeps_ready b sim g : reachable s render rf cols d sim -> sim_reset (out_sim (sim_do_reset s render b sim g)) = true.
Proof.
  intros Rc. destruct (reachable_config s render rf cols d sim O C H Rc) as (_ & Ec & _).
  destruct (reset_ready s render b sim g O ltac:(lia)) as ((ps & gr & f & a & prm & Rd & _) & _). apply Rd.
Qed.
Lemma step_keeps_ready cs b sim g : reachable s render rf cols d sim -> sim_reset sim = true ->
  sim_reset (out_sim (step_and_image s render fuel cs b sim g)) = true.
Proof.
  intros Rc Rs. destruct (reachable_config s render rf cols d sim O C H Rc) as (Er & _ & _).
  destruct (reachable_ready s render rf cols d sim O C H Rc Rs) as (ps & gr & f & a & prm & Rd & _).
  destruct (step_ready s render fuel cs b sim g ps gr f a prm Rd ltac:(rewrite Er; auto)) as ((gr' & f' & Rd') & _). apply Rd'.
Qed.

Lemma env_reset_inv e : env_inv e -> env_inv (eo_env (env_reset s render adapter features goal_m e)).
Proof.
  intros [I1 I2 I3]. unfold env_reset.
  pose proof (reachable_after_reset s render rf cols d (env_sim e) (fc_requires_image features) (env_rng e) I1) as R1.
  pose proof (reset_keeps_ready (fc_requires_image features) (env_sim e) (env_rng e) I1) as R2.
  pose proof (fun obs => sim_reset_pictures s render rf cols d (env_sim e) (fc_requires_image features) (env_rng e) obs O C H I1) as Pic.
  cbv zeta in Pic.
  set (o := sim_do_reset s render (fc_requires_image features) (env_sim e) (env_rng e)) in *. clearbody o.
  destruct (out_result o) as [obs|x|] eqn:Eo; cbn [eo_env]; [|constructor; auto|constructor; auto].
  destruct (Pic obs eq_refl) as (ps & gr & si & a & _ & _ & _ & Pi & _).
  assert (Fin : forall g ga st goal, env_inv (mkenv g ga (out_sim o) st goal obs false)).
  { intros. constructor; cbn; auto. eapply pictures_seen; eauto. }
  assert (Es : exists g ga st, reset_adapter adapter
     (mkenv (env_rng (mkenv (out_rng o) (env_adapter_rng e) (out_sim o) (env_adapter e) (env_goal e) (env_last_observation e) false))
        (env_adapter_rng (mkenv (out_rng o) (env_adapter_rng e) (out_sim o) (env_adapter e) (env_goal e) (env_last_observation e) false))
        (env_sim (mkenv (out_rng o) (env_adapter_rng e) (out_sim o) (env_adapter e) (env_goal e) (env_last_observation e) false))
        (env_adapter (mkenv (out_rng o) (env_adapter_rng e) (out_sim o) (env_adapter e) (env_goal e) (env_last_observation e) false))
        (env_goal (mkenv (out_rng o) (env_adapter_rng e) (out_sim o) (env_adapter e) (env_goal e) (env_last_observation e) false)) obs false)
     = mkenv g ga (out_sim o) st (env_goal e) obs false).
  { unfold reset_adapter. cbn. destruct (env_adapter_rng e) as [own|]; destruct (aa_reset _ _ _); eauto. }
  destruct Es as (g & ga & st & ->). cbn [env_rng env_adapter_rng env_sim env_adapter env_goal].
  destruct (gm_reset goal_m (env_goal e) obs g) as [[[[]|x|] goal] g2]; cbn [eo_env]; auto.
  destruct (fc_get_features features obs goal); cbn [eo_env]; auto.
Qed.

Lemma env_step_inv a e : env_inv e -> env_inv (eo_env (env_step s render adapter features goal_m fuel a e)).
Proof.
  intros I. destruct (env_requires_reset e) eqn:Ef; [rewrite step_auto by auto; apply env_reset_inv; auto|].
  destruct I as [I1 I2 I3]. specialize (I3 Ef). unfold env_step. rewrite Ef.
  destruct (aa_get_action adapter (env_adapter e) (env_last_observation e) a) as [[cs|x|] st]; cbn [eo_env];
    try (constructor; auto; fail).
  pose proof (reachable_after_step s render rf cols d (env_sim e) fuel cs (fc_requires_image features) (env_rng e) I1) as R1.
  pose proof (step_keeps_ready cs (fc_requires_image features) (env_sim e) (env_rng e) I1 I3) as R2.
  pose proof (fun obs => sim_step_pictures s render rf cols d (env_sim e) fuel cs (fc_requires_image features) (env_rng e) obs O C H I1) as Pic.
  cbv zeta in Pic.
  set (o := step_and_image s render fuel cs (fc_requires_image features) (env_sim e) (env_rng e)) in *. clearbody o.
  destruct (out_result o) as [obs|x|] eqn:Eo; cbn [eo_env]; [|constructor; auto|constructor; auto].
  destruct (Pic obs eq_refl) as (ps & gr & si & b & _ & _ & _ & Pi & _).
  assert (Fin : forall g ga st goal fl, env_inv (mkenv g ga (out_sim o) st goal obs fl)).
  { intros. constructor; cbn; auto. eapply pictures_seen; eauto. }
  destruct (fc_get_features features obs (env_goal e)); cbn [eo_env]; auto.
  destruct (gm_calculate goal_m (env_goal e) obs) as [[ret|x|] goal]; cbn [eo_env]; auto.
  destruct (gr_terminal ret), (gr_truncated ret); cbn [eo_env]; auto.
Qed.

Lemma lives_inv e : lives s render adapter features goal_m fuel rf cols d e -> env_inv e.
Proof.
  intros (st & goal & g & ga & L). induction L as [|z e L IH|e L IH|a e L IH|w o e L IH Hw].
  - constructor; cbn.
    + exists [], []. constructor.
    + exists pzero. split; [reflexivity|]. split; [unfold proper; simpl; lra|]. split; [reflexivity|left; reflexivity].
    + discriminate.
  - destruct IH. constructor; auto.
  - apply env_reset_inv; auto.
  - apply env_step_inv; auto.
  - destruct IH as [I1 I2 I3]. constructor; cbn; auto.
    + apply reachable_perform; auto.
    + intros K. specialize (I3 K). destruct Hw as [-> | ->]; cbn [perform]; rewrite then_ret; cbn [out_sim].
      * unfold add_observer, set_self; cbn. exact I3.
      * unfold remove_observer, then_, get_self; cbn. destruct (list_remove o (sim_observers (env_sim e))); cbn; exact I3.
Qed.

End Inv.

Lemma lived_trans {G St Goal F} (s : sampler G) render (adapter : action_adapter G St) (features : feature_constructor Goal F)
  goal_m fuel e0 e1 e2 : lived s render adapter features goal_m fuel e0 e1 -> lived s render adapter features goal_m fuel e1 e2 ->
  lived s render adapter features goal_m fuel e0 e2.
Proof. intros A B. induction B; auto using lived_start, lived_seed, lived_reset, lived_step. eapply lived_observers; eauto. Qed.

Lemma session_lived {G St Goal F} (s : sampler G) render (adapter : action_adapter G St) (features : feature_constructor Goal F)
  goal_m fuel e h e' : session (dune_environment s render adapter features goal_m fuel) e h e' ->
  lived s render adapter features goal_m fuel e e'.
Proof.
  induction 1 as [|h e1 c ts e2 Hs IH E]; [constructor|].
  destruct c; cbn in E; injection E as _ <-; [apply lived_reset|apply lived_step]; auto.
Qed.

Lemma lives_lived {G St Goal F} (s : sampler G) render (adapter : action_adapter G St) (features : feature_constructor Goal F)
  goal_m fuel rf cols d e e' : lives s render adapter features goal_m fuel rf cols d e ->
  lived s render adapter features goal_m fuel e e' -> lives s render adapter features goal_m fuel rf cols d e'.
Proof. intros (st & goal & g & ga & L) L'. exists st, goal, g, ga. eapply lived_trans; eauto. Qed.

(** every result of a session is that of a call on some state it went through *)
Lemma session_entry {E F} (en : environment E F) e h e' i c ts : session en e h e' -> nth_error h i = Some (c, ts) ->
  exists e1 e2 h1, session en e h1 e1 /\ answer en c e1 = (Ok ts, e2).
Proof.
  induction 1 as [|h e1 c' ts' e2 Hs IH Ea]; intros N; [destruct i; discriminate|].
  destruct (Nat.eq_dec i (length h)) as [->|Ni].
  - rewrite nth_error_app2, Nat.sub_diag in N by lia. injection N as -> ->. eauto.
  - apply IH. assert (i < length (h ++ [(c', ts')]))%nat by (apply nth_error_Some; congruence).
    rewrite app_length in *; simpl in *. rewrite nth_error_app1 in N by lia. auto.
Qed.

Lemma zsum_nonneg l : Forall (fun c => 0 <= c_dwell c)%Z l -> (0 <= zsum (map c_dwell l))%Z.
Proof.
  induction 1 as [|c l Hc Hl IH]; [cbv; discriminate|]. cbn [map]. unfold zsum in *. cbn [fold_right]. lia.
Qed.
