(** Facts about single calls on the simulator. *)
From Coq Require Import Reals ZArith List Bool Arith Lia Lra Sorting.Permutation Sorting.Sorted.
From Verif Require Import Base.Prelude Base.Rounding Base.Random Model.Constants Model.Geometry
  Model.MicroscopeUtils Model.Graphene Model.Simulator Model.SimulatorObservers
  Spec.Grids Spec.Neighbours Spec.Material Spec.MaterialRuns Spec.Simulation
  Proofs.BaseFacts Proofs.FovFacts Proofs.MaterialFacts Proofs.ExposureFacts Proofs.SheetFacts
  Proofs.ViewFacts.
Import ListNotations.
Open Scope R_scope.

(** * Traces *)
Definition blocks (os : list observer) (grps : list (list callback)) : trace :=
  flat_map (fun grp => flat_map (fun o => map (fun cb => (o, cb)) grp) os) grps.

Lemma blocks_app os a b : blocks os (a ++ b) = blocks os a ++ blocks os b.
Proof. apply flat_map_app. Qed.

Lemma seen_app o a b : seen o (a ++ b) = seen o a ++ seen o b.
Proof. unfold seen. rewrite filter_app, map_app. reflexivity. Qed.

Lemma seen_pairs o o' grp : seen o (map (fun cb => (o', cb)) grp) = if Nat.eqb o' o then grp else [].
Proof.
  unfold seen. induction grp as [|cb grp IH]; simpl; [destruct (Nat.eqb o' o); auto|].
  destruct (Nat.eqb o' o) eqn:E; simpl; rewrite IH; auto.
Qed.

Lemma seen_block o os grp : seen o (flat_map (fun o => map (fun cb => (o, cb)) grp) os) =
  concat (repeat grp (count_occ Nat.eq_dec os o)).
Proof.
  induction os as [|o' os IH]; [reflexivity|]. cbn [flat_map count_occ].
  rewrite seen_app, seen_pairs, IH.
  destruct (Nat.eq_dec o' o) as [->|N].
  - rewrite Nat.eqb_refl. reflexivity.
  - apply Nat.eqb_neq in N. rewrite N. reflexivity.
Qed.

Lemma perm_repeat_app {A} (g h : list A) k :
  Permutation (concat (repeat g k) ++ concat (repeat h k)) (concat (repeat (g ++ h) k)).
Proof.
  induction k as [|k IH]; simpl; auto.
  rewrite <- !app_assoc. apply Permutation_app_head.
  rewrite Permutation_app_comm, <- app_assoc. apply Permutation_app_head.
  rewrite Permutation_app_comm. exact IH.
Qed.

Lemma all_saw_blocks os grps : all_saw os (blocks os grps) (concat grps).
Proof.
  split; [|split].
  - intros o. induction grps as [|grp grps IH].
    + simpl. induction (count_occ Nat.eq_dec os o); simpl; auto.
    + change (blocks os (grp :: grps)) with
        (flat_map (fun o => map (fun cb => (o, cb)) grp) os ++ blocks os grps).
      rewrite seen_app, seen_block. cbn [concat].
      rewrite <- perm_repeat_app. apply Permutation_app_head. exact IH.
  - intros o H. induction grps as [|grp grps IH]; [reflexivity|].
    change (blocks os (grp :: grps)) with
        (flat_map (fun o => map (fun cb => (o, cb)) grp) os ++ blocks os grps).
    rewrite seen_app, seen_block, H, IH. simpl. rewrite app_nil_r. reflexivity.
  - intros o H. apply (count_occ_not_In Nat.eq_dec) in H.
    induction grps as [|grp grps IH]; [reflexivity|].
    change (blocks os (grp :: grps)) with
        (flat_map (fun o => map (fun cb => (o, cb)) grp) os ++ blocks os grps).
    rewrite seen_app, seen_block, H, IH. reflexivity.
Qed.

Lemma blocks_single (os : list observer) (cb : callback) : flat_map (fun o => map (fun cb => (o, cb)) [cb]) os = map (fun o => (o, cb)) os.
Proof. induction os; simpl in *; congruence. Qed.

Lemma blocks_transitions os (ts : list (timedelta * grid)) :
  flat_map (fun t => map (fun o => (o, ObserveTransition (fst t) (snd t))) os) ts =
  blocks os (map (fun t => [ObserveTransition (fst t) (snd t)]) ts).
Proof.
  unfold blocks. induction ts as [|t ts IH]; [reflexivity|].
  cbn [flat_map map]. rewrite <- IH, <- blocks_single. reflexivity.
Qed.

Lemma concat_singletons {A B} (f : A -> B) l : concat (map (fun x => [f x]) l) = map f l.
Proof. induction l; simpl; congruence. Qed.

(** * Geometry of the field of view *)
Lemma square_proper f a : square f a -> 0 < a -> proper f.
Proof. intros [H1 H2] H. split; lra. Qed.

Lemma square_around_square c a : square (square_around c a) a.
Proof. split; simpl; field. Qed.

Lemma relative_centre c a : a <> 0 -> relative_to (square_around c a) c = mkpt (1 / 2) (1 / 2).
Proof.
  intros H. apply pt_eq; simpl.
  - replace (px c + a / 2 - (px c - a / 2)) with a by field. field; auto.
  - replace (py c + a / 2 - (py c - a / 2)) with a by field. field; auto.
Qed.

Lemma inside_iff f a p : square f a -> 0 < a ->
  (inside (lower_left f) (upper_right f) 0 p <->
   0 <= px (relative_to f p) <= 1 /\ 0 <= py (relative_to f p) <= 1).
Proof.
  intros [H1 H2] Ha. unfold inside, relative_to; simpl. rewrite H1, H2.
  assert (T : forall x l u, u - l = a -> (l - 0 <= x <= u + 0 <-> 0 <= (x - l) / a <= 1)).
  { intros x l u E. assert (Hi : 0 < / a) by (apply Rinv_0_lt_compat; auto).
    assert (Hai : a * / a = 1) by (field; lra).
    unfold Rdiv. split; intros [B C]; split.
    - apply Rmult_le_pos; lra.
    - rewrite <- Hai. apply Rmult_le_compat_r; lra.
    - destruct (Rle_or_lt l x) as [|K]; [lra|]. exfalso.
      assert ((x - l) * / a < 0 * / a) by (apply Rmult_lt_compat_r; lra). lra.
    - destruct (Rle_or_lt x u) as [|K]; [lra|]. exfalso.
      assert (a * / a < (x - l) * / a) by (apply Rmult_lt_compat_r; lra). lra. }
  rewrite (T _ _ _ H1), (T _ _ _ H2). reflexivity.
Qed.

(** the silicon in an observation *)
Lemma selects_commute {A B} (P Q : A -> Prop) (Q' : B -> Prop) (rel : A -> B -> Prop) :
  (forall a b, rel a b -> (Q a <-> Q' b)) ->
  forall l sel, selects P l sel -> forall out, Forall2 rel sel out ->
  forall k, selects Q l k -> forall k', selects Q' out k' ->
  exists l', selects P k l' /\ Forall2 rel l' k'.
Proof.
  intros HR l sel H. induction H as [|x l r Hx H IH|x l r Hx H IH]; intros out F k Hk k' Hk'.
  - inversion F; subst. inversion Hk; subst. inversion Hk'; subst. exists []. split; constructor.
  - inversion F as [|? b ? out' Hb F']; subst.
    inversion Hk; subst; inversion Hk'; subst; try (exfalso; apply HR in Hb; tauto).
    + destruct (IH _ F' _ ltac:(eassumption) _ ltac:(eassumption)) as (l' & S1 & S2).
      exists (x :: l'). split; constructor; auto.
    + eapply IH; eauto.
  - inversion Hk; subst.
    + destruct (IH _ F _ ltac:(eassumption) _ Hk') as (l' & S1 & S2).
      exists l'. split; auto. constructor; auto.
    + eapply IH; eauto.
Qed.

Lemma selects_fun' {A} (P : A -> Prop) l a b : selects P l a -> selects P l b -> a = b.
Proof. apply selects_fun. Qed.

Lemma shows_silicon f gr out si : shows f gr out -> silicon_at gr si ->
  (inside (lower_left f) (upper_right f) 0 si -> get_silicon_positions out = [relative_to f si]) /\
  (~ inside (lower_left f) (upper_right f) 0 si -> get_silicon_positions out = []).
Proof.
  intros (W & sel & Hs & F) (k & D & E). pose proof D as (Wg & _).
  destruct (silicon_positions_select gr Wg) as (l & Sl & El).
  destruct (silicon_positions_select out W) as (l' & Sl' & El').
  rewrite (silicon_positions_single gr k si D E) in El.
  destruct l as [|[q z] [|? ?]]; try discriminate. simpl in El. injection El as <-.
  destruct (selects_commute _ _ _ _ (fun a b (H : fst b = relative_to f (fst a) /\ snd b = snd a) =>
     conj (fun x : snd a = 14%Z => eq_trans (proj2 H) x) (fun x : snd b = 14%Z => eq_trans (eq_sym (proj2 H)) x))
     _ _ Hs _ F _ Sl _ Sl') as (m & Sm & Fm).
  rewrite El'. split; intros I.
  - inversion Sm; subst; simpl in *; [|tauto].
    match goal with H : selects _ [] _ |- _ => inversion H; subst end.
    inversion Fm as [|? b ? ? [Hb _] F0]; subst. inversion F0; subst. simpl. simpl in Hb. rewrite Hb. reflexivity.
  - inversion Sm; subst; simpl in *; [tauto|].
    match goal with H : selects _ [] _ |- _ => inversion H; subst end.
    inversion Fm; subst. reflexivity.
Qed.

Lemma outside_quarter_spec x : outside_quarter x = true <-> ~ (1 / 4 <= x <= 3 / 4).
Proof.
  unfold outside_quarter. rewrite orb_true_iff, !Rltb_true. lra.
Qed.

Lemma safe_dec q : {safe q} + {~ safe q}.
Proof.
  unfold safe. destruct (Rle_dec (1/4) (px q)), (Rle_dec (px q) (3/4)), (Rle_dec (1/4) (py q)), (Rle_dec (py q) (3/4));
  try (left; lra); right; lra.
Qed.

Lemma inside_dec f p : {inside (lower_left f) (upper_right f) 0 p} + {~ inside (lower_left f) (upper_right f) 0 p}.
Proof.
  unfold inside. destruct (Rle_dec (px (lower_left f) - 0) (px p)), (Rle_dec (px p) (px (upper_right f) + 0)),
   (Rle_dec (py (lower_left f) - 0) (py p)), (Rle_dec (py p) (py (upper_right f) + 0)); try (left; tauto); right; tauto.
Qed.

Lemma safe_inside f a p : square f a -> 0 < a -> safe (relative_to f p) ->
  inside (lower_left f) (upper_right f) 0 p.
Proof. intros Hs Ha H. apply (inside_iff f a); auto. unfold safe in H. lra. Qed.

Lemma safe_area_spec f a gr out si : square f a -> 0 < a -> shows f gr out -> silicon_at gr si ->
  (safe (relative_to f si) -> silicon_outside_of_safe_area out = Ok false) /\
  (~ safe (relative_to f si) -> silicon_outside_of_safe_area out = Ok true).
Proof.
  intros Hs Ha H D. destruct (shows_silicon f gr out si H D) as [H1 H2].
  unfold silicon_outside_of_safe_area. split; intros K.
  - rewrite H1 by (eapply safe_inside; eauto). f_equal.
    apply orb_false_iff. unfold safe in K. split; apply not_true_iff_false; rewrite outside_quarter_spec; lra.
  - destruct (inside_dec f si) as [I|I].
    + rewrite (H1 I). f_equal. apply orb_true_iff. rewrite !outside_quarter_spec.
      unfold safe in K.
      destruct (Rle_dec (1/4) (px (relative_to f si))), (Rle_dec (px (relative_to f si)) (3/4)); try (left; lra).
      right. lra.
    + rewrite (H2 I). reflexivity.
Qed.

(** * Calls *)
Section WithRng.
Context {G : Type}.
Variable s : sampler G.
Variable render : @renderer G.

Lemma then_Ok {A B} (x : call A) (k : A -> call B) sim (g : G) a : out_result (x sim g) = Ok a ->
  then_ x k sim g =
  mkoutcome (out_result (k a (out_sim (x sim g)) (out_rng (x sim g))))
            (out_sim (k a (out_sim (x sim g)) (out_rng (x sim g))))
            (out_rng (k a (out_sim (x sim g)) (out_rng (x sim g))))
            (out_trace (x sim g) ++ out_trace (k a (out_sim (x sim g)) (out_rng (x sim g)))).
Proof. intros E. unfold then_. rewrite E. reflexivity. Qed.

Lemma then_Raise {A B} (x : call A) (k : A -> call B) sim (g : G) e : out_result (x sim g) = Raise e ->
  then_ x k sim g = mkoutcome (Raise e) (out_sim (x sim g)) (out_rng (x sim g)) (out_trace (x sim g)).
Proof. intros E. unfold then_. rewrite E. reflexivity. Qed.

Lemma then_Fuel {A B} (x : call A) (k : A -> call B) sim (g : G) : out_result (x sim g) = OutOfFuel ->
  then_ x k sim g = mkoutcome OutOfFuel (out_sim (x sim g)) (out_rng (x sim g)) (out_trace (x sim g)).
Proof. intros E. unfold then_. rewrite E. reflexivity. Qed.

Definition aim (f : fov) (c : control) : control :=
  mkcontrol (at_relative f (c_position c)) (c_dwell c) (Some 60) (Some (1 / 10)).

Lemma apply_one_run fuel c sim g f : sim_fov sim = Some f ->
  let '(r, m', g', ts) := apply_control s fuel (sim_material sim) (aim f c) g in
  apply_one s fuel c sim g =
    mkoutcome r (with_material sim m') g'
      (blocks (sim_observers sim)
         ([ObserveApplyControl (aim f c)] :: map (fun t => [ObserveTransition (fst t) (snd t)]) ts)).
Proof.
  intros E. unfold apply_one. rewrite (then_Ok _ _ _ _ f) by (simpl; rewrite E; reflexivity).
  simpl. unfold expose_material. unfold beam_control. rewrite to_material_pt_eq.
  change (mkcontrol (at_relative f (c_position c)) (c_dwell c) (Some 60) (Some (1 / 10))) with (aim f c).
  unfold then_; cbn [notify out_result out_sim out_rng out_trace].
  destruct (apply_control s fuel (sim_material sim) (aim f c) g) as [[[r m'] g'] ts].
  cbn [out_result out_sim out_rng out_trace]. rewrite blocks_transitions.
  destruct r; reflexivity.
Qed.

(** the calls of a list of controls that end with one that does not succeed *)
Inductive broken (fuel : nat) (f : fov) (m : material) (g : G) (cs : list control)
  : res unit -> list callback -> material -> G -> Prop :=
| broken_at cs1 c cs2 cbs m1 g1 r m' g' ts :
    cs = cs1 ++ c :: cs2 ->
    beamed s fuel f m g cs1 cbs m1 g1 ->
    apply_control s fuel m1 (aim f c) g1 = (r, m', g', ts) ->
    r <> Ok tt ->
    broken fuel f m g cs r
      (cbs ++ ObserveApplyControl (aim f c) :: map (fun t => ObserveTransition (fst t) (snd t)) ts) m' g'.

Lemma apply_all_run fuel f cs : forall elapsed sim g, sim_fov sim = Some f ->
  exists m' g' grps,
    out_sim (apply_all s fuel elapsed cs sim g) = with_material sim m' /\
    out_rng (apply_all s fuel elapsed cs sim g) = g' /\
    out_trace (apply_all s fuel elapsed cs sim g) = blocks (sim_observers sim) grps /\
    ((out_result (apply_all s fuel elapsed cs sim g) = Ok (elapsed + zsum (map c_dwell cs))%Z /\
      beamed s fuel f (sim_material sim) g cs (concat grps) m' g') \/
     exists r, broken fuel f (sim_material sim) g cs r (concat grps) m' g' /\
       out_result (apply_all s fuel elapsed cs sim g) =
         match r with Ok _ => OutOfFuel | Raise e => Raise e | OutOfFuel => OutOfFuel end).
Proof.
  induction cs as [|c cs IH]; intros elapsed sim g E.
  - exists (sim_material sim), g, []. simpl. split; [destruct sim; reflexivity|].
    split; [reflexivity|]. split; [reflexivity|]. left. split; [f_equal; unfold zsum; simpl; lia|constructor].
  - cbn [apply_all]. pose proof (apply_one_run fuel c sim g f E) as O1.
    destruct (apply_control s fuel (sim_material sim) (aim f c) g) as [[[r m1] g1] ts] eqn:Ea.
    destruct r as [[]|e|].
    + rewrite (then_Ok _ _ _ _ tt) by (rewrite O1; reflexivity). rewrite O1. cbn [out_result out_sim out_rng out_trace].
      destruct (IH (elapsed + c_dwell c)%Z (with_material sim m1) g1 E) as (m' & g' & grps & S1 & R1 & T1 & C).
      exists m', g', (([ObserveApplyControl (aim f c)] :: map (fun t => [ObserveTransition (fst t) (snd t)]) ts) ++ grps).
      rewrite S1, R1, T1, blocks_app. split; [reflexivity|]. split; [reflexivity|]. split; [reflexivity|].
      rewrite concat_app. cbn [concat app]. rewrite concat_singletons.
      destruct C as [(Er & B)|(r & B & Er)].
      * left. split.
        { rewrite Er. f_equal. unfold zsum. cbn [map fold_right]. unfold timedelta in *. lia. }
        { eapply beamed_cons; eauto. }
      * right. exists r. split; [|exact Er]. destruct B as [cs1 c' cs2 cbs m2 g2 r m3 g3 ts' Ec B Eb N].
        subst cs.
        match goal with |- broken _ _ _ _ _ _ ?X _ _ => 
          replace X with ((ObserveApplyControl (aim f c) :: map (fun t => ObserveTransition (fst t) (snd t)) ts ++ cbs)
             ++ ObserveApplyControl (aim f c') :: map (fun t => ObserveTransition (fst t) (snd t)) ts')
           by (simpl; rewrite <- app_assoc; reflexivity) end.
        eapply broken_at with (cs1 := c :: cs1); [reflexivity| |exact Eb|exact N].
        eapply beamed_cons; eauto.
    + rewrite (then_Raise _ _ _ _ e) by (rewrite O1; reflexivity). rewrite O1. cbn [out_result out_sim out_rng out_trace].
      exists m1, g1. eexists. split; [reflexivity|]. split; [reflexivity|]. split; [reflexivity|].
      right. exists (Raise e). split; [|reflexivity]. cbn [concat]. rewrite concat_singletons.
      apply (broken_at fuel f (sim_material sim) g (c :: cs) [] c cs [] (sim_material sim) g (Raise e) m1 g1 ts); auto.
      * constructor.
      * discriminate.
    + rewrite then_Fuel by (rewrite O1; reflexivity). rewrite O1. cbn [out_result out_sim out_rng out_trace].
      exists m1, g1. eexists. split; [reflexivity|]. split; [reflexivity|]. split; [reflexivity|].
      right. exists OutOfFuel. split; [|reflexivity]. cbn [concat]. rewrite concat_singletons.
      apply (broken_at fuel f (sim_material sim) g (c :: cs) [] c cs [] (sim_material sim) g OutOfFuel m1 g1 ts); auto.
      * constructor.
      * discriminate.
Qed.

(** exposures keep the sheet *)
Lemma beamed_sheet fuel f m g cs cbs m' g' ps gr :
  beamed s fuel f m g cs cbs m' g' ->
  hopping (m_rate_function m) -> NoDup ps -> m_reset m = true -> m_grid m = Some gr ->
  doped_sheet ps gr ->
  exists gr', m_columns m' = m_columns m /\ m_rate_function m' = m_rate_function m /\
    m_reset m' = true /\ m_grid m' = Some gr' /\ doped_sheet ps gr'.
Proof.
  intros B. revert gr. induction B as [m g|m g c ts m1 g1 cs cbs m' g' E B IH]; intros gr H N Hr Hg D.
  - exists gr. auto.
  - destruct (apply_control_hops s fuel m _ g ps gr _ m1 g1 ts H N Hr Hg D E) as (gr1 & C1 & R1 & S1 & G1 & D1 & _).
    rewrite <- R1 in H. destruct (IH gr1 H N S1 G1 D1) as (gr' & C2 & R2 & S2 & G2 & D2).
    exists gr'. repeat split; try congruence; apply D2.
Qed.

Lemma broken_sheet fuel f m g cs r cbs m' g' ps gr :
  broken fuel f m g cs r cbs m' g' ->
  hopping (m_rate_function m) -> NoDup ps -> m_reset m = true -> m_grid m = Some gr ->
  doped_sheet ps gr ->
  exists gr', m_columns m' = m_columns m /\ m_rate_function m' = m_rate_function m /\
    m_reset m' = true /\ m_grid m' = Some gr' /\ doped_sheet ps gr'.
Proof.
  intros [cs1 c cs2 cbs1 m1 g1 r' m2 g2 ts Ec B E N'] H N Hr Hg D.
  destruct (beamed_sheet _ _ _ _ _ _ _ _ _ _ B H N Hr Hg D) as (gr1 & C1 & R1 & S1 & G1 & D1).
  rewrite <- R1 in H.
  destruct (apply_control_hops s fuel m1 _ g1 ps gr1 _ m2 g2 ts H N S1 G1 D1 E) as (gr2 & C2 & R2 & S2 & G2 & D2 & _).
  exists gr2. repeat split; try congruence; apply D2.
Qed.

Lemma doped_silicon ps gr : doped_sheet ps gr -> exists si, silicon_at gr si.
Proof.
  intros (_ & k & D). destruct (single_doped_pos gr k D) as (p & E). exists p, k. auto.
Qed.

Lemma silicon_at_fun gr p q : silicon_at gr p -> silicon_at gr q -> p = q.
Proof.
  intros (k & D & E) (k' & D' & E'). assert (k = k') by (eapply single_doped_unique; eauto). congruence.
Qed.

Lemma get_silicon_position_ok m gr si : m_reset m = true -> m_grid m = Some gr -> silicon_at gr si ->
  get_silicon_position m = Ok [px si; py si].
Proof.
  intros H1 H2 (k & D & E). unfold get_silicon_position, reset_grid. rewrite H1, H2. simpl.
  rewrite (silicon_positions_single gr k si D E). reflexivity.
Qed.

Lemma centered_fov_run a sim (g : G) gr si :
  m_reset (sim_material sim) = true -> m_grid (sim_material sim) = Some gr -> silicon_at gr si ->
  centered_fov a sim g = mkoutcome (Ok (square_around si a)) sim g [].
Proof.
  intros H1 H2 D. unfold centered_fov, then_, get_self, lift; simpl.
  rewrite (get_silicon_position_ok _ gr si H1 H2 D). reflexivity.
Qed.

Definition view (gr : grid) (f : fov) : grid := grid_get_atoms_in_bounds gr (lower_left f) (upper_right f).

Lemma view_shows gr f : wf_grid gr -> shows f gr (view gr f).
Proof. intros W. unfold view. destruct f as [ll ur]. apply shows_bounds; auto. Qed.

Lemma observe_run sim (g : G) gr f :
  m_reset (sim_material sim) = true -> m_grid (sim_material sim) = Some gr -> sim_fov sim = Some f ->
  get_observed_grid_and_elapsed_time sim g =
    mkoutcome (Ok (view gr f, sim_image_duration sim)) sim g
      (blocks (sim_observers sim) [[ObserveTakeImage (sim_image_duration sim) f]]).
Proof.
  intros H1 H2 H3. unfold get_observed_grid_and_elapsed_time, then_, attribute, get_self, lift, notify, ret; simpl.
  rewrite H3; simpl. unfold get_atoms_in_bounds, reset_grid. rewrite H1, H2; simpl.
  unfold blocks. simpl. rewrite !app_nil_r. reflexivity.
Qed.

Lemma silicon_at_wf gr si : silicon_at gr si -> wf_grid gr.
Proof. intros (k & (W & _) & _). exact W. Qed.

Lemma image_and_recentre_run e sim (g : G) gr f a si :
  m_reset (sim_material sim) = true -> m_grid (sim_material sim) = Some gr -> silicon_at gr si ->
  sim_fov sim = Some f -> sim_fov_scale sim = Some a -> square f a -> 0 < a ->
  let d := sim_image_duration sim in
  (safe (relative_to f si) ->
   image_and_recentre e sim g =
     mkoutcome (Ok (view gr f, e + d)%Z) sim g
       (blocks (sim_observers sim) [[ObserveTakeImage d f]])) /\
  (~ safe (relative_to f si) ->
   image_and_recentre e sim g =
     mkoutcome (Ok (view gr (square_around si a), e + d + d)%Z) (with_fov sim (square_around si a)) g
       (blocks (sim_observers sim)
         [[ObserveTakeImage d f]; [ObserveFovChange (square_around si a)];
          [ObserveTakeImage d (square_around si a)]])).
Proof.
  intros H1 H2 D H3 H4 Hs Ha d.
  pose proof (view_shows gr f (silicon_at_wf _ _ D)) as V.
  destruct (safe_area_spec f a gr (view gr f) si Hs Ha V D) as [SA1 SA2].
  split; intros K; unfold image_and_recentre;
    rewrite (then_Ok _ _ _ _ (view gr f, d)) by (rewrite (observe_run sim g gr f); auto);
    rewrite (observe_run sim g gr f); auto; cbn [out_result out_sim out_rng out_trace fst snd].
  - rewrite (SA1 K). cbn. rewrite app_nil_r. reflexivity.
  - rewrite (SA2 K).
    rewrite (then_Ok _ _ _ _ true) by reflexivity. cbn [lift out_result out_sim out_rng out_trace].
    rewrite (then_Ok _ _ _ _ a) by (simpl; rewrite H4; reflexivity). cbn [attribute out_result out_sim out_rng out_trace].
    rewrite (then_Ok _ _ _ _ (square_around si a)) by (rewrite (centered_fov_run a sim g gr si); auto).
    rewrite (centered_fov_run a sim g gr si); auto. cbn [out_result out_sim out_rng out_trace].
    rewrite (then_Ok _ _ _ _ tt) by reflexivity. cbn [set_self out_result out_sim out_rng out_trace].
    rewrite (then_Ok _ _ _ _ tt) by reflexivity. cbn [notify out_result out_sim out_rng out_trace].
    pose proof (observe_run (with_fov sim (square_around si a)) g gr (square_around si a) H1 H2 eq_refl) as O2.
    rewrite (then_Ok _ _ _ _ _ ltac:(rewrite O2; reflexivity)). rewrite O2.
    cbn [ret out_result out_sim out_rng out_trace fst snd app].
    unfold blocks. cbn [flat_map]. rewrite !app_nil_r. reflexivity.
Qed.

(** rendering *)
Lemma maybe_image_run b og sim g f prm : sim_fov sim = Some f -> sim_image_parameters sim = Some prm ->
  (exists i g' grps,
     maybe_image render b og sim g = mkoutcome (Ok i) sim g' (blocks (sim_observers sim) grps) /\
     forall obs, o_grid obs = og -> o_fov obs = f -> o_image obs = i ->
       pictured render b prm obs g g' (concat grps)) \/
  (exists r g', b = true /\ render og f prm g = (r, g') /\ (forall i, r <> Ok i) /\
     maybe_image render b og sim g =
       mkoutcome (match r with Ok _ => OutOfFuel | Raise e => Raise e | OutOfFuel => OutOfFuel end) sim g' []).
Proof.
  intros H1 H2. destruct b.
  - assert (A1 : attribute sim_fov sim g = mkoutcome (Ok f) sim g []).
    { unfold attribute. rewrite H1. reflexivity. }
    assert (A2 : attribute sim_image_parameters sim g = mkoutcome (Ok prm) sim g []).
    { unfold attribute. rewrite H2. reflexivity. }
    destruct (render og f prm g) as [r g'] eqn:E.
    assert (A3 : draws (render og f prm) sim g = mkoutcome r sim g' []) by (unfold draws; rewrite E; reflexivity).
    assert (Gi : generate_image render og sim g =
      match r with Ok i => mkoutcome (Ok i) sim g' (blocks (sim_observers sim) [[ObserveGeneratedImage i]])
      | Raise e => mkoutcome (Raise e) sim g' [] | OutOfFuel => mkoutcome OutOfFuel sim g' [] end).
    { unfold generate_image. rewrite (then_Ok _ _ _ _ f) by (rewrite A1; reflexivity). rewrite A1.
      cbn [out_result out_sim out_rng out_trace app].
      rewrite (then_Ok _ _ _ _ prm) by (rewrite A2; reflexivity). rewrite A2. cbn [out_result out_sim out_rng out_trace app].
      destruct r as [i|e|].
      - rewrite (then_Ok _ _ _ _ i) by (rewrite A3; reflexivity). rewrite A3. cbn [out_result out_sim out_rng out_trace app].
        rewrite (then_Ok _ _ _ _ tt) by reflexivity. cbn [notify ret out_result out_sim out_rng out_trace app].
        unfold blocks; simpl. rewrite !app_nil_r. reflexivity.
      - rewrite (then_Raise _ _ _ _ e) by (rewrite A3; reflexivity). rewrite A3. reflexivity.
      - rewrite then_Fuel by (rewrite A3; reflexivity). rewrite A3. reflexivity. }
    unfold maybe_image. destruct r as [i|e|].
    + left. exists (Some i), g', [[ObserveGeneratedImage i]]. split.
      * rewrite (then_Ok _ _ _ _ i) by (rewrite Gi; reflexivity). rewrite Gi. cbn [ret out_result out_sim out_rng out_trace].
        rewrite app_nil_r. reflexivity.
      * intros obs Eg Ef Ei. exists i. rewrite Eg, Ef. auto.
    + right. exists (Raise e), g'. rewrite (then_Raise _ _ _ _ e) by (rewrite Gi; reflexivity). rewrite Gi.
      repeat split; auto; discriminate.
    + right. exists OutOfFuel, g'. rewrite then_Fuel by (rewrite Gi; reflexivity). rewrite Gi.
      repeat split; auto; discriminate.
  - left. exists None, g, []. split; [reflexivity|]. intros obs _ _ Ei. repeat split; auto.
Qed.

End WithRng.
