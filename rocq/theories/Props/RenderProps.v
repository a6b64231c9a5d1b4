(** Property C120: what the drawings of an environment and of a video show. *)
From Coq Require Import Reals ZArith List Bool Lia Lra Arith.
From Verif Require Import Base.Prelude Base.Rounding Base.Random Model.Constants Model.Geometry Model.MicroscopeUtils
  Model.Graphene Model.Simulator Model.SimulatorObservers Model.ActionAdapters Model.Goals Model.FeatureConstructors
  Model.PlottingUtils Model.Environment Model.Drawing
  Spec.Grids Spec.Neighbours Spec.Lattice Spec.Material Spec.MaterialRuns Spec.Simulation Spec.Acting Spec.Episodes Spec.Drawing
  Proofs.BaseFacts Proofs.FovFacts Proofs.GeometryFacts Proofs.RateFacts Proofs.ExampleSampler Proofs.ActingFacts
  Proofs.SimulatorHistories Proofs.EnvironmentFacts Proofs.EpisodeFacts
  Props.SimulatorProps Props.ShippedStack Props.EnvironmentProps Props.VideoProps.
Import ListNotations.
Open Scope R_scope.

Lemma positions_with_wf n g : wf_grid g -> exists ps, positions_with n g = Ok ps /\ atoms_numbered n g ps.
Proof.
  intros W. unfold positions_with. unfold wf_grid in W. rewrite <- W, Nat.eqb_refl. eexists. split; [reflexivity|].
  eexists. split; [|reflexivity]. apply selects_filter; intros x; apply Z.eqb_eq.
Qed.
Lemma positions_with_bad n g : ~ wf_grid g -> positions_with n g = Raise IndexError.
Proof.
  intros W. unfold positions_with. destruct (Nat.eqb_spec (length (numbers g)) (length (positions g))) as [E|E]; auto.
  exfalso. apply W. unfold wf_grid. auto.
Qed.
Lemma fold_min l : forall x, (fold_left Rmin l x = x \/ In (fold_left Rmin l x) l) /\ fold_left Rmin l x <= x /\
  forall y, In y l -> fold_left Rmin l x <= y.
Proof.
  induction l as [|a l IH]; intros x; cbn [fold_left].
  - split; [auto|]. split; [lra|]. intros y [].
  - destruct (IH (Rmin x a)) as (A & B & D). pose proof (Rmin_l x a). pose proof (Rmin_r x a). split; [|split].
    + destruct A as [A|A]; [|right; right; exact A]. rewrite A. unfold Rmin. destruct (Rle_dec x a); [left; reflexivity|right; left; reflexivity].
    + lra.
    + intros y [<-|I]; [lra|auto].
Qed.
Lemma fold_max l : forall x, (fold_left Rmax l x = x \/ In (fold_left Rmax l x) l) /\ x <= fold_left Rmax l x /\
  forall y, In y l -> y <= fold_left Rmax l x.
Proof.
  induction l as [|a l IH]; intros x; cbn [fold_left].
  - split; [auto|]. split; [lra|]. intros y [].
  - destruct (IH (Rmax x a)) as (A & B & D). pose proof (Rmax_l x a). pose proof (Rmax_r x a). split; [|split].
    + destruct A as [A|A]; [|right; right; exact A]. rewrite A. unfold Rmax. destruct (Rle_dec x a); [right; left; reflexivity|left; reflexivity].
    + lra.
    + intros y [<-|I]; [lra|auto].
Qed.
Lemma least_found l : l <> [] -> exists x, least l = Ok x /\ is_least l x.
Proof.
  destruct l as [|a l]; intros N; [contradiction|]. exists (fold_left Rmin l a). split; [reflexivity|].
  destruct (fold_min l a) as (A & B & D). split.
  - destruct A as [A|A]; [left; symmetry; exact A|right; exact A].
  - intros y [<-|I]; auto.
Qed.
Lemma greatest_found l : l <> [] -> exists x, greatest l = Ok x /\ is_greatest l x.
Proof.
  destruct l as [|a l]; intros N; [contradiction|]. exists (fold_left Rmax l a). split; [reflexivity|].
  destruct (fold_max l a) as (A & B & D). split.
  - destruct A as [A|A]; [left; symmetry; exact A|right; exact A].
  - intros y [<-|I]; auto.
Qed.
Lemma map_nonempty {A B} (h : A -> B) l : l <> [] -> map h l <> [].
Proof. destruct l; [contradiction|discriminate]. Qed.

(** ** Drawing atoms *)

Definition stamped (g : grid) (time : option timedelta) (st : option stamp) : Prop :=
  match time with
  | None => st = None
  | Some t => exists x y, is_least (map px (positions g)) x /\ is_least (map py (positions g)) y /\
      st = Some (mkpt x y, format_timedelta t)
  end.

Lemma grid_drawn sz g goal control time : wf_grid g -> time = None \/ positions g <> [] ->
  exists d, plot_atomic_grid sz g goal control time = Ok d /\ stamped g time (snd d) /\
    forall xl yl, depicts (mkdrawing (fst d) (snd d) xl yl) sz g goal control [].
Proof.
  intros W N. unfold plot_atomic_grid.
  destruct (positions_with_wf CARBON g W) as (c & -> & Hc). destruct (positions_with_wf SILICON g W) as (si & -> & Hs).
  cbn [bind]. destruct time as [t|].
  - destruct N as [N|N]; [discriminate|].
    destruct (least_found (map px (positions g))) as (x & -> & Lx); [apply map_nonempty; auto|].
    destruct (least_found (map py (positions g))) as (y & -> & Ly); [apply map_nonempty; auto|].
    cbn [bind]. eexists. split; [reflexivity|]. cbn [fst snd]. split; [exists x, y; auto|].
    intros xl yl. exists c, si. split; auto. split; auto. cbn [dr_marks]. destruct goal, control; reflexivity.
  - eexists. split; [reflexivity|]. cbn [fst snd]. split; [reflexivity|].
    intros xl yl. exists c, si. split; auto. split; auto. cbn [dr_marks]. destruct goal, control; reflexivity.
Qed.

(** the microscope frame: every carbon and every silicon atom, in the order of
    the grid, the goal and the beam where given, in the unit square.  A grid
    whose numbers do not match its positions cannot be drawn, an empty one not
    with a time. *)
Theorem microscope_frame_drawn : forall g goal control time,
  (wf_grid g -> time = None \/ positions g <> [] ->
   exists d, plot_microscope_frame g goal control time = Ok d /\ depicts d (mksizes 6 8 15 10) g goal control [] /\
     stamped g time (dr_stamp d) /\ dr_xlim d = (0, 1) /\ dr_ylim d = (0, 1)) /\
  (~ wf_grid g -> plot_microscope_frame g goal control time = Raise IndexError) /\
  (wf_grid g -> positions g = [] -> forall t, time = Some t -> plot_microscope_frame g goal control time = Raise ValueError).
Proof.
  intros g goal control time. split; [|split].
  - intros W N. unfold plot_microscope_frame.
    destruct (grid_drawn default_sizes g goal control time W N) as (d & -> & S & D). cbn [bind].
    eexists. split; [reflexivity|]. split; [apply D|]. auto.
  - intros W. unfold plot_microscope_frame, plot_atomic_grid. rewrite positions_with_bad by auto. reflexivity.
  - intros W P t ->. unfold plot_microscope_frame, plot_atomic_grid.
    destruct (positions_with_wf CARBON g W) as (c & -> & Hc). destruct (positions_with_wf SILICON g W) as (si & -> & Hs).
    cbn [bind]. rewrite P. reflexivity.
Qed.
Print Assumptions microscope_frame_drawn.

Lemma selects_count n zs : forall (ps : list pt) found, length ps = length zs ->
  selects (fun a : pt * Z => snd a = n) (combine ps zs) found -> length found = count_occ Z.eq_dec zs n.
Proof.
  induction zs as [|z zs IH]; intros [|p ps] f W S; try discriminate; cbn [combine] in S; [inversion S; reflexivity|].
  injection W as W. inversion S as [|x l r Px S' E1 E2|x l r Px S' E1 E2]; subst; cbn [snd] in *; cbn [length count_occ].
  - match goal with |- context[Z.eq_dec ?u ?v] => destruct (Z.eq_dec u v) as [_|K]; [|contradiction K; reflexivity] end.
    f_equal. apply (IH ps); auto.
  - destruct (Z.eq_dec z n) as [K|_]; [contradiction|]. apply (IH ps); auto.
Qed.

(** atoms other than carbon and silicon are not drawn: as many points as carbon
    and silicon atoms, each at an atom of its kind *)
Theorem drawn_atoms : forall g d sz goal control others, wf_grid g -> depicts d sz g goal control others ->
  exists carbon silicon, nth_error (dr_marks d) 0 = Some (mkmark Dots (sz_carbon sz) carbon) /\
    nth_error (dr_marks d) 1 = Some (mkmark RedDots (sz_silicon sz) silicon) /\
    length carbon = count_number 6 g /\ length silicon = count_number 14 g /\
    (forall p, In p carbon <-> In (p, 6%Z) (atoms g)) /\ (forall p, In p silicon <-> In (p, 14%Z) (atoms g)).
Proof.
  intros g d sz goal control others W (c & si & (fc & Sc & ->) & (fs & Ss & ->) & E).
  exists (map fst fc), (map fst fs). rewrite E. split; [reflexivity|]. split; [reflexivity|].
  assert (K : forall n found, selects (fun a : pt * Z => snd a = n) (atoms g) found ->
     length (map fst found) = count_number n g /\ (forall p, In p (map fst found) <-> In (p, n) (atoms g))).
  { intros n found S. split.
    - rewrite map_length. apply (selects_count n (numbers g) (positions g)); auto.
    - intros p. rewrite in_map_iff. split.
      + intros ([q z] & E1 & I). cbn in E1. subst q. apply (selects_In _ _ _ S) in I. destruct I as [I K]. cbn in K. subst z. exact I.
      + intros I. exists (p, n). split; [reflexivity|]. apply (selects_In _ _ _ S). split; [exact I|reflexivity]. }
  destruct (K 6%Z fc Sc) as [A B]. destruct (K 14%Z fs Ss) as [A' B']. auto.
Qed.
Print Assumptions drawn_atoms.

(** the material frame: smaller marks, the outline of the field of view where
    given, and axes a twentieth wider and higher on each side than the extent
    of the atoms, so that every atom is within them *)
Theorem material_frame_drawn : forall g goal control time f,
  (wf_grid g -> positions g <> [] -> exists d x0 x1 y0 y1,
     plot_material_frame g goal control time f = Ok d /\
     depicts d (mksizes 1 2 8 2) g goal control
       (match f with Some f => [mkmark RedLine 0 (fov_outline f)] | None => [] end) /\
     stamped g time (dr_stamp d) /\
     is_least (map px (positions g)) x0 /\ is_greatest (map px (positions g)) x1 /\
     is_least (map py (positions g)) y0 /\ is_greatest (map py (positions g)) y1 /\
     dr_xlim d = (x0 - (x1 - x0) / 20, x1 + (x1 - x0) / 20) /\
     dr_ylim d = (y0 - (y1 - y0) / 20, y1 + (y1 - y0) / 20) /\
     forall p, In p (positions g) -> within_axes d p) /\
  (~ wf_grid g -> plot_material_frame g goal control time f = Raise IndexError) /\
  (wf_grid g -> positions g = [] -> plot_material_frame g goal control time f = Raise ValueError).
Proof.
  intros g goal control time f. split; [|split].
  - intros W N. unfold plot_material_frame.
    destruct (grid_drawn (mksizes 1 2 8 2) g goal control time W (or_intror N)) as (d & -> & S & D). cbn [bind].
    destruct (least_found (map px (positions g))) as (x0 & -> & Lx); [apply map_nonempty; auto|].
    destruct (greatest_found (map px (positions g))) as (x1 & -> & Gx); [apply map_nonempty; auto|].
    destruct (least_found (map py (positions g))) as (y0 & -> & Ly); [apply map_nonempty; auto|].
    destruct (greatest_found (map py (positions g))) as (y1 & -> & Gy); [apply map_nonempty; auto|].
    cbn [bind]. eexists. exists x0, x1, y0, y1. split; [reflexivity|]. split.
    { destruct (D (0, 1) (0, 1)) as (c & si & A & B & E). exists c, si. split; auto. split; auto.
      cbn [dr_marks] in *. rewrite E, app_nil_r, <- !app_assoc. reflexivity. }
    split; [exact S|]. do 4 (split; [assumption|]). cbn [dr_xlim dr_ylim].
    split; [f_equal; field|]. split; [f_equal; field|].
    intros p I. unfold within_axes. cbn [dr_xlim dr_ylim fst snd].
    pose proof (proj2 Lx _ (in_map px _ _ I)). pose proof (proj2 Gx _ (in_map px _ _ I)).
    pose proof (proj2 Ly _ (in_map py _ _ I)). pose proof (proj2 Gy _ (in_map py _ _ I)). lra.
  - intros W. unfold plot_material_frame, plot_atomic_grid. rewrite positions_with_bad by auto. reflexivity.
  - intros W P. unfold plot_material_frame, plot_atomic_grid.
    destruct (positions_with_wf CARBON g W) as (c & -> & Hc). destruct (positions_with_wf SILICON g W) as (si & -> & Hs).
    cbn [bind]. rewrite P. destruct time; reflexivity.
Qed.
Print Assumptions material_frame_drawn.

(** ** The two panels of a video frame *)

(** a frame whose grid has atoms is drawn exactly when it has a grid, a field
    of view and a control; the left panel shows the material and the outline of
    the field of view, the right one what is seen of it *)
Theorem frame_panels : forall goal f g, fr_grid f = Some g -> wf_grid g -> positions g <> [] ->
  (forall view c, fr_fov f = Some view -> fr_control f = Some c ->
   exists l r, draw_frame goal f = Ok (l, r) /\
     depicts l (mksizes 1 2 8 2) g (Some goal) (Some c) [mkmark RedLine 0 (fov_outline view)] /\
     stamped g (Some (fr_time f)) (dr_stamp l) /\
     (exists g', grid_to_microscope view g = g' /\ plot_frame goal f = Ok (g', to_microscope_pt view goal, to_microscope_pt view c) /\
        depicts r (mksizes 6 8 15 10) g' (Some (relative_to view goal)) (Some (relative_to view c)) []) /\
     dr_stamp r = None /\
     (forall p, In p (positions g) -> within_axes l p) /\
     (proper view -> forall p, inside (lower_left view) (upper_right view) 0 p <-> within_axes r (relative_to view p))) /\
  (fr_fov f = None -> draw_frame goal f = Raise AttributeError) /\
  (fr_fov f <> None -> fr_control f = None -> draw_frame goal f = Raise ValueError).
Proof.
  intros goal f g Eg W N. split; [|split].
  - intros view c Ef Ec. unfold draw_frame. rewrite Eg, Ef, Ec.
    destruct (proj1 (material_frame_drawn g (Some goal) (Some c) (Some (fr_time f)) (Some view)) W N)
      as (l & x0 & x1 & y0 & y1 & -> & D & S & _ & _ & _ & _ & _ & _ & In1). cbn [bind].
    destruct (proj1 (microscope_frame_drawn (grid_to_microscope view g) (Some (to_microscope_pt view goal))
       (Some (to_microscope_pt view c)) None)) as (r & -> & D' & S' & Xl & Yl).
    { unfold wf_grid, grid_to_microscope, grid_map_pos in *; cbn. rewrite map_length. exact W. }
    { left; reflexivity. }
    cbn [bind]. exists l, r. split; [reflexivity|]. split; [exact D|]. split; [exact S|]. split.
    { exists (grid_to_microscope view g). split; [reflexivity|]. split.
      - unfold plot_frame. rewrite Eg, Ef, Ec. reflexivity.
      - rewrite <- !to_microscope_pt_eq. exact D'. }
    split; [exact S'|]. split; [exact In1|]. intros Pv p. rewrite (inside_relative view p Pv).
    unfold within_axes, inside. rewrite Xl, Yl. cbn [fst snd px py]. split; intros [? ?]; split; simpl in *; lra.
  - intros Ef. unfold draw_frame. rewrite Eg, Ef.
    destruct (proj1 (material_frame_drawn g (Some goal) (fr_control f) (Some (fr_time f)) None) W N)
      as (l & x0 & x1 & y0 & y1 & -> & _). reflexivity.
  - intros Ef Ec. unfold draw_frame. rewrite Eg, Ec. destruct (fr_fov f) as [view|]; [|contradiction].
    destruct (proj1 (material_frame_drawn g (Some goal) None (Some (fr_time f)) (Some view)) W N)
      as (l & x0 & x1 & y0 & y1 & -> & _). reflexivity.
Qed.
Print Assumptions frame_panels.

Theorem frame_without_atoms : forall goal f,
  (fr_grid f = None -> draw_frame goal f = Raise AttributeError) /\
  (forall g, fr_grid f = Some g -> wf_grid g -> positions g = [] -> draw_frame goal f = Raise ValueError) /\
  (forall g, fr_grid f = Some g -> ~ wf_grid g -> draw_frame goal f = Raise IndexError).
Proof.
  intros goal f. split; [|split].
  - intros E. unfold draw_frame. rewrite E. reflexivity.
  - intros g E W P. unfold draw_frame. rewrite E.
    rewrite (proj2 (proj2 (material_frame_drawn g (Some goal) (fr_control f) (Some (fr_time f)) (fr_fov f))) W P). reflexivity.
  - intros g E W. unfold draw_frame. rewrite E.
    rewrite (proj1 (proj2 (material_frame_drawn g (Some goal) (fr_control f) (Some (fr_time f)) (fr_fov f))) W). reflexivity.
Qed.
Print Assumptions frame_without_atoms.

(** the outline of the field of view is a closed path along its four sides *)
Theorem outline_closed : forall f, exists a b c d, fov_outline f = [a; b; c; d; a] /\
  a = lower_left f /\ c = upper_right f /\ px b = px c /\ py b = py a /\ px d = px a /\ py d = py c.
Proof. intros [[a b] [c d]]. do 4 eexists. split; [reflexivity|]. repeat split; reflexivity. Qed.
Print Assumptions outline_closed.

(** ** render *)

(** the last control of an observation *)
Definition last_aim (o : observation) (p : option pt) : Prop :=
  match p with
  | Some p => exists cs c, o_controls o = cs ++ [c] /\ p = c_position c
  | None => o_controls o = []
  end.

(** render draws the last observation: its atoms, the goal, if it is a position
    to reach, relative to the field of view, and the last control; each call
    leaves one more figure open *)
Theorem render_shows : forall {G St Goal} (reaching : Goal -> option pt) (e : @env G St Goal) n,
  let o := env_last_observation e in
  snd (env_render reaching e n) = S n /\
  (wf_grid (o_grid o) -> exists d beam, fst (env_render reaching e n) = Ok d /\ last_aim o beam /\
     depicts d (mksizes 6 8 15 10) (o_grid o) (option_map (relative_to (o_fov o)) (reaching (env_goal e))) beam [] /\
     dr_stamp d = None /\ dr_xlim d = (0, 1) /\ dr_ylim d = (0, 1)) /\
  (~ wf_grid (o_grid o) -> fst (env_render reaching e n) = Raise IndexError).
Proof.
  intros G St Goal reaching e n o. split; [reflexivity|]. unfold env_render. fold o. cbn [fst]. split.
  - intros W. match goal with |- context[plot_microscope_frame (o_grid o) ?gp ?b None] => 
      set (goal := gp); set (beam := b) end.
    destruct (proj1 (microscope_frame_drawn (o_grid o) goal beam None) W (or_introl eq_refl)) as (d & -> & D & S & Xl & Yl).
    exists d, beam. split; [reflexivity|]. split; [|split; [|auto]].
    + unfold last_aim, beam. destruct (o_controls o) as [|c cs]; [reflexivity|].
      exists (removelast (c :: cs)), (last (c :: cs) c). split; [apply app_removelast_last; discriminate|].
      f_equal. destruct cs as [|c' cs]; [reflexivity|]. change (last (c' :: cs) c = last (c' :: cs) c). reflexivity.
    + replace (option_map (relative_to (o_fov o)) (reaching (env_goal e))) with goal; [exact D|].
      unfold goal. destruct (reaching (env_goal e)); reflexivity.
  - intros W. apply microscope_frame_drawn; auto.
Qed.
Print Assumptions render_shows.

(** the goal is within the axes exactly when it is in the field of view *)
Theorem render_goal_visible : forall {G St Goal} (reaching : Goal -> option pt) (e : @env G St Goal) n d p,
  proper (o_fov (env_last_observation e)) -> fst (env_render reaching e n) = Ok d -> reaching (env_goal e) = Some p ->
  exists q, In (mkmark GreenCross 15 [q]) (dr_marks d) /\
    (within_axes d q <-> inside (lower_left (o_fov (env_last_observation e))) (upper_right (o_fov (env_last_observation e))) 0 p).
Proof.
  intros G St Goal reaching e n d p P E Eg. destruct (render_shows reaching e n) as (_ & A & B).
  assert (W : wf_grid (o_grid (env_last_observation e))).
  { unfold wf_grid. destruct (Nat.eq_dec (length (positions (o_grid (env_last_observation e)))) (length (numbers (o_grid (env_last_observation e))))) as [K|K]; auto.
    rewrite (B K) in E. discriminate. }
  destruct (A W) as (d' & beam & E' & _ & (c & si & _ & _ & Em) & _ & Xl & Yl). rewrite E in E'. injection E' as <-.
  exists (relative_to (o_fov (env_last_observation e)) p). split.
  - rewrite Em, Eg. cbn. auto.
  - rewrite (inside_relative _ p P). unfold within_axes, inside. rewrite Xl, Yl. cbn [fst snd px py]. split; intros [? ?]; split; simpl in *; lra.
Qed.
Print Assumptions render_goal_visible.

(** every environment that was seeded, reset and stepped in any order can be
    rendered at any time; before the first reset the drawing shows a single
    silicon atom in the corner *)
Theorem render_never_raises : forall {G St Goal F} (s : sampler G) render (adapter : action_adapter G St)
  (features : feature_constructor Goal F) goal_m fuel rf cols d (reaching : Goal -> option pt) e n,
  sampler_ok s -> (2 <= cols)%nat -> hopping rf -> lives s render adapter features goal_m fuel rf cols d e ->
  exists dr si, fst (env_render reaching e n) = Ok dr /\ In (mkmark RedDots 8 [si]) (dr_marks dr) /\
    (env_last_observation e = placeholder_observation -> si = pzero).
Proof.
  intros G St Goal F s render adapter features goal_m fuel rf cols d reaching e n O C H L.
  destruct (lives_inv s render adapter features goal_m fuel rf cols d O C H e L) as [_ (si & W & _ & Ls) _].
  destruct (render_shows reaching e n) as (_ & A & _). destruct (A W) as (dr & beam & E & _ & D & _).
  exists dr. destruct (drawn_atoms _ _ _ _ _ _ W D) as (c & l & _ & E1 & _ & Ln & _ & Hl).
  destruct Ls as [L1 L2]. rewrite L1 in Ln. destruct l as [|q [|? ?]]; try discriminate.
  exists q. split; auto. split; [eapply nth_error_In; exact E1|].
  intros Ep. specialize (Hl q). rewrite Ep in Hl. cbn in Hl. destruct (proj1 Hl (or_introl eq_refl)) as [K|[]]. congruence.
Qed.
Print Assumptions render_never_raises.

(** after a reset no beam is drawn *)
Theorem render_after_reset : forall {G St Goal F} (s : sampler G) render (adapter : action_adapter G St)
  (features : feature_constructor Goal F) goal_m fuel rf cols d (reaching : Goal -> option pt) e n ts e' tr,
  sampler_ok s -> (2 <= cols)%nat -> hopping rf -> lives s render adapter features goal_m fuel rf cols d e ->
  env_reset s render adapter features goal_m e = mkenv_outcome (Ok ts) e' tr ->
  exists dr, fst (env_render reaching e' n) = Ok dr /\ forall m, In m (dr_marks dr) -> mk_style m <> BlackPoint.
Proof.
  intros G St Goal F s render adapter features goal_m fuel rf cols d reaching e n ts e' tr O C H L E.
  assert (L' : lives s render adapter features goal_m fuel rf cols d e').
  { eapply lives_lived; [exact L|]. replace e' with (eo_env (env_reset s render adapter features goal_m e)) by (rewrite E; reflexivity).
    apply lived_reset, lived_start. }
  destruct (lives_inv s render adapter features goal_m fuel rf cols d O C H e L) as [I1 _ _].
  destruct (lives_inv s render adapter features goal_m fuel rf cols d O C H e' L') as [_ (si & W & _ & _) _].
  apply env_reset_returns in E. destruct E as (obs & st & ga & g1 & goal & g2 & x & o & -> & Eo & _ & _ & _ & _ & -> & _).
  destruct (render_shows reaching (mkenv g2 ga (out_sim (sim_do_reset s render (fc_requires_image features) (env_sim e) (env_rng e))) st goal obs false) n)
    as (_ & A & _). destruct (A W) as (dr & beam & E & La & (c & sl & _ & _ & Em) & _). exists dr. split; [exact E|].
  cbn [env_last_observation] in La.
  assert (K : o_controls obs = []).
  { apply perform_Ok_reset in Eo.
    destruct (observation_shows_material s render rf cols d (env_sim e) (Reset (fc_requires_image features)) (env_rng e) obs O C H I1 Eo)
      as (gr & _ & _ & _ & _ & _ & K & _). exact K. }
  destruct beam as [b|]; [destruct La as (cs & cc & Ec & _); rewrite K in Ec; destruct cs; discriminate|].
  intros m I. rewrite Em in I. cbn [env_goal env_last_observation] in I.
  destruct (reaching goal); cbn in I; repeat (destruct I as [<-|I]; [discriminate|]); contradiction.
Qed.
Print Assumptions render_after_reset.

(** after a step the beam is drawn at the numbers of the last control.  They are
    relative to the field of view before the step, the drawing shows the one
    after it: the beam is drawn where it was exactly when the silicon has stayed
    in the safe area, otherwise it is off by the distance the field of view
    moved *)
Theorem render_beam : forall {G St Goal F} (s : sampler G) render (adapter : action_adapter G St)
  (features : feature_constructor Goal F) goal_m fuel rf cols d (reaching : Goal -> option pt) e n a ts e' tr cs c st,
  sampler_ok s -> (2 <= cols)%nat -> hopping rf -> lives s render adapter features goal_m fuel rf cols d e ->
  env_requires_reset e = false ->
  env_step s render adapter features goal_m fuel a e = mkenv_outcome (Ok ts) e' tr ->
  aa_get_action adapter (env_adapter e) (env_last_observation e) a = (Ok (cs ++ [c]), st) ->
  exists dr before si gr, fst (env_render reaching e' n) = Ok dr /\ In (mkmark BlackPoint 10 [c_position c]) (dr_marks dr) /\
    sim_fov (env_sim e) = Some before /\ m_grid (sim_material (env_sim e')) = Some gr /\ silicon_at gr si /\
    let exposed := at_relative before (c_position c) in
    let shown := at_relative (o_fov (env_last_observation e')) (c_position c) in
    (safe (relative_to before si) <-> shown = exposed) /\
    (~ safe (relative_to before si) ->
       psub shown exposed = psub si (mkpt ((px (lower_left before) + px (upper_right before)) / 2)
                                          ((py (lower_left before) + py (upper_right before)) / 2))).
Proof.
  intros G St Goal F s render adapter features goal_m fuel rf cols d reaching e n a ts e' tr cs c st O C H L Rr E Ea.
  assert (L' : lives s render adapter features goal_m fuel rf cols d e').
  { eapply lives_lived; [exact L|]. replace e' with (eo_env (env_step s render adapter features goal_m fuel a e)) by (rewrite E; reflexivity).
    apply lived_step, lived_start. }
  destruct (lives_inv s render adapter features goal_m fuel rf cols d O C H e L) as [I1 _ _].
  destruct (lives_inv s render adapter features goal_m fuel rf cols d O C H e' L') as [_ (si0 & W & Pr & _) _].
  apply env_step_returns in E; auto.
  destruct E as (cs' & st' & obs & x & ret & goal & o & Ea' & Eo & Er & _ & _ & _ & -> & _).
  rewrite Ea in Ea'. injection Ea' as <- _. cbn [env_last_observation env_sim] in *.
  match goal with |- context[env_render reaching ?e0 n] => destruct (render_shows reaching e0 n) as (_ & A & _) end.
  destruct (A W) as (dr & beam & E & La & (cb & sl & _ & _ & Em) & _). cbn [env_last_observation] in La.
  subst o.
  assert (Ep : out_result (perform s render (Step fuel (cs ++ [c]) (fc_requires_image features)) (env_sim e) (env_rng e)) = Ok (Some obs))
    by (apply perform_Ok_step; exact Er).
  assert (K : o_controls obs = cs ++ [c])
    by (apply (voltage_and_current_reported s render rf cols d (env_sim e) fuel (cs ++ [c]) (fc_requires_image features) (env_rng e) obs 0%nat c O C H I1 Ep)).
  assert (Eb : beam = Some (c_position c)).
  { destruct beam as [b|]; cbn in La.
    - destruct La as (cs' & cc & Ec & ->). rewrite K in Ec. apply app_inj_tail in Ec. destruct Ec as [_ <-]. reflexivity.
    - rewrite K in La. destruct cs; discriminate. }
  destruct (fov_moves_only_to_recentre s render rf cols d (env_sim e) fuel (cs ++ [c]) (fc_requires_image features) (env_rng e) obs O C H I1 Ep)
    as (f & gr & si & Hf & Hg & Hs & Hf' & Sf & Nsf).
  destruct (perform_step s render fuel (cs ++ [c]) (fc_requires_image features) (env_sim e) (env_rng e)) as (Eq & _). rewrite Eq in Hg.
  exists dr, f, si, gr. split; [exact E|]. split.
  { rewrite Em, Eb. apply in_or_app. right. apply in_or_app. right. left. reflexivity. }
  split; [exact Hf|]. split; [exact Hg|]. split; [exact Hs|].
  assert (Sq : px (upper_right f) - px (lower_left f) = py (upper_right f) - py (lower_left f) /\ 0 < px (upper_right f) - px (lower_left f)).
  { apply perform_Ok_step in Ep. destruct (reachable_step s render rf cols d _ fuel _ _ _ obs O C H I1 Ep) as (ps & gr0 & f0 & a0 & prm & cbs & Rd & _).
    destruct Rd. destruct ready_square as [Q1 Q2]. rewrite ready_fov in Hf. injection Hf as <-. split; lra. }
  cbv zeta. cbn [env_last_observation].
  assert (D : ~ safe (relative_to f si) -> psub (at_relative (o_fov obs) (c_position c)) (at_relative f (c_position c)) =
     psub si (mkpt ((px (lower_left f) + px (upper_right f)) / 2) ((py (lower_left f) + py (upper_right f)) / 2))).
  { intros Ns. rewrite (Nsf Ns). destruct Sq as [Sq _]. unfold width. destruct f as [[lx ly] [ux uy]]. cbn in Sq.
    unfold psub, at_relative, square_around; cbn. apply pt_eq; cbn; [field|]. replace uy with (ly + (ux - lx)) by lra. field. }
  split; [|exact D]. split.
  - intros Sa. apply Sf in Sa. rewrite Sa. reflexivity.
  - intros Es. destruct (Rle_dec (1/4) 0); [lra|]. 
    assert (Dec : safe (relative_to f si) \/ ~ safe (relative_to f si)).
    { unfold safe. set (q := relative_to f si). destruct (Rle_dec (1/4) (px q)), (Rle_dec (px q) (3/4)), (Rle_dec (1/4) (py q)), (Rle_dec (py q) (3/4)); tauto. }
    destruct Dec as [Sa|Ns]; [exact Sa|exfalso]. specialize (D Ns). rewrite Es in D.
    apply Ns. destruct Sq as [Sq Po]. unfold psub in D. injection D as D1 D2. cbn in D1, D2.
    assert (X : px si = (px (lower_left f) + px (upper_right f)) / 2) by lra.
    assert (Y : py si = (py (lower_left f) + py (upper_right f)) / 2) by lra.
    unfold safe, relative_to; cbn. rewrite X, Y.
    replace ((px (lower_left f) + px (upper_right f)) / 2 - px (lower_left f)) with ((px (upper_right f) - px (lower_left f)) / 2) by lra.
    replace ((py (lower_left f) + py (upper_right f)) / 2 - py (lower_left f)) with ((py (upper_right f) - py (lower_left f)) / 2) by lra.
    replace ((px (upper_right f) - px (lower_left f)) / 2 / (px (upper_right f) - px (lower_left f))) with (1 / 2) by (field; lra).
    replace ((py (upper_right f) - py (lower_left f)) / 2 / (py (upper_right f) - py (lower_left f))) with (1 / 2) by (field; lra).
    lra.
Qed.
Print Assumptions render_beam.

(** ** The hypotheses are met *)
Definition ex_reaching (g : goal_state) : option pt := Some (goal_position g).

Example render_nonvacuous : forall fuel, (1500000 <= Z.of_nat fuel)%Z -> exists (e e' : @env nat unit goal_state) ts tr c st,
  lives (ex_sampler 1) ex_draw_image ex_adapter (pristine_features knn_sort) (single_silicon_goal (ex_sampler 1)) fuel ex_rf 15 2000000%Z e /\
  env_requires_reset e = false /\
  env_step (ex_sampler 1) ex_draw_image ex_adapter (pristine_features knn_sort) (single_silicon_goal (ex_sampler 1)) fuel [1; 0] e
    = mkenv_outcome (Ok ts) e' tr /\
  aa_get_action ex_adapter (env_adapter e) (env_last_observation e) [1; 0] = (Ok ([] ++ [c]), st).
Proof.
  intros fuel Hf.
  destruct (shipped_stack_sessions (ex_sampler 1) ex_draw_image knn_sort 1500000%Z 1500000%Z (5 / 2) fuel 15 2000000%Z ex_env
    [CallReset; CallStep [1; 0]]) as (h & e' & Hs & Eh); try lia.
  - apply ex_sampler_ok; lra.
  - intros; simpl; lra.
  - apply knn_sort_ok.
  - apply ex_env_lives.
  - intros act [K|[K|[]]]; [discriminate|]. injection K as <-. split; [discriminate|lia].
  - inversion Hs as [|h1 e1 c1 ts1 e2 Hs1 E1 Eh1]; subst; [discriminate|].
    rewrite map_app in Eh. cbn in Eh. 
    change [CallReset; CallStep [1; 0]] with ([CallReset] ++ [CallStep [1; 0]]) in Eh. apply app_inj_tail in Eh. destruct Eh as [Eh Ec]; cbn in Ec; subst.
    inversion Hs1 as [|h2 e3 c2 ts2 e4 Hs2 E2 Eh2]; subst; [discriminate|].
    rewrite map_app in Eh. change [CallReset] with ([] ++ [CallReset]) in Eh. apply app_inj_tail in Eh. destruct Eh as [Eh Ec]; cbn in Ec; subst.
    exists e1, e'. assert (L : lives (ex_sampler 1) ex_draw_image ex_adapter (pristine_features knn_sort) (single_silicon_goal (ex_sampler 1)) fuel ex_rf 15 2000000%Z e1).
    { eapply lives_lived; [apply ex_env_lives|]. eapply session_lived. exact Hs1. }
    cbn in E1, E2.
    match type of E2 with (eo_result ?o, _) = _ => destruct o as [r ee tr0] eqn:Er end. cbn in E2. injection E2 as -> ->.
    assert (Rr : env_requires_reset e1 = false).
    { apply env_reset_returns in Er. destruct Er as (obs & st & ga & g1 & goal & g2 & x & o & _ & _ & _ & _ & _ & _ & -> & _). reflexivity. }
    match type of E1 with (eo_result ?o, _) = _ => destruct o as [r1 ee1 tr1] eqn:Er1 end. cbn in E1. injection E1 as -> ->.
    exists ts1, tr1. pose proof Er1 as Er2. apply env_step_returns in Er2; auto.
    destruct Er2 as (cs & st & obs & x & ret & goal & o & Ea & _).
    assert (One : exists c, cs = [c]).
    { destruct (shipped_adapters_one_control nat (ex_sampler 1) 1500000%Z 1500000%Z (5 / 2)) as (_ & _ & Oc & _).
      apply Oc in Ea. destruct cs as [|c [|? ?]]; try discriminate. eauto. }
    destruct One as (c & ->). exists c, st. auto.
Qed.

(** a carbon and a silicon atom and one of another kind, one of them outside
    the field of view *)
Example drawing_nonvacuous :
  let g := mkgrid [mkpt 1 1; mkpt 3 2; mkpt 0 5] [6; 14; 8]%Z in
  let view := mkfov (mkpt 0 0) (mkpt 4 4) in
  let f := mkframe (Some g) (Some view) (Some (mkpt 2 2)) 0%Z None in
  wf_grid g /\ positions g <> [] /\ proper view /\ fr_grid f = Some g /\
  atoms_numbered 6 g [mkpt 1 1] /\ atoms_numbered 14 g [mkpt 3 2] /\
  inside (lower_left view) (upper_right view) 0 (mkpt 3 2) /\ ~ inside (lower_left view) (upper_right view) 0 (mkpt 0 5).
Proof.
  cbv zeta. split; [reflexivity|]. split; [discriminate|]. split; [unfold proper; cbn; lra|]. split; [reflexivity|].
  split; [|split; [|split; unfold inside; cbn; lra]].
  - exists [(mkpt 1 1, 6%Z)]. split; [|reflexivity]. unfold atoms; cbn. repeat constructor; cbn; lia.
  - exists [(mkpt 3 2, 14%Z)]. split; [|reflexivity]. unfold atoms; cbn. apply selects_drop; [cbn; lia|]. repeat constructor; cbn; lia.
Qed.
