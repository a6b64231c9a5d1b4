(** Property C127: made-up observations of a sheet with one silicon atom. *)
From Coq Require Import Reals ZArith List Bool Lia Lra Arith.
From Flocq Require Import Core.
From Verif Require Import Base.Prelude Base.Rounding Base.Random Model.Constants Model.Geometry
  Model.MicroscopeUtils Model.Graphene Model.Simulator Model.TestUtils
  Spec.Grids Spec.Neighbours Spec.Lattice Spec.Material Spec.MaterialRuns Spec.Acting
  Proofs.BaseFacts Proofs.RoundingFacts Proofs.GeometryFacts Proofs.MaterialFacts Proofs.SheetFacts Proofs.LatticeFacts
  Proofs.ViewFacts Proofs.SimulatorFacts Proofs.ActingFacts Proofs.ExampleSampler Props.MaterialProps.
Import ListNotations.
Open Scope R_scope.

(** the observation is of the sheet a new material has after its reset: the
    square of 10 angstroms around its silicon atom, with every atom of the sheet
    in it and the silicon atom alone of its kind, in the middle; one and a half
    seconds after the start, with no controls and no label image *)
Theorem made_observation : forall {G} (s : sampler G) render rf g, sampler_ok s ->
  exists gr i si m g1 out,
    material_reset s (new_material rf 50) g = (Ok tt, m, g1) /\ m_grid m = Some gr /\
    graphene_sheet 50 (positions gr) /\ single_doped gr i /\ nth_error (positions gr) i = Some si /\
    let square := mkfov (mkpt (px si - 5) (py si - 5)) (mkpt (px si + 5) (py si + 5)) in
    shows square gr out /\ lone_silicon out (mkpt (1 / 2) (1 / 2)) /\
    (let seen image := mkobs out square [] 1500000%Z image None in
     create_single_silicon_observation s render rf false g = (Ok (seen None), g1) /\
     (let '(params, g2) := sample_image_parameters s 512 g1 in
      forall g3,
       (forall im, render out square params g2 = (Ok im, g3) ->
          create_single_silicon_observation s render rf true g = (Ok (seen (Some im)), g3)) /\
       (forall e, render out square params g2 = (Raise e, g3) ->
          create_single_silicon_observation s render rf true g = (Raise e, g3)))).
Proof.
  intros G s render rf g O.
  destruct (reset_material s (new_material rf 50) g O ltac:(cbn; lia)) as (gr & i & m & g1 & E & Rm & Gm & _ & _ & Sh & D & _ & P).
  pose proof D as (W & L & _).
  assert (exists si, nth_error (positions gr) i = Some si) as [si Hs].
  { destruct (nth_error (positions gr) i) eqn:X; [eauto|]. apply nth_error_None in X. unfold wf_grid in W. lia. }
  set (square := mkfov (mkpt (px si - 5) (py si - 5)) (mkpt (px si + 5) (py si + 5))).
  destruct (material_view_exact m gr (lower_left square) (upper_right square) Rm Gm W) as (out & Eo & Sw).
  exists gr, i, si, m, g1, out. cbv zeta. fold square.
  split; [exact E|]. split; [exact Gm|]. split; [exact Sh|]. split; [exact D|]. split; [exact Hs|]. split; [exact Sw|].
  assert (Wo : wf_grid out) by apply Sw.
  split.
  { apply (lone_silicon_iff _ _ Wo).
    destruct (shows_silicon square gr out si Sw (ex_intro _ i (conj D Hs))) as [V _].
    rewrite V; [|unfold inside, square; cbn; lra].
    f_equal. unfold relative_to, square. cbn. apply pt_eq; cbn; field; lra. }
  assert (T : td_seconds (3 / 2) = 1500000%Z).
  { replace (3 / 2) with (total_seconds 1500000%Z). apply td_total. unfold total_seconds. lra. }
  assert (C : forall b, create_single_silicon_observation s render rf b g =
     match image_if s render b out square g1 with
      | (Raise e, g) => (Raise e, g)
      | (OutOfFuel, g) => (OutOfFuel, g)
      | (Ok image, g) => (Ok (mkobs out square [] 1500000%Z image None), g)
      end).
  { intros b. unfold create_single_silicon_observation. rewrite E. cbn [bind]. rewrite (P si Hs). cbn [bind around_silicon].
    fold square. rewrite Eo. cbn [bind]. rewrite T. reflexivity. }
  split; [rewrite C; reflexivity|].
  destruct (sample_image_parameters s 512 g1) as [params g2] eqn:Ep. intros g3.
  split; intros x R; rewrite C; unfold image_if; rewrite Ep, R; reflexivity.
Qed.
Print Assumptions made_observation.

Lemma pnorm_psq_argmin ps : argmin (map psq ps) = argmin (map pnorm ps).
Proof.
  destruct (argmin (map psq ps)) as [i|] eqn:A.
  2:{ apply argmin_None, map_eq_nil in A. subst. reflexivity. }
  destruct (argmin (map pnorm ps)) as [j|] eqn:B.
  2:{ apply argmin_None, map_eq_nil in B. subst. discriminate. }
  apply argmin_spec in A as (Li & Mi & Fi). apply argmin_spec in B as (Lj & Mj & Fj). rewrite map_length in *.
  assert (Nq : forall k, (k < length ps)%nat -> exists p, nth k (map psq ps) 0 = psq p /\ nth k (map pnorm ps) 0 = pnorm p).
  { intros k K. exists (nth k ps pzero). rewrite (nth_indep (map psq ps) 0 (psq pzero)), (nth_indep (map pnorm ps) 0 (pnorm pzero)) by (rewrite map_length; auto).
    rewrite !map_nth. auto. }
  assert (Sq : forall p, 0 <= psq p) by (intros p; unfold psq; nra).
  f_equal. destruct (Nat.lt_trichotomy i j) as [C|[C|C]]; auto; exfalso.
  - specialize (Fj i C). specialize (Mi j Lj). destruct (Nq i Li) as (p & P1 & P2), (Nq j Lj) as (q & Q1 & Q2).
    rewrite P1, Q1 in Mi. rewrite P2, Q2 in Fj. unfold pnorm in Fj. pose proof (sqrt_le_1 _ _ (Sq p) (Sq q) Mi). lra.
  - specialize (Fi j C). specialize (Mj i Li). destruct (Nq i Li) as (p & P1 & P2), (Nq j Lj) as (q & Q1 & Q2).
    rewrite P1, Q1 in Fi. rewrite P2, Q2 in Mj. unfold pnorm in Mj.
    pose proof (sqrt_lt_1 _ _ (Sq p) (Sq q) Fi). lra.
Qed.

(** the other maker of sheets makes the sheet the material would have, from
    the same numbers of the generator *)
Theorem made_sheet : forall {G} (s : sampler G) rf g, sampler_ok s ->
  exists gr m g1, material_reset s (new_material rf 50) g = (Ok tt, m, g1) /\ m_grid m = Some gr /\
    create_single_silicon_pristine_sigr s g = (Ok gr, g1).
Proof.
  intros G s rf g O.
  destruct (reset_material s (new_material rf 50) g O ltac:(cbn; lia)) as (gr & i & m & g1 & E & _ & Gm & _).
  exists gr, m, g1. split; [exact E|]. split; [exact Gm|].
  revert E Gm. unfold material_reset, create_single_silicon_pristine_sigr. cbn [m_columns new_material].
  destruct (generate_pristine_graphene s 50 g) as [ps g'] eqn:Eg. rewrite pnorm_psq_argmin.
  destruct (argmin (map pnorm ps)) as [k|]; [|discriminate].
  intros E Gm. injection E as <- <-. cbn in Gm. injection Gm as <-. reflexivity.
Qed.
Print Assumptions made_sheet.

(** with any generator and any renderer that draws a black image *)
Example made_observation_nonvacuous : exists o o' g,
  let black : @renderer nat := fun _ _ _ g => (Ok [[0]], S g) in
  let rf : rate_function := fun _ _ => Ok [] in
  create_single_silicon_observation (ex_sampler 0) black rf false 7%nat = (Ok o, 10%nat) /\
  create_single_silicon_observation (ex_sampler 0) black rf true 7%nat = (Ok o', g) /\
  o_image o = None /\ o_image o' = Some [[0]] /\ o_grid o = o_grid o' /\
  lone_silicon (o_grid o) (mkpt (1 / 2) (1 / 2)).
Proof.
  destruct (made_observation (ex_sampler 0) (fun _ _ _ g => (Ok [[0]], S g)) (fun _ _ => Ok []) 7%nat (ex_sampler_ok 0 ltac:(lra)))
    as (gr & i & si & m & g1 & out & E & _ & _ & _ & _ & H). cbv zeta in H.
  destruct H as (_ & Ls & C & H).
  destruct (sample_image_parameters (ex_sampler 0) 512 g1) as [params g2].
  destruct (H (S g2)) as [H1 _]. specialize (H1 _ eq_refl).
  assert (g1 = 10%nat) as ->.
  { revert E. unfold material_reset, generate_pristine_graphene. cbn [s_uniform ex_sampler]. destruct (argmin _); congruence. }
  do 3 eexists. cbv zeta. split; [exact C|]. split; [exact H1|]. cbn. auto.
Qed.
