(** What the microscope sees of a material. *)
From Coq Require Import Reals ZArith List Bool Arith Lia Lra.
From Verif Require Import Base.Prelude Base.Rounding Model.Constants Model.Geometry
  Model.MicroscopeUtils Model.Graphene Spec.Grids Proofs.BaseFacts Proofs.FovFacts.
Import ListNotations.
Open Scope R_scope.

Lemma grid_bounds_fov gr ll ur :
  grid_get_atoms_in_bounds gr ll ur =
  grid_to_microscope (mkfov ll ur) (fov_get_atoms_in_bounds (mkfov ll ur) gr 0).
Proof.
  unfold grid_get_atoms_in_bounds, fov_get_atoms_in_bounds, grid_to_microscope, grid_map_pos; simpl.
  rewrite !Rminus_0_r, !Rplus_0_r. destruct ll, ur; simpl. reflexivity.
Qed.

Lemma shows_bounds gr ll ur : wf_grid gr -> shows (mkfov ll ur) gr (grid_get_atoms_in_bounds gr ll ur).
Proof.
  intros W. rewrite grid_bounds_fov.
  destruct (get_atoms_select (mkfov ll ur) gr 0 W) as [W' S].
  set (r := fov_get_atoms_in_bounds (mkfov ll ur) gr 0) in *. clearbody r.
  split.
  - unfold wf_grid, grid_to_microscope, grid_map_pos; simpl. rewrite map_length. exact W'.
  - exists (atoms r). split; [exact S|]. unfold atoms, grid_to_microscope, grid_map_pos; simpl.
    clear S. destruct r as [ps ns]; unfold wf_grid in W'; simpl in *.
    revert ns W'. induction ps as [|p ps IH]; intros [|n ns] L; simpl in *; try discriminate.
    + constructor.
    + constructor; auto.
Qed.

Lemma Forall2_fun {A B} (h : A -> B) l l' : Forall2 (fun a b => b = h a) l l' -> l' = map h l.
Proof. induction 1; simpl; congruence. Qed.

Lemma shows_fun f gr a b : shows f gr a -> shows f gr b -> a = b.
Proof.
  intros (Wa & sa & Sa & Fa) (Wb & sb & Sb & Fb).
  assert (sa = sb) by (eapply selects_fun; eauto). subst sb.
  apply atoms_inj; auto.
  assert (H : forall x, Forall2 (fun a b => fst b = relative_to f (fst a) /\ snd b = snd a) sa x ->
     x = map (fun a => (relative_to f (fst a), snd a)) sa).
  { intros x Hx. clear - Hx. induction Hx as [|[p z] [q y] la lb [E1 E2] F IH]; simpl in *; congruence. }
  rewrite (H _ Fa). apply H in Fb. congruence.
Qed.

(** every shown coordinate lies in the unit square, and converting back gives
    the atoms in view *)
Lemma shows_unit f gr out : proper f -> shows f gr out ->
  Forall (fun p => 0 <= px p <= 1 /\ 0 <= py p <= 1) (positions out).
Proof.
  intros P (W & sel & S & F). unfold wf_grid in W.
  assert (H : Forall (fun b => inside pzero (mkpt 1 1) 0 (fst b)) (atoms out)).
  { assert (Hs : Forall (fun a => inside (lower_left f) (upper_right f) 0 (fst a)) sel).
    { apply Forall_forall. intros a Ha. apply (selects_In _ _ _ S) in Ha. apply Ha. }
    clear S. induction F as [|a b la lb [E1 E2] F IH]; [constructor|].
    inversion Hs; subst. constructor; auto. rewrite E1. apply inside_relative; auto. }
  rewrite <- (map_fst_combine (positions out) (numbers out) W).
  apply Forall_forall. intros p Hp. apply in_map_iff in Hp. destruct Hp as (b & <- & Hb).
  rewrite Forall_forall in H. specialize (H b Hb). unfold inside, pzero in H; simpl in H. lra.
Qed.

Lemma shows_back f gr out : proper f -> wf_grid gr -> shows f gr out ->
  grid_to_material f out = fov_get_atoms_in_bounds f gr 0.
Proof.
  intros P Wg (W & sel & S & F).
  destruct (get_atoms_select f gr 0 Wg) as [W' S'].
  assert (sel = atoms (fov_get_atoms_in_bounds f gr 0)) by (eapply selects_fun; eauto). subst sel.
  apply atoms_inj; auto.
  { unfold wf_grid, grid_to_material, grid_map_pos; simpl. rewrite map_length. exact W. }
  assert (E : atoms (grid_to_material f out) = map (fun b => (at_relative f (fst b), snd b)) (atoms out)).
  { unfold atoms, grid_to_material, grid_map_pos; simpl. rewrite combine_map_l.
    apply map_ext. intros [p z]; simpl. rewrite to_material_pt_eq. reflexivity. }
  rewrite E. symmetry. clear E S S' W'. induction F as [|a b la lb [E1 E2] F IH]; simpl; auto.
  rewrite <- IH. rewrite E1, E2, at_relative_relative.
  - destruct a; reflexivity.
  - destruct P; lra.
  - destruct P; lra.
Qed.
