(** Lemmas about fields of view, frame conversion and selection. *)
From Coq Require Import Reals ZArith List Bool Lia Lra Arith.
From Verif Require Import Base.Prelude Model.MicroscopeUtils Spec.Grids Proofs.BaseFacts.
Import ListNotations.
Open Scope R_scope.

(** * selects *)
Lemma selects_filter {A} (P : A -> Prop) (b : A -> bool) l :
  (forall x, b x = true <-> P x) -> selects P l (filter b l).
Proof.
  intro H; induction l as [|x l IH]; simpl; [constructor|].
  destruct (b x) eqn:E.
  - constructor; auto; apply H; auto.
  - constructor; auto. intro HP; apply H in HP; congruence.
Qed.
Lemma selects_In {A} (P : A -> Prop) l r :
  selects P l r -> forall x, In x r <-> In x l /\ P x.
Proof.
  induction 1 as [|y l r Hy H IH|y l r Hy H IH]; intro x; simpl.
  - tauto.
  - rewrite IH; split; intros; intuition (subst; auto).
  - rewrite IH; split; intros; intuition (subst; auto; contradiction).
Qed.
Lemma selects_fun {A} (P : A -> Prop) l r r' :
  selects P l r -> selects P l r' -> r = r'.
Proof.
  intro H; revert r'; induction H; intros r' H'; inversion H'; subst; auto;
    try contradiction; f_equal; auto.
Qed.
Lemma selects_all {A} (P : A -> Prop) l : (forall x, In x l -> P x) -> selects P l l.
Proof. induction l; intros; constructor; simpl in *; auto. Qed.
Lemma selects_weaken {A} (P Q : A -> Prop) l r r' :
  (forall x, P x -> Q x) -> selects P l r -> selects Q l r' ->
  selects P r' r.
Proof.
  intros HPQ H; revert r'; induction H; intros r' H'; inversion H'; subst;
    try constructor; auto.
  exfalso; auto.
Qed.
Lemma selects_map {A B} (P : B -> Prop) (f : A -> B) l r :
  selects (fun x => P (f x)) l r -> selects P (map f l) (map f r).
Proof. induction 1; simpl; constructor; auto. Qed.
Lemma selects_iff {A} (P Q : A -> Prop) l r :
  (forall x, In x l -> (P x <-> Q x)) -> selects P l r -> selects Q l r.
Proof.
  intros Heq H; induction H.
  - constructor.
  - constructor; [apply Heq; simpl; auto|apply IHselects; intros; apply Heq; simpl; auto].
  - constructor; [rewrite <- Heq; simpl; auto|apply IHselects; intros; apply Heq; simpl; auto].
Qed.

(** * conversions *)
Lemma to_material_pt_eq f q : to_material_pt f q = at_relative f q.
Proof. unfold to_material_pt, at_relative; apply pt_eq; simpl; ring. Qed.
Lemma to_microscope_pt_eq f p : to_microscope_pt f p = relative_to f p.
Proof. reflexivity. Qed.

Lemma at_relative_relative f p :
  px (lower_left f) <> px (upper_right f) -> py (lower_left f) <> py (upper_right f) ->
  at_relative f (relative_to f p) = p.
Proof. intros; apply pt_eq; simpl; field; lra. Qed.
Lemma relative_at_relative f p :
  px (lower_left f) <> px (upper_right f) -> py (lower_left f) <> py (upper_right f) ->
  relative_to f (at_relative f p) = p.
Proof. intros; apply pt_eq; simpl; field; lra. Qed.

Lemma Forall2_map_iff {A B} (h : A -> B) l l' :
  Forall2 (fun p q => q = h p) l l' <-> l' = map h l.
Proof.
  split.
  - induction 1; simpl; subst; auto.
  - intros ->; induction l; simpl; constructor; auto.
Qed.

(** what both conversions do, for a point map h *)
Definition convert (h : pt -> pt) (x : payload) : res payload :=
  match x with
  | PGrid g => Ok (PGrid (grid_map_pos h g))
  | PArr1 a => arr1_map h a
  | PArr2 a => Ok (PArr2 (map h a))
  | PPoint p => Ok (PPoint (h p))
  | PControl c => Ok (PControl (control_map_pos h c))
  | POther => Raise NotImplementedError
  end.

Lemma convert_ok h x y : convert h x = Ok y <-> moved h x y.
Proof.
  split.
  - destruct x as [[ps ns]|a|a|p|[p d v c]|]; simpl; intro H.
    + injection H; intros <-; unfold grid_map_pos; simpl; constructor;
        apply Forall2_map_iff; auto.
    + destruct a as [|a0 [|a1 [|a2 a]]]; simpl in H; try discriminate.
      injection H; intros <-; constructor.
    + injection H; intros <-; constructor; apply Forall2_map_iff; auto.
    + injection H; intros <-; constructor.
    + injection H; intros <-; constructor.
    + discriminate.
  - destruct 1 as [ps ps' ns H|x y|ps ps' H|p|p d v c]; simpl; try reflexivity.
    + apply Forall2_map_iff in H; subst; reflexivity.
    + apply Forall2_map_iff in H; subst; reflexivity.
Qed.
Lemma convert_ext h h' x : (forall p, h p = h' p) -> convert h x = convert h' x.
Proof.
  intro E; destruct x as [[ps ns]|a|a|p|[p d v c]|]; simpl; auto.
  - unfold grid_map_pos; simpl; do 3 f_equal; apply map_ext; auto.
  - destruct a as [|a0 [|a1 [|a2 a]]]; simpl; auto; rewrite E; auto.
  - do 2 f_equal; apply map_ext; auto.
  - rewrite E; auto.
  - unfold control_map_pos; simpl; rewrite E; auto.
Qed.
Lemma to_material_convert f x :
  microscope_frame_to_material_frame f x = convert (at_relative f) x.
Proof.
  transitivity (convert (to_material_pt f) x); [destruct x; reflexivity|].
  apply convert_ext, to_material_pt_eq.
Qed.
Lemma to_microscope_convert f x :
  material_frame_to_microscope_frame f x = convert (relative_to f) x.
Proof. destruct x; reflexivity. Qed.

Lemma convert_inverse h h' x y :
  (forall p, h' (h p) = p) -> convert h x = Ok y -> convert h' y = Ok x.
Proof.
  intros E H; apply convert_ok in H; apply convert_ok.
  destruct H as [ps ps' ns H|a b|ps ps' H|p|p d v c].
  - constructor; apply Forall2_map_iff in H; subst; apply Forall2_map_iff.
    rewrite map_map; symmetry; rewrite <- (map_id ps) at 2; apply map_ext; auto.
  - replace [a; b] with [px (h' (mkpt (px (h (mkpt a b))) (py (h (mkpt a b)))));
                         py (h' (mkpt (px (h (mkpt a b))) (py (h (mkpt a b)))))].
    + constructor.
    + rewrite pt_eta, E; reflexivity.
  - constructor; apply Forall2_map_iff in H; subst; apply Forall2_map_iff.
    rewrite map_map; symmetry; rewrite <- (map_id ps) at 2; apply map_ext; auto.
  - rewrite <- (E p) at 2; constructor.
  - rewrite <- (E p) at 2; constructor.
Qed.

Lemma convert_raise h x e : convert h x = Raise e <->
  (e = NotImplementedError /\ x = POther) \/
  (e = ValueError /\ exists a, x = PArr1 a /\ length a <> 2%nat).
Proof.
  destruct x as [g|a|a|p|c|]; simpl; split; intro H;
    try discriminate; try (destruct H as [[_ H]|[_ [a' [H _]]]]; discriminate).
  - destruct a as [|a0 [|a1 [|a2 a]]]; simpl in H; try discriminate;
      injection H; intros <-; right; (split; auto);
      eexists; (split; [reflexivity| simpl; lia]).
  - destruct H as [[_ H]|[-> [a' [H Hl]]]]; [discriminate|].
    injection H; intros <-.
    destruct a as [|a0 [|a1 [|a2 a]]]; simpl in *; auto; lia.
  - injection H; intros <-; auto.
  - destruct H as [[-> _]|[_ [a' [H _]]]]; [auto|discriminate].
Qed.
Lemma convert_not_fuel h x : convert h x <> OutOfFuel.
Proof.
  destruct x as [g|a|a|p|c|]; simpl; try discriminate.
  destruct a as [|a0 [|a1 [|a2 a]]]; simpl; discriminate.
Qed.

Lemma div_unit a b c : b < c -> (0 <= (a - b) / (c - b) <= 1 <-> b <= a <= c).
Proof.
  intro H. assert (Hp : 0 < c - b) by lra. pose proof (Rinv_0_lt_compat _ Hp) as Hi.
  split; intros [H1 H2].
  - assert (E : a - b = (a - b) / (c - b) * (c - b)) by (field; lra).
    split; nra.
  - split; unfold Rdiv; [apply Rmult_le_pos; lra|].
    apply Rmult_le_reg_r with (c - b); auto.
    rewrite Rmult_assoc, Rinv_l by lra; lra.
Qed.
Lemma inside_relative f p : proper f ->
  (inside (lower_left f) (upper_right f) 0 p <-> inside pzero (mkpt 1 1) 0 (relative_to f p)).
Proof.
  intros [Hw Hh]. unfold inside, relative_to, pzero; simpl.
  pose proof (div_unit (px p) _ _ Hw) as Ex. pose proof (div_unit (py p) _ _ Hh) as Ey.
  split; intros [H1 H2]; split.
  - rewrite Rminus_0_r, Rplus_0_r in *; apply Ex; lra.
  - rewrite Rminus_0_r, Rplus_0_r in *; apply Ey; lra.
  - rewrite Rminus_0_r, Rplus_0_r in *; apply Ex; lra.
  - rewrite Rminus_0_r, Rplus_0_r in *; apply Ey; lra.
Qed.

(** * selection *)
Lemma in_box_inside ll ur p : in_box ll ur p = true <-> inside ll ur 0 p.
Proof.
  unfold in_box, inside; rewrite !andb_true_iff, !Rleb_true; lra.
Qed.
Lemma get_atoms_atoms f g tol : wf_grid g ->
  let r := fov_get_atoms_in_bounds f g tol in
  wf_grid r /\
  atoms r = filter (fun a => in_box (mkpt (px (lower_left f) - tol) (py (lower_left f) - tol))
                                    (mkpt (px (upper_right f) + tol) (py (upper_right f) + tol))
                                    (fst a)) (atoms g).
Proof.
  intro W; unfold fov_get_atoms_in_bounds, wf_grid, atoms in *; simpl.
  set (b := in_box _ _). split; [apply mask_select_length; auto|].
  rewrite <- mask_select_combine by auto.
  rewrite <- mask_select_filter. f_equal.
  rewrite <- (map_map fst b), map_fst_combine; auto.
Qed.
Lemma get_atoms_select f g tol : wf_grid g ->
  let r := fov_get_atoms_in_bounds f g tol in
  wf_grid r /\
  selects (fun a => inside (lower_left f) (upper_right f) tol (fst a)) (atoms g) (atoms r).
Proof.
  intros W r. destruct (get_atoms_atoms f g tol W) as [W' E]. split; auto.
  unfold r; rewrite E; apply selects_filter.
  intro x; rewrite in_box_inside; unfold inside; simpl; lra.
Qed.
Lemma grid_ext g g' : positions g = positions g' -> numbers g = numbers g' -> g = g'.
Proof. destruct g, g'; simpl; intros; subst; auto. Qed.
Lemma atoms_inj g g' : wf_grid g -> wf_grid g' -> atoms g = atoms g' -> g = g'.
Proof.
  intros W W' E; apply grid_ext.
  - rewrite <- (map_fst_combine _ _ W), <- (map_fst_combine _ _ W'); f_equal; auto.
  - rewrite <- (map_snd_combine _ _ W), <- (map_snd_combine _ _ W'); f_equal; auto.
Qed.
Lemma get_atoms_twice f g tol : wf_grid g ->
  let r := fov_get_atoms_in_bounds f g tol in
  fov_get_atoms_in_bounds f r tol = r.
Proof.
  intros W r. destruct (get_atoms_select f g tol W) as [W' S].
  destruct (get_atoms_select f r tol W') as [W'' S'].
  apply atoms_inj; auto. eapply selects_fun; [exact S'|].
  apply selects_all. intros x Hx. apply (selects_In _ _ _ S) in Hx; tauto.
Qed.
Lemma get_atoms_mono f g tol tol' : wf_grid g -> tol <= tol' ->
  selects (fun a => inside (lower_left f) (upper_right f) tol (fst a))
    (atoms (fov_get_atoms_in_bounds f g tol')) (atoms (fov_get_atoms_in_bounds f g tol)).
Proof.
  intros W H. destruct (get_atoms_select f g tol W) as [_ S].
  destruct (get_atoms_select f g tol' W) as [_ S'].
  eapply selects_weaken; [|exact S|exact S'].
  unfold inside; intros x Hx; lra.
Qed.
